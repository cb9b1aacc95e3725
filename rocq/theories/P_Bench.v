(** Lemmas about the sites of the benchmark scenes. *)
From Coq Require Import ZifyBool.
From Verif Require Import S_Bench.
Open Scope Z_scope.

Lemma elem_of_zrange a b x : x ∈ zrange a b <-> a <= x < b.
Proof.
  unfold zrange. rewrite elem_of_list_fmap. split.
  - intros (n & -> & Hn). apply elem_of_seq in Hn. lia.
  - intros H. exists (Z.to_nat (x - a)). split; [lia|]. apply elem_of_seq. lia.
Qed.
Lemma NoDup_zrange a b : NoDup (zrange a b).
Proof. unfold zrange. apply NoDup_fmap_2; [intros x y H; lia|apply NoDup_seq]. Qed.

Lemma elem_of_flat_map {A B} (f : A -> list B) l y : y ∈ flat_map f l <-> exists x, x ∈ l /\ y ∈ f x.
Proof. rewrite elem_of_list_In, in_flat_map. split; intros (x & H1 & H2); exists x; revert H1 H2; rewrite !elem_of_list_In; tauto. Qed.
Lemma elem_of_map {A B} (f : A -> B) l y : y ∈ map f l <-> exists x, x ∈ l /\ y = f x.
Proof. rewrite (elem_of_list_fmap f l y). split; intros (x & ? & ?); eauto. Qed.

Definition cell_of (s : site) : cell := (s.1.2, s.2).
Notation cells := (map cell_of).
Lemma elem_of_cells l a b : (a, b) ∈ cells l <-> exists t, holds l t a b.
Proof.
  unfold holds. rewrite elem_of_map. split.
  - intros ([[t a'] b'] & H & [= -> ->]). eauto.
  - intros [t H]. exists (t, a, b). done.
Qed.
Lemma holds_app l1 l2 t a b : holds (l1 ++ l2) t a b <-> holds l1 t a b \/ holds l2 t a b.
Proof. apply elem_of_app. Qed.
Lemma holds_flat {A} (f : A -> list site) l t a b : holds (flat_map f l) t a b <-> exists x, x ∈ l /\ holds (f x) t a b.
Proof. apply elem_of_flat_map. Qed.
Lemma cells_app l1 l2 : NoDup (cells l1) -> NoDup (cells l2) -> (forall t t' a b, holds l1 t a b -> holds l2 t' a b -> False) ->
  NoDup (cells (l1 ++ l2)).
Proof.
  intros H1 H2 H. rewrite map_app. apply NoDup_app. split; [done|]. split; [|done]. intros [a b] Ha Hb.
  apply elem_of_cells in Ha as [t Ha]. apply elem_of_cells in Hb as [t' Hb]. by eapply H.
Qed.
Lemma cells_flat {A} (f : A -> list site) l : NoDup l -> (forall x, x ∈ l -> NoDup (cells (f x))) ->
  (forall x y t t' a b, x ∈ l -> y ∈ l -> holds (f x) t a b -> holds (f y) t' a b -> x = y) -> NoDup (cells (flat_map f l)).
Proof.
  induction l as [|x l IH]; intros Hnd Hf Hd; [constructor|]. apply list.NoDup_cons in Hnd as [Hx Hnd]. cbn [flat_map].
  apply cells_app; [apply Hf; by left|apply IH; [done|intros; apply Hf; by right|intros ? ? ? ? ? ? Ha Hb; apply Hd; by right]|].
  intros t t' a b Ha Hb. apply holds_flat in Hb as (y & Hy & Hb). apply Hx.
  rewrite (Hd x y t t' a b); [done|by left|by right|done|done].
Qed.
Lemma holds_nil t a b : holds [] t a b <-> False.
Proof. unfold holds. rewrite elem_of_nil. tauto. Qed.
Lemma holds_cons s l t a b : holds (s :: l) t a b <-> s = (t, a, b) \/ holds l t a b.
Proof. unfold holds. rewrite elem_of_cons. split; intros [H|H]; auto. Qed.

Ltac hcases H :=
  repeat (first [apply holds_cons in H as [H|H] | apply holds_nil in H; destruct H]); try (injection H as <- <- <-).

(** ** Columns, rows *)
Lemma holds_floor i t a b : holds (floor_column i) t a b <-> a = i /\ ((t = Wall /\ b = -1) \/ (t = Dummy /\ -4 <= b <= -2)).
Proof.
  unfold floor_column. rewrite !holds_cons, holds_nil. split.
  - intros [H|[H|[H|[H|[]]]]]; injection H as <- <- <-; split; auto; right; split; auto; lia.
  - intros [-> [[-> ->]|[-> Hb]]]; [by left|right]. assert (b = -2 \/ b = -3 \/ b = -4) as [->|[->| ->]] by lia; tauto.
Qed.
Lemma holds_left j t a b : holds (left_row j) t a b <-> b = j /\ ((t = Wall /\ a = -1) \/ (t = Dummy /\ -4 <= a <= -2)).
Proof.
  unfold left_row. rewrite !holds_cons, holds_nil. split.
  - intros [H|[H|[H|[H|[]]]]]; injection H as <- <- <-; split; auto; right; split; auto; lia.
  - intros [-> [[-> ->]|[-> Hb]]]; [by left|right]. assert (a = -2 \/ a = -3 \/ a = -4) as [->|[->| ->]] by lia; tauto.
Qed.
Lemma holds_right w j t a b : holds (right_row w j) t a b <-> b = j /\ ((t = Wall /\ a = w) \/ (t = Dummy /\ w + 1 <= a <= w + 3)).
Proof.
  unfold right_row. rewrite !holds_cons, holds_nil. split.
  - intros [H|[H|[H|[H|[]]]]]; injection H as <- <- <-; split; auto; try (right; split; auto; lia). left. split; auto. lia.
  - intros [-> [[-> ->]|[-> Hb]]]; [left; f_equal; f_equal; lia|right].
    assert (a = w + 1 \/ a = w + 2 \/ a = w + 3) as [->|[->| ->]] by lia; tauto.
Qed.
Lemma holds_floors l u t a b : holds (flat_map floor_column (zrange l u)) t a b <->
  l <= a < u /\ ((t = Wall /\ b = -1) \/ (t = Dummy /\ -4 <= b <= -2)).
Proof.
  rewrite holds_flat. split.
  - intros (i & Hi & H). apply elem_of_zrange in Hi. apply holds_floor in H as [-> H]. tauto.
  - intros [Ha H]. exists a. rewrite elem_of_zrange, holds_floor. tauto.
Qed.
Lemma holds_lefts l u t a b : holds (flat_map left_row (zrange l u)) t a b <->
  l <= b < u /\ ((t = Wall /\ a = -1) \/ (t = Dummy /\ -4 <= a <= -2)).
Proof.
  rewrite holds_flat. split.
  - intros (i & Hi & H). apply elem_of_zrange in Hi. apply holds_left in H as [-> H]. tauto.
  - intros [Ha H]. exists b. rewrite elem_of_zrange, holds_left. tauto.
Qed.
Lemma holds_rights w l u t a b : holds (flat_map (right_row w) (zrange l u)) t a b <->
  l <= b < u /\ ((t = Wall /\ a = w) \/ (t = Dummy /\ w + 1 <= a <= w + 3)).
Proof.
  rewrite holds_flat. split.
  - intros (i & Hi & H). apply elem_of_zrange in Hi. apply holds_right in H as [-> H]. tauto.
  - intros [Ha H]. exists b. rewrite elem_of_zrange, holds_right. tauto.
Qed.
Lemma holds_corners w t a b : holds (corners w) t a b <-> t = Dummy /\ -4 <= b <= -1 /\ (-4 <= a <= -2 \/ w + 1 <= a <= w + 3).
Proof.
  unfold corners. rewrite holds_flat. split.
  - intros (i & Hi & H). apply elem_of_zrange in Hi. apply holds_flat in H as (j & Hj & H). apply elem_of_zrange in Hj.
    hcases H; repeat split; auto; lia.
  - intros (-> & Hb & [Ha|Ha]).
    + exists (-1 - a). rewrite elem_of_zrange, holds_flat. split; [lia|]. exists b. rewrite elem_of_zrange. split; [lia|].
      apply holds_cons. left. f_equal. f_equal. lia.
    + exists (a - w). rewrite elem_of_zrange, holds_flat. split; [lia|]. exists b. rewrite elem_of_zrange. split; [lia|].
      apply holds_cons. right. apply holds_cons. left. f_equal. f_equal. lia.
Qed.
Lemma holds_water w h t a b : holds (flat_map (fun i => map (fun j => (Newton, i, j)) (zrange 0 h)) (zrange 0 w)) t a b <->
  t = Newton /\ water 0 w h a b.
Proof.
  unfold water. rewrite holds_flat. split.
  - intros (i & Hi & H). apply elem_of_zrange in Hi. apply elem_of_map in H as (j & Hj & [= -> -> ->]). apply elem_of_zrange in Hj. split; [done|]. lia.
  - intros (-> & Ha & Hb). exists a. rewrite elem_of_zrange. split; [lia|]. apply elem_of_map. exists b. rewrite elem_of_zrange. split; [lia|done].
Qed.
Lemma holds_water_right w h W t a b :
  holds (flat_map (fun i => map (fun j => (Newton, W - i - 1, j)) (zrange 0 h)) (zrange 0 w)) t a b <-> t = Newton /\ water (W - w) w h a b.
Proof.
  unfold water. rewrite holds_flat. split.
  - intros (i & Hi & H). apply elem_of_zrange in Hi. apply elem_of_map in H as (j & Hj & [= -> -> ->]). apply elem_of_zrange in Hj. split; [done|]. lia.
  - intros (-> & Ha & Hb). exists (W - a - 1). rewrite elem_of_zrange. split; [lia|]. apply elem_of_map. exists b. rewrite elem_of_zrange. split; [lia|].
    f_equal. f_equal. lia.
Qed.
Lemma holds_tops w h t a b : holds (wall_tops w h) t a b <-> t = Wall /\ rim w (h - 1) a b.
Proof.
  unfold wall_tops, rim. rewrite holds_flat. split.
  - intros (i & Hi & H). apply elem_of_zrange in Hi. hcases H; split; auto; lia.
  - intros (-> & -> & [Ha|Ha]).
    + exists (- a - 1). rewrite elem_of_zrange. split; [lia|]. apply holds_cons. left. f_equal. f_equal. lia.
    + exists (a - w). rewrite elem_of_zrange. split; [lia|]. apply holds_cons. right. apply holds_cons. left. f_equal. f_equal. lia.
Qed.
Lemma eq_type_iff (t t' : ptype) (P : Prop) : (if decide (t = t') then P else False) <-> t = t' /\ P.
Proof. destruct (decide (t = t')); tauto. Qed.
Ltac by_type t := setoid_rewrite <- eq_type_iff; destruct t; repeat (destruct (decide (_ = _)); try discriminate); try lia.

Lemma holds_dam_tank w h t a b : 0 <= w -> 1 <= h ->
  holds (dam_tank w h) t a b <->
    (t = Wall /\ (inner_wall w (h - 2) a b \/ rim w (h - 1) a b)) \/ (t = Dummy /\ behind_wall w (h - 2) a b).
Proof.
  intros Hw Hh. unfold dam_tank. rewrite !holds_app, holds_floors, holds_lefts, holds_rights, holds_corners, holds_tops.
  unfold inner_wall, behind_wall, rim. by_type t.
Qed.
Lemma holds_static w h t a b : 0 <= w -> 0 <= h ->
  holds (static_sites w h) t a b <->
    (t = Newton /\ water 0 w h a b) \/ (t = Wall /\ inner_wall w h a b) \/ (t = Dummy /\ behind_wall w h a b).
Proof.
  intros Hw Hh. unfold static_sites. rewrite !holds_app, holds_water, holds_floors, holds_lefts, holds_rights, holds_corners.
  unfold inner_wall, behind_wall, water. by_type t.
Qed.
Lemma holds_koshizuka l h w t a b : 0 <= w -> 1 <= h ->
  holds (koshizuka_sites l h w) t a b <->
    (t = Newton /\ water 0 l h a b) \/ (t = Wall /\ (inner_wall w (h - 2) a b \/ rim w (h - 1) a b)) \/ (t = Dummy /\ behind_wall w (h - 2) a b).
Proof. intros Hw Hh. unfold koshizuka_sites. rewrite holds_app, holds_water, holds_dam_tank by done. tauto. Qed.
Lemma holds_zhou H W h w t a b : 0 <= W -> 1 <= H ->
  holds (zhou_sites H W h w) t a b <->
    (t = Newton /\ water (W - w) w h a b) \/ (t = Wall /\ (inner_wall W (H - 2) a b \/ rim W (H - 1) a b)) \/ (t = Dummy /\ behind_wall W (H - 2) a b).
Proof. intros HW HH. unfold zhou_sites. rewrite holds_app, holds_water_right, holds_dam_tank by done. tauto. Qed.

(** ** One particle per cell *)
Ltac cells_small := cbn; repeat (apply list.NoDup_cons; split; [rewrite ?elem_of_cons, ?elem_of_nil; intros H; destruct_or?; simplify_eq; try lia|]); try (by apply list.NoDup_nil).
Lemma cells_floor i : NoDup (cells (floor_column i)).
Proof. cells_small. Qed.
Lemma cells_left i : NoDup (cells (left_row i)).
Proof. cells_small. Qed.
Lemma cells_right w i : NoDup (cells (right_row w i)).
Proof. cells_small. Qed.
Lemma cells_floors l u : NoDup (cells (flat_map floor_column (zrange l u))).
Proof. apply cells_flat; [apply NoDup_zrange|intros; apply cells_floor|]. intros x y t t' a b _ _ H1 H2. apply holds_floor in H1, H2. lia. Qed.
Lemma cells_lefts l u : NoDup (cells (flat_map left_row (zrange l u))).
Proof. apply cells_flat; [apply NoDup_zrange|intros; apply cells_left|]. intros x y t t' a b _ _ H1 H2. apply holds_left in H1, H2. lia. Qed.
Lemma cells_rights w l u : NoDup (cells (flat_map (right_row w) (zrange l u))).
Proof. apply cells_flat; [apply NoDup_zrange|intros; apply cells_right|]. intros x y t t' a b _ _ H1 H2. apply holds_right in H1, H2. lia. Qed.
Lemma cells_corners w : 0 <= w -> NoDup (cells (corners w)).
Proof.
  intros Hw. unfold corners. apply cells_flat; [apply NoDup_zrange| |].
  - intros i Hi. apply elem_of_zrange in Hi. apply cells_flat; [apply NoDup_zrange| |].
    + intros j _. cells_small.
    + intros x y t t' a b _ _ H1 H2. apply holds_cons in H1 as [H1|H1]; [|apply holds_cons in H1 as [H1|H1]; [|by apply holds_nil in H1]].
      all: apply holds_cons in H2 as [H2|H2]; [|apply holds_cons in H2 as [H2|H2]; [|by apply holds_nil in H2]]; simplify_eq; done.
  - intros x y t t' a b Hx Hy H1 H2. apply elem_of_zrange in Hx, Hy. apply holds_flat in H1 as (j & _ & H1). apply holds_flat in H2 as (k & _ & H2).
    apply holds_cons in H1 as [H1|H1]; [|apply holds_cons in H1 as [H1|H1]; [|by apply holds_nil in H1]].
    all: apply holds_cons in H2 as [H2|H2]; [|apply holds_cons in H2 as [H2|H2]; [|by apply holds_nil in H2]]; simplify_eq; lia.
Qed.
Lemma cells_water (f : Z -> Z) h w : (forall i j, f i = f j -> i = j) ->
  NoDup (cells (flat_map (fun i => map (fun j => (Newton, f i, j)) (zrange 0 h)) (zrange 0 w))).
Proof.
  intros Hf. apply cells_flat; [apply NoDup_zrange| |].
  - intros x _. rewrite map_map. cbn. apply (NoDup_fmap_2 (fun j => (f x, j))), NoDup_zrange.
  - intros x y t t' a b _ _ H1 H2. apply elem_of_map in H1 as (? & _ & [= -> -> ->]). apply elem_of_map in H2 as (? & _ & [= -> H2 ->]). by apply Hf.
Qed.
Lemma cells_tops w h : 0 <= w -> NoDup (cells (wall_tops w h)).
Proof.
  intros Hw. unfold wall_tops. apply cells_flat; [apply NoDup_zrange| |].
  - intros i Hi. apply elem_of_zrange in Hi. cells_small.
  - intros x y t t' a b Hx Hy H1 H2. apply elem_of_zrange in Hx, Hy.
    apply holds_cons in H1 as [H1|H1]; [|apply holds_cons in H1 as [H1|H1]; [|by apply holds_nil in H1]].
    all: apply holds_cons in H2 as [H2|H2]; [|apply holds_cons in H2 as [H2|H2]; [|by apply holds_nil in H2]]; simplify_eq; lia.
Qed.
Lemma cells_dam_tank w h : 0 <= w -> 1 <= h -> NoDup (cells (dam_tank w h)).
Proof.
  intros Hw Hh. unfold dam_tank.
  apply cells_app; [apply cells_floors|apply cells_app; [apply cells_lefts|apply cells_app; [apply cells_rights|apply cells_app; [by apply cells_tops|by apply cells_corners|]|]|]|].
  all: intros t t' a b; rewrite ?holds_app, ?holds_floors, ?holds_lefts, ?holds_rights, ?holds_corners, ?holds_tops; unfold rim; lia.
Qed.
Lemma cells_static w h : 0 <= w -> 0 <= h -> NoDup (cells (static_sites w h)).
Proof.
  intros Hw Hh. unfold static_sites.
  apply cells_app; [by apply (cells_water (fun i => i))|apply cells_app; [apply cells_floors|apply cells_app; [apply cells_lefts|apply cells_app; [apply cells_rights|by apply cells_corners|]|]|]|].
  all: intros t t' a b; rewrite ?holds_app, ?holds_water, ?holds_floors, ?holds_lefts, ?holds_rights, ?holds_corners; unfold water; lia.
Qed.
Lemma cells_koshizuka l h w : l <= w -> 0 <= w -> 1 <= h -> NoDup (cells (koshizuka_sites l h w)).
Proof.
  intros Hl Hw Hh. unfold koshizuka_sites. apply cells_app; [by apply (cells_water (fun i => i))|by apply cells_dam_tank|].
  intros t t' a b. rewrite holds_water, holds_dam_tank by done. unfold water, inner_wall, behind_wall, rim. lia.
Qed.
Lemma cells_zhou H W h w : w <= W -> 0 <= W -> 1 <= H -> NoDup (cells (zhou_sites H W h w)).
Proof.
  intros Hl HW HH. unfold zhou_sites. apply cells_app; [apply (cells_water (fun i => W - i - 1)); lia|by apply cells_dam_tank|].
  intros t t' a b. rewrite holds_water_right, holds_dam_tank by done. unfold water, inner_wall, behind_wall, rim. lia.
Qed.

Lemma holds_central w h t a b : holds (central_sites w h) t a b <-> t = Newton /\ - w <= a <= w /\ - h <= b <= h.
Proof.
  unfold central_sites. rewrite holds_flat. split.
  - intros (i & Hi & H). apply elem_of_zrange in Hi. apply elem_of_map in H as (j & Hj & [= -> -> ->]). apply elem_of_zrange in Hj. split; [done|]. lia.
  - intros (-> & Ha & Hb). exists a. split; [apply elem_of_zrange; lia|]. apply elem_of_map. exists b. split; [apply elem_of_zrange; lia|done].
Qed.
Lemma cells_central w h : NoDup (cells (central_sites w h)).
Proof.
  unfold central_sites. apply cells_flat; [apply NoDup_zrange| |].
  - intros x _. rewrite map_map. cbn. apply (NoDup_fmap_2 (fun j => (x, j))), NoDup_zrange.
  - intros x y t t' a b _ _ H1 H2. apply elem_of_map in H1 as (? & _ & [= -> -> ->]). apply elem_of_map in H2 as (? & _ & [= -> H2 ->]). done.
Qed.

(** ** Tanks *)
Lemma oa_up sites a b n : (forall k, b <= k <= b + n -> solid_or_fluid sites a k) -> 0 <= n -> open_above sites a (b + n) -> open_above sites a b.
Proof.
  intros Hs Hn H. revert Hs H. revert b. pattern n. apply natlike_ind; [|clear n Hn; intros n Hn IH|exact Hn].
  - intros b Hs H. by rewrite Z.add_0_r in H.
  - intros b Hs H. eapply (oa_next _ a b a (b + 1)); [apply Hs; lia|lia|]. apply IH; [intros; apply Hs; lia|].
    by replace (b + 1 + n) with (b + Z.succ n) by lia.
Qed.
Lemma oa_left sites a b n : (forall k, a - n <= k <= a -> solid_or_fluid sites k b) -> 0 <= n -> open_above sites (a - n) b -> open_above sites a b.
Proof.
  intros Hs Hn H. revert Hs H. revert a. pattern n. apply natlike_ind; [|clear n Hn; intros n Hn IH|exact Hn].
  - intros a Hs H. by rewrite Z.sub_0_r in H.
  - intros a Hs H. eapply (oa_next _ a b (a - 1) b); [apply Hs; lia|lia|]. apply IH; [intros; apply Hs; lia|].
    by replace (a - 1 - n) with (a - Z.succ n) by lia.
Qed.
Lemma oa_right sites a b n : (forall k, a <= k <= a + n -> solid_or_fluid sites k b) -> 0 <= n -> open_above sites (a + n) b -> open_above sites a b.
Proof.
  intros Hs Hn H. revert Hs H. revert a. pattern n. apply natlike_ind; [|clear n Hn; intros n Hn IH|exact Hn].
  - intros a Hs H. by rewrite Z.add_0_r in H.
  - intros a Hs H. eapply (oa_next _ a b (a + 1) b); [apply Hs; lia|lia|]. apply IH; [intros; apply Hs; lia|].
    by replace (a + 1 + n) with (a + Z.succ n) by lia.
Qed.
Lemma oa_top sites a b : solid_or_fluid sites a b -> (forall t a' b', holds sites t a' b' -> b' <= b) -> (exists t, holds sites t a (b - 1)) ->
  open_above sites a b.
Proof. intros H H1 H2. apply oa_here; [done|]. split; [|done]. intros t a' b' Hh Hb _. specialize (H1 t a' b' Hh). lia. Qed.

Lemma tank_static w h : 0 <= w -> 0 <= h -> tank (static_sites w h).
Proof.
  intros Hw Hh. pose proof (fun t a b => holds_static w h t a b Hw Hh) as F. split.
  { split; [by apply cells_static|]. intros t a b H%F. tauto. }
  assert (Hsf : forall a b, solid_or_fluid (static_sites w h) a b <-> water 0 w h a b \/ inner_wall w h a b).
  { intros a b. unfold solid_or_fluid. rewrite !F. intuition discriminate. }
  assert (HL : open_above (static_sites w h) (-1) h).
  { apply oa_top; [apply Hsf; unfold inner_wall; lia| |].
    - intros t a b H%F. unfold water, inner_wall, behind_wall in H. lia.
    - exists Wall. apply F. right. left. split; [done|]. unfold inner_wall. lia. }
  assert (HR : open_above (static_sites w h) w h).
  { apply oa_top; [apply Hsf; unfold inner_wall; lia| |].
    - intros t a b H%F. unfold water, inner_wall, behind_wall in H. lia.
    - exists Wall. apply F. right. left. split; [done|]. unfold inner_wall. lia. }
  assert (HLu : forall b, -1 <= b <= h -> open_above (static_sites w h) (-1) b).
  { intros b Hb. apply (oa_up _ _ _ (h - b)); [intros k Hk; apply Hsf; unfold inner_wall; lia|lia|]. by replace (b + (h - b)) with h by lia. }
  intros a b Hab. apply Hsf in Hab.
  destruct (decide (a = w)) as [->|Hne].
  { apply (oa_up _ _ _ (h - b)); [intros k Hk; apply Hsf|..|by replace (b + (h - b)) with h by lia]; unfold inner_wall, water in *; lia. }
  apply (oa_left _ _ _ (a + 1)); [intros k Hk; apply Hsf|..|replace (a - (a + 1)) with (-1) by lia; apply HLu]; unfold inner_wall, water in *; lia.
Qed.
Lemma tank_koshizuka l h w : l <= w -> 0 <= w -> 1 <= h -> tank (koshizuka_sites l h w).
Proof.
  intros Hl Hw Hh. pose proof (fun t a b => holds_koshizuka l h w t a b Hw Hh) as F. set (K := koshizuka_sites l h w) in *. split.
  { split; [by apply cells_koshizuka|]. intros t a b H%F. tauto. }
  assert (Hsf : forall a b, solid_or_fluid K a b <-> water 0 l h a b \/ inner_wall w (h - 2) a b \/ rim w (h - 1) a b).
  { intros a b. unfold solid_or_fluid. rewrite !F. intuition discriminate. }
  assert (HT : forall a, (-4 <= a <= -1 \/ w <= a <= w + 3) -> open_above K a (h - 1)).
  { intros a Ha. apply oa_top; [apply Hsf; unfold inner_wall, rim; lia| |].
    - intros t a' b H%F. unfold water, inner_wall, behind_wall, rim in H. lia.
    - destruct (decide (a = -1 \/ a = w)).
      + exists Wall. apply F. right. left. split; [done|]. unfold inner_wall. lia.
      + exists Dummy. apply F. right. right. split; [done|]. unfold behind_wall. lia. }
  assert (HLu : forall b, -1 <= b <= h - 1 -> open_above K (-1) b).
  { intros b Hb. apply (oa_up _ _ _ (h - 1 - b)); [intros k Hk; apply Hsf; unfold inner_wall, rim; lia|lia|].
    replace (b + (h - 1 - b)) with (h - 1) by lia. apply HT. lia. }
  intros a b Hab. apply Hsf in Hab.
  destruct (decide (rim w (h - 1) a b)) as [[-> Ha]|Hr]; [by apply HT|].
  destruct (decide (a = w)) as [->|Hne].
  { apply (oa_up _ _ _ (h - 1 - b)); [intros k Hk; apply Hsf|..|replace (b + (h - 1 - b)) with (h - 1) by lia; apply HT];
      unfold inner_wall, water, rim in *; lia. }
  apply (oa_left _ _ _ (a + 1)); [intros k Hk; apply Hsf|..|replace (a - (a + 1)) with (-1) by lia; apply HLu]; unfold inner_wall, water, rim in *; lia.
Qed.
Lemma tank_zhou H W h w : w <= W -> h <= H -> 0 <= W -> 1 <= H -> tank (zhou_sites H W h w).
Proof.
  intros Hl Hh HW HH. pose proof (fun t a b => holds_zhou H W h w t a b HW HH) as F. set (K := zhou_sites H W h w) in *. split.
  { split; [by apply cells_zhou|]. intros t a b Hx%F. tauto. }
  assert (Hsf : forall a b, solid_or_fluid K a b <-> water (W - w) w h a b \/ inner_wall W (H - 2) a b \/ rim W (H - 1) a b).
  { intros a b. unfold solid_or_fluid. rewrite !F. intuition discriminate. }
  assert (HT : forall a, (-4 <= a <= -1 \/ W <= a <= W + 3) -> open_above K a (H - 1)).
  { intros a Ha. apply oa_top; [apply Hsf; unfold inner_wall, rim; lia| |].
    - intros t a' b Hx%F. unfold water, inner_wall, behind_wall, rim in Hx. lia.
    - destruct (decide (a = -1 \/ a = W)).
      + exists Wall. apply F. right. left. split; [done|]. unfold inner_wall. lia.
      + exists Dummy. apply F. right. right. split; [done|]. unfold behind_wall. lia. }
  assert (HRu : forall b, -1 <= b <= H - 1 -> open_above K W b).
  { intros b Hb. apply (oa_up _ _ _ (H - 1 - b)); [intros k Hk; apply Hsf; unfold inner_wall, rim; lia|lia|].
    replace (b + (H - 1 - b)) with (H - 1) by lia. apply HT. lia. }
  intros a b Hab. apply Hsf in Hab.
  destruct (decide (rim W (H - 1) a b)) as [[-> Ha]|Hr]; [by apply HT|].
  destruct (decide (a = -1)) as [->|Hne].
  { apply (oa_up _ _ _ (H - 1 - b)); [intros k Hk; apply Hsf|..|replace (b + (H - 1 - b)) with (H - 1) by lia; apply HT];
      unfold inner_wall, water, rim in *; lia. }
  apply (oa_right _ _ _ (W - a)); [intros k Hk; apply Hsf|..|replace (a + (W - a)) with W by lia; apply HRu]; unfold inner_wall, water, rim in *; lia.
Qed.
