(** Property theorems: a restart from a file cut off inside its last number (C88). *)
From Coq Require Import String Ascii.
From Verif Require Import S_Blind S_Main S_Csv T_Csv T_Cut T_Density0 T_Log.
From stdpp Require Import list.

Lemma fields_last {N : num} {d : dim} (print_num : N -> text) (p : particle N d) : let k := (length (columns d) - 1)%nat in
  fields print_num p !! k = Some (print_num (pN p)) /\ fields print_num p = take k (fields print_num p) ++ [print_num (pN p)] /\ (k + 1 = length (columns d))%nat.
Proof. by destruct d. Qed.
Lemma glue_more c (l : list text) (s more : text) : glue c (l ++ [s ++ more]) = glue c (l ++ [s]) ++ more.
Proof.
  induction l as [|a l IH]; [done|]. cbn [app]. destruct (l ++ [s ++ more]) as [|x t] eqn:E1; [by destruct l|]. destruct (l ++ [s]) as [|y u] eqn:E2; [by destruct l|].
  change (glue c (a :: x :: t)) with (a ++ c ++ glue c (x :: t)). change (glue c (a :: y :: u)) with (a ++ c ++ glue c (y :: u)). by rewrite IH, !app_assoc.
Qed.

Section CutRun.
  Context {N : num} (cfg : config) (print_num : N -> text) (parse_num : text -> option N).
  Notation part := (particle N (cDim cfg)).
  (** C88.  An output file that lost its last characters, somewhere inside the last number of the last row (of a particle that is not a dummy), is read without error
      if what is left of that number reads as some number, and the run that starts from it is the run that starts from the whole file: same ending, same files, times and
      counts, equal particles in use after the first step. *)
  Theorem C88_cut (round : N -> N) (ps : list part) p s more v fuel cond env outs e :
    (forall q v, q ∈ ps ++ [p] -> value_of q v -> plain (print_num v) /\ parse_num (print_num v) = Some (round v)) ->
    Forall (fun q => int_type (pT q)) (ps ++ [p]) -> pT p <> Dummy -> square_ground env ->
    print_num (pN p) = s ++ more -> s <> [] -> parse_num s = Some v ->
    forall cut, write_csv print_num (ps ++ [p]) = cut ++ more ++ [newline] ->
    forall whole, read_csv parse_num (write_csv print_num (ps ++ [p])) = Read whole -> main_program (cfg := cfg) fuel cond env whole = Some (outs, e) ->
    exists qs outs', read_csv parse_num cut = Read qs /\ main_program fuel cond env qs = Some (outs', e) /\ Forall2 (same_output (cfg := cfg)) outs outs'.
  Proof.
    intros HR HT HD Hsq Hs Hne Hv cut Hcut whole Hwhole HM.
    assert ((ps ++ [p]) !! length ps = Some p) as Hp by (by apply list_lookup_middle).
    set (k := (length (columns (cDim cfg)) - 1)%nat).
    destruct (fields_last print_num p) as (Hk & Hf & Hl). fold k in Hk, Hf, Hl. rewrite Hs in Hk, Hf.
    pose proof (C87_cut_inside print_num parse_num round (ps ++ [p]) (length ps) p k s more HR HT Hp Hk Hne) as H. cbn zeta in H.
    rewrite (take_app ps [p]) in H. remember (take k (fields print_num p)) as F eqn:EF. clear EF. set (c0 := write_csv print_num ps ++ glue (lit ", ") (F ++ [s])) in *. destruct H as (_ & _ & H).
    assert (cut = c0) as ->.
    { apply (app_inv_tail (more ++ [newline])). rewrite <- Hcut. unfold c0, write_csv. rewrite map_app. cbn [map]. rewrite Hf, glue_more. rewrite T_Log.joined, <- !app_assoc.
      do 3 f_equal. unfold mjoin. cbn. by rewrite app_nil_r. }
    rewrite (C45_round_trip print_num parse_num round (ps ++ [p]) HR HT) in Hwhole. injection Hwhole as <-.
    specialize (H v Hl Hv). match type of H with _ = Read ?l => set (qs := l) in * end.
    assert (Forall2 (but_density (cfg := cfg)) (map (reread round) (ps ++ [p])) qs) as HB.
    { unfold qs. rewrite map_app. apply Forall2_app; [|constructor; [|constructor]].
      - clear. induction ps as [|q ps IH]; constructor; [done|exact IH].
      - done. }
    destruct (C88_program fuel cond env _ qs outs e Hsq HB HM) as (outs' & HM' & HF). eauto.
  Qed.
End CutRun.
