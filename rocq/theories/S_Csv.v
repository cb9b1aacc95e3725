(** Particle tables as text: what the columns and rows of a text are. *)
From Coq Require Import String Ascii.
From Verif Require Export M_Csv.

(** [spaced s t]: [t] is [s] with blanks and tabs inserted anywhere. *)
Inductive spaced : text -> text -> Prop :=
  | spaced_nil : spaced [] []
  | spaced_same c s t : spaced s t -> spaced (c :: s) (c :: t)
  | spaced_blank s t : spaced s t -> spaced s (" "%char :: t)
  | spaced_tab s t : spaced s t -> spaced s (tab :: t).

(** Pieces put together with a separator between them. *)
Fixpoint joined (c : ascii) (l : list text) : text :=
  match l with [] => [] | [a] => a | a :: l => a ++ c :: joined c l end.

(** An item: no separator, line end or blank in it. *)
Definition plain (s : text) : Prop :=
  forall c, c ∈ s -> c <> ","%char /\ c <> newline /\ c <> " "%char /\ c <> tab.

(** A line with the given items. *)
Definition line_of (items : list text) (line : text) : Prop :=
  Forall plain items /\ spaced (joined "," items) line /\ joined "," items <> [].

(** A line of nothing but blanks and tabs. *)
Definition blank_line (line : text) : Prop := spaced [] line.

(** The lines below the header: one for each row, blank lines between. *)
Inductive lines_of : list (list text) -> list text -> Prop :=
  | lines_nil : lines_of [] []
  | lines_blank rows line lines : blank_line line -> lines_of rows lines -> lines_of rows (line :: lines)
  | lines_row row rows line lines :
      line_of row line -> lines_of rows lines -> lines_of (row :: rows) (line :: lines).

(** A text showing a table: empty lines, the line with the column names, the rows. *)
Definition shows (csv : text) (head : list text) (rows : list (list text)) : Prop :=
  exists empty first lines,
    csv = joined newline (replicate empty [] ++ first :: lines) /\
    Forall (fun line => newline ∉ line) (first :: lines) /\
    line_of head first /\ lines_of rows lines.

(** The column of a name: the last one called so. *)
Definition column_is (head : list text) (name : text) (k : nat) : Prop :=
  head !! k = Some name /\ forall k', (k < k')%nat -> head !! k' <> Some name.
Definition cell (head row : list text) (name s : text) : Prop :=
  exists k, column_is head name k /\ row !! k = Some s.

(** The columns of a table, by dimension. *)
Definition axis_name (d : dim) (k : nat) : text :=
  lit (match d, k with
       | _, O => "x" | D2, _ => "z" | D3, 1%nat => "y" | D3, _ => "z"
       end)%string.
Definition speed_name (d : dim) (k : nat) : text :=
  lit (match d, k with
       | _, O => "u" | D2, _ => "w" | D3, 1%nat => "v" | D3, _ => "w"
       end)%string.
Definition known (d : dim) (name : text) : Prop :=
  name = lit "Type" \/ name = lit "p" \/ name = lit "n" \/
  exists k, (k < dimn d)%nat /\ (name = axis_name d k \/ name = speed_name d k).

(** A decimal whole number at the start of a text: white space, perhaps a sign, digits, then anything but
    a digit; the number fits an [int] of 32 bits. *)
Definition digit (c : ascii) : Prop := (48 <= Ascii.nat_of_ascii c <= 57)%nat.
Definition white (c : ascii) : Prop := Ascii.nat_of_ascii c = 32%nat \/ (9 <= Ascii.nat_of_ascii c <= 13)%nat.
Definition decimal (digits : text) : Z :=
  foldl (fun n c => 10 * n + (Z.of_nat (Ascii.nat_of_ascii c) - 48))%Z 0%Z digits.
Definition means_int (s : text) (z : Z) : Prop :=
  exists blanks sign digits rest,
    s = blanks ++ sign ++ digits ++ rest /\
    Forall white blanks /\ Forall digit digits /\ digits <> [] /\
    (forall c rest', rest = c :: rest' -> ~ digit c) /\
    ((sign = [] \/ sign = ["+"%char]) /\ z = decimal digits \/ sign = ["-"%char] /\ z = (- decimal digits)%Z) /\
    (-2^31 <= z < 2^31)%Z.

(** The numbers of the types (Particle.hpp:12-28): 0 fluid, 1 wall, 2 dummy, 3 disabled; any other number is a type of its own. *)
Definition type_is (z : Z) (t : ptype) : Prop :=
  z = 0%Z /\ t = Newton \/ z = 1%Z /\ t = Wall \/ z = 2%Z /\ t = Dummy \/ z = 3%Z /\ t = Disabled \/ (z < 0 \/ 3 < z)%Z /\ t = Other z.
Definition type_number (t : ptype) : Z :=
  match t with Newton => 0 | Wall => 1 | Dummy => 2 | Disabled => 3 | Other z => z end%Z.
(** The text of a whole number: perhaps a minus sign, digits, no zero in front. *)
Definition whole_text (z : Z) (s : text) : Prop :=
  exists digits, s = (if (z <? 0)%Z then "-"%char :: digits else digits) /\ Forall digit digits /\ decimal digits = Z.abs z /\
    (digits = ["0"%char] \/ exists c rest, digits = c :: rest /\ c <> "0"%char).

(** The particle a row describes. *)
Definition describes {N : num} {d : dim} (parse_num : text -> option N)
    (head row : list text) (p : particle N d) : Prop :=
  (exists s z, cell head row (lit "Type") s /\ means_int s z /\ type_is z (pT p)) /\
  (forall k, (k < dimn d)%nat ->
     (exists s, cell head row (axis_name d k) s /\ parse_num s = Some (tget d (pX p) k)) /\
     (exists s, cell head row (speed_name d k) s /\ parse_num s = Some (tget d (pU p) k))) /\
  (exists s, cell head row (lit "p") s /\ parse_num s = Some (pP p)) /\
  (exists s, cell head row (lit "n") s /\ parse_num s = Some (pN p)).

(** A table with its columns in another order: [order] lists the old column numbers. *)
Definition reorder (order : list nat) (row : list text) : list text :=
  omap (fun k => row !! k) order.

Section Spec.
  Context {N : num} {d : dim} (print_num : N -> text).
  Notation part := (particle N d).

  (** The numbers of a particle. *)
  Definition value_of (p : part) (v : N) : Prop :=
    v = pP p \/ v = pN p \/ exists k, (k < dimn d)%nat /\ (v = tget d (pX p) k \/ v = tget d (pU p) k).

  (** The line of a particle. *)
  Definition line_shows (p : part) (line : text) : Prop :=
    let c := lit ", " in
    exists type, whole_text (type_number (pT p)) type /\ line =
    type ++ c ++
    mjoin (map (fun k => print_num (tget d (pX p) k) ++ c) (seq 0 (dimn d))) ++
    mjoin (map (fun k => print_num (tget d (pU p) k) ++ c) (seq 0 (dimn d))) ++
    print_num (pP p) ++ c ++ print_num (pN p).
  (** What is read back from a particle that was written. *)
  Definition reread (round : N -> N) (p : part) : part :=
    mkParticle (tmk d (fun k => round (tget d (pX p) k))) (tmk d (fun k => round (tget d (pU p) k)))
               (round (pP p)) (round (pN p)) (pT p).
  (** Types that are the value of an [int]. *)
  Definition int_type (t : ptype) : Prop := exists z, (-2^31 <= z < 2^31)%Z /\ type_is z t.

End Spec.
