(** The scripts that evaluate the output files (Benchmark/*/*.py): the reading of the files, the front of the fluid, the surface, the reference
    number density.

    Simplifications: [csv.DictReader] without quotes and escapes (the program writes none); [int] of a text without blanks and underscores;
    [float] of a text is a parameter, as is what a number is.  Plotting is left out. *)
From Coq Require Import String Ascii.
From Verif Require Export M_Num M_Csv.
From stdpp Require Import list.

(** A row of [csv.reader] with [skipinitialspace]. *)
Fixpoint py_skip (s : text) : text := match s with c :: s' => if Ascii.eqb c " " then py_skip s' else s | [] => [] end.
Definition py_row (line : text) : list text := match line with [] => [] | _ => map py_skip (cut "," line) end.
(** [csv.DictReader(f, skipinitialspace="True")] (check_result.py:28 and others): the first row holds the keys, empty rows are left out. *)
Definition py_dicts (t : text) : list (list (text * text)) :=
  match cut newline t with
  | [] => []
  | head :: lines => map (fun line => zip (py_row head) (py_row line)) (filter (fun line => line <> []) lines)
  end.
(** [line[name]]; [None] stands for the exception KeyError. *)
Fixpoint py_get (row : list (text * text)) (name : text) : option text :=
  match row with
  | [] => None
  | (k, v) :: row => match py_get row name with Some w => Some w | None => if decide (k = name) then Some v else None end
  end.
(** [int(text)]; [None] stands for the exception ValueError. *)
Definition py_int (s : text) : option Z :=
  let '(neg, s) := read_sign s in
  if decide (s = []) then None
  else if forallb (fun c => Nat.leb 48 (Ascii.nat_of_ascii c) && Nat.leb (Ascii.nat_of_ascii c) 57) s then
    let z := foldl (fun n c => 10 * n + (Z.of_nat (Ascii.nat_of_ascii c) - 48))%Z 0%Z s in Some (if neg then (- z)%Z else z)
  else None.
(** [int(filename[10:15])] (check_result.py:32). *)
Definition py_number (filename : text) : option Z := py_int (take 5 (drop 10 filename)).

(** [sorted(os.listdir(dirname))] (check_result.py:61, koshizukaoka1996_edge.py:54, koshizukaoka1996_shape.py:18, zhouetal1999.py:50); a directory is the list of its
    files, name and content, in any order.  Insertion sort stands for the algorithm of the library. *)
Fixpoint py_less (a b : text) : bool :=
  match a, b with
  | _, [] => false
  | [], _ :: _ => true
  | c :: a, c' :: b =>
      if Nat.ltb (Ascii.nat_of_ascii c) (Ascii.nat_of_ascii c') then true
      else if Nat.ltb (Ascii.nat_of_ascii c') (Ascii.nat_of_ascii c) then false else py_less a b
  end.
Fixpoint py_insert (f : text * text) (l : list (text * text)) : list (text * text) :=
  match l with [] => [f] | g :: l => if py_less g.1 f.1 then g :: py_insert f l else f :: g :: l end.
Definition py_sorted (dir : list (text * text)) : list (text * text) := foldr py_insert [] dir.

Section Post.
  Context {N : num} (py_float : text -> option N).
  (** [max(l)]; [None] stands for the exception ValueError of an empty list. *)
  Definition py_max (l : list N) : option N :=
    match l with [] => None | x :: l => Some (foldl (fun m y => if m <?. y then y else m) x l) end.
  (** koshizukaoka1996_edge.py:14-18: the largest x of the particles of type 0. *)
  Definition py_edge (t : text) : option N :=
    data ← mapM (fun row => x ← py_get row (lit "x") ≫= py_float; ty ← py_get row (lit "Type") ≫= py_int; Some (x, ty)) (py_dicts t);
    py_max (map fst (filter (fun d => d.2 = 0%Z) data)).
  (** check_result.py:15-24, zhouetal1999.py:16-25 [calculate_n0]; [None]: r_e is not finite. *)
  Definition py_range (size : Z) : list Z := map (fun k => (Z.of_nat k - size)%Z) (seq 0 (Z.to_nat (2 * size + 1))).
  Definition py_add (r_e : N) (y : Z) (n0 : N) (x : Z) : N :=
    let r := nsqrt (nofZ (x * x + y * y)) in
    if (nofZ 0 <?. r) && (r <?. r_e) then n0 +. (r_e /. r -. nofZ 1) else n0.
  Definition py_n0 (r_e : N) : option N :=
    size ← nceil r_e;
    Some (foldl (fun n0 y => foldl (py_add r_e y) n0 (py_range size)) (nofZ 0) (py_range size)).
  (** check_result.py:28, 46-50 [output], as far as the surface is concerned: the particles whose density is below beta times the
      reference density; their distances from the origin; the largest and the smallest ([None] stands for an exception). *)
  Definition py_surface (r_e beta : N) (t : text) : option (N * N) :=
    data ← mapM (fun row =>
        x ← py_get row (lit "x") ≫= py_float; z ← py_get row (lit "z") ≫= py_float; _ ← py_get row (lit "p") ≫= py_float;
        n ← py_get row (lit "n") ≫= py_float; Some (nsqrt (x ×. x +. z ×. z), n)) (py_dicts t);
    n0 ← py_n0 r_e;
    let surface := map fst (filter (fun d => d.2 <?. n0 ×. beta) data) in
    hi ← py_max surface;
    match surface with [] => None | x :: l => Some (hi, foldl (fun m y => if y <?. m then y else m) x l) end.
  (** zhouetal1999.py:27-40 [output] with [min_n = n0*0.1] (50): the water levels at the gauges [X_H1] and [X_H2] and the mean pressure of the wall
      particles around height [Z_P2]; their positions and the diameter [D] are parameters.  [statistics.mean] adds without rounding, which is modelled
      only in exact arithmetic.  [None] stands for an exception. *)
  Definition py_level (data : list (N * N * N * N * Z)) (X l_0 min_n : N) : N :=
    foldl (fun m y => if m <?. y then y else m) (nofZ 0)
      (map (fun '(x, z, p, n, ty) => z) (filter (fun '(x, z, p, n, ty) => (nabs (x -. X) <?. l_0 /. nofZ 2) && (min_n <?. n)) data)).
  Definition py_gauges (X_H1 X_H2 Z_P2 D l_0 r_e : N) (t : text) : option (N * N * N) :=
    n0 ← py_n0 r_e;
    let min_n := n0 ×. (nofZ 1 /. nofZ 10) in
    data ← mapM (fun row =>
        x ← py_get row (lit "x") ≫= py_float; z ← py_get row (lit "z") ≫= py_float; p ← py_get row (lit "p") ≫= py_float;
        n ← py_get row (lit "n") ≫= py_float; ty ← py_get row (lit "Type") ≫= py_int; Some (x, z, p, n, ty)) (py_dicts t);
    match map (fun '(x, z, p, n, ty) => p) (filter (fun '(x, z, p, n, ty) =>
            (x <?. nofZ 0) && Z.eqb ty 1 && (nabs (z -. Z_P2) <?. D /. nofZ 2)) data) with
    | [] => None
    | ps => Some (py_level data X_H1 l_0 min_n, py_level data X_H2 l_0 min_n, foldl nadd (nofZ 0) ps /. nofZ (Z.of_nat (length ps)))
    end.
  (** check_result.py:61-67, koshizukaoka1996_edge.py:54-59, zhouetal1999.py:50-56: the value taken from each file, plotted over [range(n)*dt]; [None]: one of
      the calls of [output] raises an exception. *)
  Definition py_series {A} (output : text -> option A) (dt : N) (dir : list (text * text)) : option (list (N * A)) :=
    data ← mapM (fun f => output f.2) (py_sorted dir);
    Some (imap (fun k a => (nofZ (Z.of_nat k) ×. dt, a)) data).
  (** koshizukaoka1996_shape.py:15-22: the file of picture [i], [DT] = 0.1; [None]: there are not that many files. *)
  Definition py_picture (DT dt : N) (dir : list (text * text)) (i : nat) : option text :=
    z ← nfloor (DT /. dt); if decide (0 <= z)%Z then snd <$> py_sorted dir !! (i * Z.to_nat z)%nat else None.
End Post.
