(** The generators of the benchmark scenes (Benchmark/*/generate*.py), two-dimensional: which particles, where, and the corners
    of the domain.

    Simplification: the numbers are passed on as numbers.  The scripts write them as the shortest decimal numerals that read back
    as the same double (Python's [str]); for the text see M_Script.  Constants of the scripts (sizes, l_0, ...) are
    parameters. *)
From Verif Require Export M_Main.

(** [range(a, b)]. *)
Definition zrange (a b : Z) : list Z := map (fun n => (a + Z.of_nat n)%Z) (seq 0 (Z.to_nat (b - a))).

(** A particle of a scene: its type and the whole numbers that are multiplied by [l_0]. *)
Notation site := (ptype * Z * Z)%type.

(** The line "{0}, {1}, {2}, 0, 0, 0, 0\n" for [x = i * l_0] and [z = j * l_0]. *)
Definition site_particle {N : num} (l_0 : N) (s : site) : particle N D2 :=
  let '(t, i, j) := s in mkParticle ((nofZ i ×. l_0, nofZ j ×. l_0) : vec N D2) ((nofZ 0, nofZ 0) : vec N D2) (nofZ 0) (nofZ 0) t.

(** Three layers of dummies and a layer of wall: the inside of the loops over the floor (generate.py of StaticPressure:75-106,
    generate_koshizukaoka1996.py:77-92, generate_zhouetal1999.py:76-91). *)
Definition floor_column (i : Z) : list site :=
  [(Wall, i, -1); (Dummy, i, -2); (Dummy, i, -3); (Dummy, i, -4)]%Z.
(** Left wall (108-139; 95-110; 94-109), right wall (141-172; 113-128; 112-127), at row [j]; [w]: the width of the tank. *)
Definition left_row (j : Z) : list site :=
  [(Wall, -1, j); (Dummy, -2, j); (Dummy, -3, j); (Dummy, -4, j)]%Z.
Definition right_row (w j : Z) : list site :=
  [(Wall, w + 0, j); (Dummy, w + 1, j); (Dummy, w + 2, j); (Dummy, w + 3, j)]%Z.
(** The lower corners (174-191; 140-149; 139-148). *)
Definition corners (w : Z) : list site :=
  flat_map (fun i => flat_map (fun j => [(Dummy, -1 - i, j); (Dummy, w + i, j)]%Z) (zrange (-4) 0)) (zrange 1 4).

(** StaticPressure/generate.py:65-191: a column of water [width] wide and [height] high between walls. *)
Definition static_sites (width height : Z) : list site :=
  flat_map (fun i => map (fun j => (Newton, i, j)) (zrange 0 height)) (zrange 0 width) ++
  flat_map floor_column (zrange (-1) (width + 1)) ++
  flat_map left_row (zrange 0 (height + 1)) ++
  flat_map (right_row width) (zrange 0 (height + 1)) ++
  corners width.

(** Top of the walls (generate_koshizukaoka1996.py:131-136, generate_zhouetal1999.py:130-135). *)
Definition wall_tops (w h : Z) : list site :=
  flat_map (fun i => [(Wall, - (i + 1), h - 1); (Wall, w + i, h - 1)]%Z) (zrange 0 4).
(** The tank of the two dam break scenes: [w] wide, walls [h] high. *)
Definition dam_tank (w h : Z) : list site :=
  flat_map floor_column (zrange (-1) (w + 1)) ++
  flat_map left_row (zrange 0 (h - 1)) ++
  flat_map (right_row w) (zrange 0 (h - 1)) ++
  wall_tops w h ++
  corners w.
(** DamBreak/generate_koshizukaoka1996.py:70-149: water [l] wide and [h] high at the left wall of a tank [w] wide. *)
Definition koshizuka_sites (l h w : Z) : list site :=
  flat_map (fun i => map (fun j => (Newton, i, j)) (zrange 0 h)) (zrange 0 l) ++ dam_tank w h.
(** DamBreak/generate_zhouetal1999.py:69-148: water [w] wide and [h] high at the right wall of a tank [W] wide and [H] high. *)
Definition zhou_sites (H W h w : Z) : list site :=
  flat_map (fun i => map (fun j => (Newton, W - i - 1, j)%Z) (zrange 0 h)) (zrange 0 w) ++ dam_tank W H.
(** CentralGravity/generate.py:61-65. *)
Definition central_sites (width height : Z) : list site :=
  flat_map (fun i => map (fun j => (Newton, i, j)) (zrange (- height) (height + 1))) (zrange (- width) (width + 1)).

Section Scripts.
  Context {N : num}.
  (** What is written: the particles and the corners (minX, minZ), (maxX, maxZ). *)
  Record scene := mkScene { scParts : list (particle N D2); scMin : vec N D2; scMax : vec N D2 }.
  Definition placed (l_0 : N) (sites : list site) : list (particle N D2) := map (site_particle l_0) sites.

  (** [sys.float_info.max] and [sys.float_info.min]. *)
  Definition float_max : N := nofZ ((2 ^ 53 - 1) * 2 ^ 971).
  Definition float_min : N := nofZ 1 /. nofZ (2 ^ 1022).
  (** [min(a, b)] and [max(a, b)] of Python: the first one unless the second is smaller (larger). *)
  Definition py_min (a b : N) : N := if b <?. a then b else a.
  Definition py_max (a b : N) : N := if a <?. b then b else a.
  (** StaticPressure/generate.py:56-201; the corners are those of the box around the particles. *)
  Definition static_pressure (l_0 : N) (width height : Z) : scene :=
    let ps := placed l_0 (static_sites width height) in
    let over (pick : N -> N -> N) (a : N) (k : nat) := foldl (fun (m : N) (p : particle N D2) => pick m (tget D2 (pX p) k)) a ps in
    mkScene ps ((over py_min float_max 0%nat, over py_min float_max 1%nat) : vec N D2) ((over py_max float_min 0%nat, over py_max float_min 1%nat) : vec N D2).

  (** [math.ceil(a)]; integers that are too large for an index are left out. *)
  Definition py_ceil (a : N) : option Z := nceil a.
  (** DamBreak/generate_koshizukaoka1996.py:59-159. *)
  Definition koshizuka_oka (l_0 L height width : N) : option scene :=
    l ← py_ceil (L /. l_0); h ← py_ceil (L ×. height /. l_0); w ← py_ceil (L ×. width /. l_0);
    Some (mkScene (placed l_0 (koshizuka_sites l h w)) ((nofZ (-4) ×. l_0, nofZ (-4) ×. l_0) : vec N D2)
      ((width ×. L, height ×. nofZ 2 ×. L) : vec N D2)).
  (** DamBreak/generate_zhouetal1999.py:60-158; 1.2 is 12/10, correctly rounded. *)
  Definition zhou_et_al (l_0 H W h w : N) : option scene :=
    nH ← py_ceil (H /. l_0); nW ← py_ceil (W /. l_0); nh ← py_ceil (h /. l_0); nw ← py_ceil (w /. l_0);
    Some (mkScene (placed l_0 (zhou_sites nH nW nh nw)) ((nofZ (-4) ×. l_0, nofZ (-4) ×. l_0) : vec N D2)
      ((nofZ (nW + 4) ×. l_0, nofZ 12 /. nofZ 10 ×. nofZ nH ×. l_0) : vec N D2)).
  (** CentralGravity/generate.py:56-76. *)
  Definition central_gravity (l_0 : N) (width height areaSize : Z) : scene :=
    mkScene (placed l_0 (central_sites width height))
      ((nofZ (- areaSize) ×. l_0 ×. nofZ width, nofZ (- areaSize) ×. l_0 ×. nofZ height) : vec N D2)
      ((nofZ areaSize ×. l_0 ×. nofZ width, nofZ areaSize ×. l_0 ×. nofZ height) : vec N D2).
End Scripts.
Arguments scene : clear implicits.
