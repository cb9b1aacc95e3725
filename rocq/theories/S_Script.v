(** Specification: the settings files of the benchmark scripts (C74). *)
From Coq Require Import ZArith Reals String Ascii.
From Verif Require Export M_Script S_Bench S_App S_Text.
From Flocq Require Import Core BinarySingleNaN.

(** The numbers a script writes as settings. *)
Definition setting_numbers {N : num} (st : settings N) (sc : scene N) : list N :=
  [stStart st; stEnd st; stInterval st; stEps st; stL0 st; stCourant st; stG st; stRho st; stNu st; stRatio st; stSurf st;
   tget D2 (scMin sc) 0; tget D2 (scMin sc) 1; tget D2 (scMax sc) 0; tget D2 (scMax sc) 1].
(** The coordinates in the particle table. *)
Definition coordinates {N : num} (ps : list (particle N D2)) : list N :=
  flat_map (fun p : particle N D2 => [tget D2 (pX p) 0; tget D2 (pX p) 1]) ps.
(** What Python promises about [str] of a finite float: a decimal numeral whose nearest double is the float; zero is written as zero. *)
Definition python_str (py_str : B64 -> text) : Prop :=
  forall x, is_finite x = true -> plain (py_str x) /\ exists v, numeral (py_str x) (Bsign x) v /\ to_double v = B2R x /\ (B2R x = 0%R -> v = 0%R).
(** The two-dimensional implicit builds. *)
Definition plane_implicit (hs hl ecs gc ds spp mid central : bool) : config := mkConfig D2 false hs hl ecs gc ds spp mid central.
(** What the program has loaded: the condition and the environment are made of the numbers of the script, the particles are those
    of the scene. *)
Definition loads_as {N : num} (hs hl ecs gc ds spp mid central : bool) (parse_num parse_attr : text -> option N) (xml : ptree) (st : settings N) (sc : scene N) : Prop :=
  exists env : environment N (plane_implicit hs hl ecs gc ds spp mid central),
    new_env (plane_implicit hs hl ecs gc ds spp mid central) (stInterval st /. nofZ (stSteps st)) (stCourant st) (stG st) (stRho st) (stNu st)
      (if spp then nofZ 0 else stSurf st) (stRatio st) (nofZ 0) (stL0 st) (scMin sc) (scMax sc) = Some env /\
    load_all (plane_implicit hs hl ecs gc ds spp mid central) parse_num parse_attr xml =
      Loaded (mkCondition (stEps st) (stStart st) (stEnd st) (stInterval st), env, scParts sc).
(** The program loads the file, and its first time step succeeds (exact arithmetic; builds with surface particles and uniform gravity). *)
Definition loads_and_steps (hs hl ecs gc ds mid : bool) (parse_num parse_attr : text -> option Rnum) (xml : ptree) (parts : list (particle Rnum D2)) : Prop :=
  exists cond env, load_all (bench_config hs hl ecs gc ds mid) parse_num parse_attr xml = Loaded (cond, env, parts) /\
    first_step_succeeds hs hl ecs gc ds mid cond env parts.
(** The settings all scripts share, and what they need. *)
Definition script_settings (st : settings Rnum) : Prop :=
  (stCourant st = 1/10 /\ stRatio st = 24/10 /\ 0 < stInterval st /\ 0 < stG st /\ / 10 ^ 12 <= stL0 st)%R /\ (1 <= stSteps st < 2 ^ 64)%Z.
(** The numbers in the file are read as what they are. *)
Definition read_as_written {N : num} (py_str : N -> text) (parse_num parse_attr : text -> option N) (st : settings N) (sc : scene N) : Prop :=
  (forall v, v ∈ setting_numbers st sc -> parse_attr (py_str v) = Some v) /\
  (forall v, v ∈ coordinates (scParts sc) -> plain (py_str v) /\ parse_num (py_str v) = Some v) /\ parse_num (lit "0") = Some (nofZ 0).
