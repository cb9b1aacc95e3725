(** Specification: a script's file is loaded, and the first step succeeds (C74), for any build. *)
From Verif Require Export S_Script S_Mirror.

(** The build [cfg] loads the file, and its first time step succeeds. *)
Definition loads_and_goes (cfg : config) (parse_num parse_attr : text -> option Rnum) (xml : ptree) (parts : list (particle Rnum (cDim cfg))) : Prop :=
  exists cond env, load_all cfg parse_num parse_attr xml = Loaded (cond, env, parts) /\ one_step_succeeds cond env parts.
