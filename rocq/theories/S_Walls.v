(** Specification vocabulary: where the wall callbacks of a computer put a particle during a step. *)
From Verif Require Export S_Reach S_Sim S_Main.

Section Walls.
  Context {N : num} {cfg : config} {wm : wallmotion N (cDim cfg)}.
  Notation computer := (computer cfg wm).

  (** The position prescribed for particle [i] in a step of length [dt] from [s]: what positionWall answers, asked
      with the new time, after positionWallPre was called with the new time. *)
  Definition prescribed (dt : N) (s : computer) (i : nat) : vec N (cDim cfg) :=
    let t := eT (cEnv s) +. dt in wPos wm (wPre wm (cWall s) t dt) i t dt.
End Walls.

Section Two.
  Context {N : num} {cfg : config} {wm wm' : wallmotion N (cDim cfg)}.
  (** The two computers - their callbacks may be different programs - prescribe the same positions for every particle
      that is not fluid after a step of length [dt] from [s]. *)
  Definition same_prescriptions (dt : N) (s : computer cfg wm) (s' : computer cfg wm') : Prop :=
    forall u i p, (forward_dt dt s = Done u \/ exists e, forward_dt dt s = Throw e u) -> cParts u !! i = Some p -> pT p <> Newton ->
      prescribed dt s' i = prescribed dt s i.
  (** Both calls return, or throw the same exception (or are undefined), with the same particles. *)
  Definition same_result : outcome (computer cfg wm) -> outcome (computer cfg wm') -> Prop :=
    same_kind (fun u u' => cParts u' = cParts u) (fun _ u u' => cParts u' = cParts u).
  (** Nobody left the grid on the way from [s] to [u]: the types are unchanged. *)
  Definition nobody_left (s : computer cfg wm) (ps : list (particle N (cDim cfg))) : Prop := map pT ps = map pT (cParts s).
End Two.
