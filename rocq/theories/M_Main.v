(** Main.cpp: the application's main loop. *)
From Verif Require Export M_Computer.

Section Main.
  Context {N : num} (cfg : config).
  Notation d := (cDim cfg).
  Notation V := (vec N d).
  Notation part := (particle N d).

  (** Main.cpp:311-318: walls stay at their initial positions.  [initialPosition[i]] is
      only asked for particle numbers in range. *)
  Definition fixed_walls (init : list V) : wallmotion N d := {|
    wS := unit;
    wPre := fun _ _ _ => tt;
    wPos := fun _ i _ _ => nth i init vzero
  |}.

  (** ComputingCondition.hpp:9-52. *)
  Record condition := mkCondition { coEps : N; coStart : N; coEnd : N; coInterval : N }.

  (** Main.cpp:202-255 [LoadEnvironment], after the values have been read from the XML file. *)
  Definition load_environment (cond : condition) (minSteps : Z)
      (courant g rho nu surf r_eByl_0 c l_0 : N) (minX maxX : V) : option (environment N cfg) :=
    new_env cfg (coInterval cond /. nofZ minSteps) courant g rho nu surf r_eByl_0 c l_0 minX maxX.

  (** One output file (Main.cpp:31-67) with what is reported about it on the screen
      (339-352): number, time, iteration, number of particles not disabled. *)
  Record output := mkOutput {
    oNumber : Z; oTime : N; oIter : nat; oParts : list part; oCount : nat
  }.

  (** Main.cpp:45-66: the value returned by [OutputToCsv]. *)
  Definition output_count (ps : list part) : nat :=
    foldl (fun n p => if is_disabled (pT p) then n else S n) 0%nat ps.

  (** How the program ends.  Main.cpp:386-394: the exception caught is that of the computer;
      the grid's (Grid.hpp:317), of an unrelated class, escapes from [main] and the
      program is terminated. *)
  Inductive ending :=
    | Finished                                        (* exit code 0 *)
    | ErrorMessage (t : N) (iter : nat) (number : Z)  (* message, then "finished", exit code 0 *)
    | Terminated                                      (* std::terminate *)
    | Undefined.

  (** Main.cpp:398-400: [return 0] whenever [main] returns. *)
  Definition exit_code (e : ending) : option Z :=
    match e with Finished | ErrorMessage _ _ _ => Some 0%Z | Terminated | Undefined => None end.

  Context (init : list V).
  Notation computer := (computer cfg (fixed_walls init)).

  (** Main.cpp:370-376: steps until the next output time; [None]: [fuel] steps are not enough. The
      number is [iteration]; it is incremented only after a successful step. *)
  Fixpoint until (fuel : nat) (target : N) (s : computer) (iter : nat)
    : option (outcome computer * N * nat) :=
    match fuel with
    | O => None
    | S fuel =>
        if eT (cEnv s) <?. target then
          match forward s with
          | Done s' => until fuel target s' (S iter)
          | o => Some (o, eT (cEnv s), iter)
          end
        else Some (Done s, eT (cEnv s), iter)
    end.

  (** Main.cpp:363-395: the loop over the outputs, [todo] of them still to be written; the
      files written and how it ends. *)
  Fixpoint main_loop (fuel : nat) (cond : condition) (todo : nat) (number : Z) (nextOutputT : N)
      (s : computer) (iter : nat) : option (list output * ending) :=
    match todo with
    | O => Some ([], Finished)
    | S todo =>
        let target := nextOutputT +. coInterval cond in
        match until fuel target s iter with
        | None => None
        | Some (Done s', t, iter') =>
            let out := mkOutput number (t +. coStart cond) iter' (cParts s') (output_count (cParts s')) in
            match main_loop fuel cond todo (number + 1) target s' iter' with
            | Some (outs, e) => Some (out :: outs, e)
            | None => None
            end
        | Some (Throw CgNotConverged _, t, iter') => Some ([], ErrorMessage t iter' number)
        | Some (Throw TooManyParticles _, _, _) => Some ([], Terminated)
        | Some (Undef, _, _) => Some ([], Undefined)
        end
    end.

  (** Main.cpp:336, 362: [static_cast<std::size_t>(std::ceil(a))]; negative values are
      undefined (values from 2^63 on are treated as undefined as well). *)
  Definition ceil_size (a : N) : option Z :=
    z ← nceil a; if (0 <=? z)%Z then Some z else None.
End Main.
Arguments until {N cfg init}.
Arguments main_loop {N cfg init}.
Arguments mkCondition {N}. Arguments coEps {N}. Arguments coStart {N}. Arguments coEnd {N}. Arguments coInterval {N}.
Arguments oNumber {N cfg}. Arguments oTime {N cfg}. Arguments oIter {N cfg}. Arguments oParts {N cfg}. Arguments oCount {N cfg}.
Arguments output_count {N cfg}.
Arguments Finished {N}. Arguments ErrorMessage {N}. Arguments Terminated {N}. Arguments Undefined {N}.
Arguments exit_code {N}.
Arguments load_environment {N cfg}.

Section Program.
  Context {N : num} {cfg : config}.

  (** Main.cpp:303-400: the program from the loaded data on.  [None] only if [fuel] does not
      suffice. *)
  Definition main_program (fuel : nat) (cond : condition) (env : environment N cfg)
      (particles : list (particle N (cDim cfg))) : option (list (output cfg) * ending (N := N)) :=
    let init := map pX particles in
    match new_computer cfg (fixed_walls cfg init) (coEps cond) env tt with
    | None => Some ([], Undefined)
    | Some s0 =>
        let s := add_particles particles s0 in
        match ceil_size (coStart cond /. coInterval cond) with
        | None => Some ([], Undefined)
        | Some offset =>
            let out := mkOutput cfg offset (coStart cond) 0 (cParts s) (output_count (cParts s)) in
            match ceil_size ((coEnd cond -. coStart cond) /. coInterval cond) with
            | None => Some ([out], Undefined)
            | Some endCount =>
                match main_loop fuel cond (Z.to_nat endCount) (offset + 1) (nofZ 0) s 0 with
                | Some (outs, e) => Some (out :: outs, e)
                | None => None
                end
            end
        end
    end.
End Program.
