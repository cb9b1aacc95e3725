(** Main.cpp: the application from the parsed settings file to its output files. *)
From Coq Require Import String Ascii Decimal DecimalZ.
From Verif Require Export M_Csv.
From stdpp Require Import list.

(** [boost::property_tree::ptree]: data and a list of named children.  The attributes of an XML element are the children of
    its child "<xmlattr>".  [read_xml] (Main.cpp:295), which
    builds it from the text of the file, is in M_Xml. *)
Inductive ptree := Tree (data : text) (children : list (text * ptree)).
Definition tree_data (t : ptree) : text := let 'Tree s _ := t in s.
Definition tree_children (t : ptree) : list (text * ptree) := let 'Tree _ l := t in l.

(** [basic_ptree::walk_path]: the first child of each name, without going back. *)
Fixpoint first_child (name : text) (l : list (text * ptree)) : option ptree :=
  match l with
  | [] => None
  | (k, t) :: l => if decide (k = name) then Some t else first_child name l
  end.
Fixpoint get_child (t : ptree) (path : list text) : option ptree :=
  match path with
  | [] => Some t
  | name :: path => match first_child name (tree_children t) with Some t' => get_child t' path | None => None end
  end.
(** A path as written in the source, split at the dots. *)
Definition path_of (s : string) : list text := cut "."%char (lit s).

(** [istream >> std::size_t], then nothing but white space up to the end
    ([boost::property_tree::stream_translator::get_value]).  A minus sign is accepted and wraps. *)
Fixpoint skip_digits (s : text) : text :=
  match s with
  | c :: s' => if (48 <=? Ascii.nat_of_ascii c)%nat && (Ascii.nat_of_ascii c <=? 57)%nat then skip_digits s' else s
  | [] => []
  end.
Definition parse_size (s : text) : option Z :=
  let '(neg, s) := read_sign (skip_space s) in
  match text_uint s with
  | Nil => None
  | u => let z := Z.of_int (Pos u) in
         if (z <? 2^64)%Z && match skip_space (skip_digits s) with [] => true | _ => false end
         then Some (if neg then ((- z) mod 2^64)%Z else z) else None
  end.

(** What can go wrong while loading: exceptions of the property tree, of [LoadParticles], of [InputFromCsv]; none
    of them is caught.  [LoadUndefined]: undefined behaviour. *)
Inductive failure := BadPath | BadData | NotImplemented | BadCsv.
Inductive load (A : Type) := Loaded (a : A) | Failed (e : failure) | LoadUndefined.
Arguments Loaded {A}. Arguments Failed {A}. Arguments LoadUndefined {A}.
Definition load_bind {A B} (r : load A) (f : A -> load B) : load B :=
  match r with Loaded a => f a | Failed e => Failed e | LoadUndefined => LoadUndefined end.
(** [let*] style notation. *)
Notation "'from' a <- r ;; k" := (load_bind r (fun a => k)) (at level 200, a pattern, r at level 99, right associativity).

(** [boost::format("result/particles_%05d.csv") % outputCount] (Main.cpp:34). *)
Definition pad5 (s : text) : text := replicate (5 - length s) "0"%char ++ s.
Definition file_name (n : Z) : text := lit "result/particles_" ++ pad5 (print_int n) ++ lit ".csv".

Section App.
  Context {N : num} (cfg : config).
  Notation d := (cDim cfg).
  (** [print_num], [parse_num]: as in M_Csv.  [parse_attr]: [istream >> double] as used by the property
      tree's translator, taken as given. *)
  Context (print_num : N -> text) (parse_num parse_attr : text -> option N).

  (** [xml.get<T>(path)]: [ptree_bad_path] or [ptree_bad_data]. *)
  Definition get {A} (translate : text -> option A) (xml : ptree) (path : string) : load A :=
    match get_child xml (path_of path) with
    | None => Failed BadPath
    | Some t => match translate (tree_data t) with Some a => Loaded a | None => Failed BadData end
    end.
  Notation num_at := (get parse_attr).

  (** Main.cpp:258-277 [LoadCondition]; without [eps] in the explicit build. *)
  Definition load_condition (xml : ptree) : load (condition (N := N)) :=
    from startTime <- num_at xml "openmps.condition.startTime.<xmlattr>.value" ;;
    from endTime <- num_at xml "openmps.condition.endTime.<xmlattr>.value" ;;
    from outputInterval <- num_at xml "openmps.condition.outputInterval.<xmlattr>.value" ;;
    from eps <- (if cExplicit cfg then Loaded (nofZ 0) else num_at xml "openmps.condition.eps.<xmlattr>.value") ;;
    Loaded (mkCondition eps startTime endTime outputInterval).

  (** Main.cpp:202-255 [LoadEnvironment]. *)
  Definition load_env (xml : ptree) (cond : condition) : load (environment N cfg) :=
    from l_0 <- num_at xml "openmps.environment.l_0.<xmlattr>.value" ;;
    from minSteps <- get parse_size xml "openmps.environment.minStepCountPerOutput.<xmlattr>.value" ;;
    from courant <- num_at xml "openmps.environment.courant.<xmlattr>.value" ;;
    from g <- num_at xml "openmps.environment.g.<xmlattr>.value" ;;
    from rho <- num_at xml "openmps.environment.rho.<xmlattr>.value" ;;
    from nu <- num_at xml "openmps.environment.nu.<xmlattr>.value" ;;
    from r_eByl_0 <- num_at xml "openmps.environment.r_eByl_0.<xmlattr>.value" ;;
    from surf <- (if cSPP cfg then Loaded (nofZ 0) else num_at xml "openmps.environment.surfaceRatio.<xmlattr>.value") ;;
    from c <- (if cExplicit cfg then num_at xml "openmps.environment.c.<xmlattr>.value" else Loaded (nofZ 0)) ;;
    from minX <- num_at xml "openmps.environment.minX.<xmlattr>.value" ;;
    from minY <- match d with D3 => num_at xml "openmps.environment.minY.<xmlattr>.value" | D2 => Loaded (nofZ 0) end ;;
    from minZ <- num_at xml "openmps.environment.minZ.<xmlattr>.value" ;;
    from maxX <- num_at xml "openmps.environment.maxX.<xmlattr>.value" ;;
    from maxY <- match d with D3 => num_at xml "openmps.environment.maxY.<xmlattr>.value" | D2 => Loaded (nofZ 0) end ;;
    from maxZ <- num_at xml "openmps.environment.maxZ.<xmlattr>.value" ;;
    let corner x y z := tmk d (fun k => nth k match d with D2 => [x; z] | D3 => [x; y; z] end (nofZ 0)) in
    match load_environment cond minSteps courant g rho nu surf r_eByl_0 c l_0 (corner minX minY minZ) (corner maxX maxY maxZ) with
    | Some env => Loaded env
    | None => LoadUndefined
    end.

  (** Main.cpp:186-199 [LoadParticles]; [get_optional<...>(...).get()] of an absent attribute is undefined. *)
  Definition load_particles (xml : ptree) : load (list (particle N d)) :=
    match get_child xml (path_of "openmps.particles.<xmlattr>.type") with
    | None => LoadUndefined
    | Some t =>
        if decide (tree_data t = lit "csv") then
          from txt <- get Some xml "openmps.particles" ;;
          match read_csv (d := d) parse_num txt with
          | Read ps => Loaded ps
          | CsvUndefined => LoadUndefined
          | _ => Failed BadCsv
          end
        else Failed NotImplemented
    end.

  (** Main.cpp:297-299. *)
  Definition load_all (xml : ptree) : load (condition * environment N cfg * list (particle N d)) :=
    from cond <- load_condition xml ;;
    from env <- load_env xml cond ;;
    from particles <- load_particles xml ;;
    Loaded (cond, env, particles).

  (** Main.cpp:288-400: the files written, with their contents, in order, and how the program ends. *)
  Definition output_file (o : output cfg) : text * text := (file_name (oNumber o), write_csv print_num (oParts o)).
  Definition application (fuel : nat) (xml : ptree) : option (list (text * text) * ending (N := N)) :=
    match load_all xml with
    | Failed _ => Some ([], Terminated)
    | LoadUndefined => Some ([], Undefined)
    | Loaded (cond, env, particles) =>
        match main_program fuel cond env particles with
        | Some (outs, e) => Some (map output_file outs, e)
        | None => None
        end
    end.
End App.
