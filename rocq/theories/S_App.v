(** Specification vocabulary: settings files. *)
From Coq Require Import String Ascii.
From Verif Require Export M_App S_Csv.
From stdpp Require Import list.

(** [found t path s]: [s] is the text of the element reached from [t] by going to the first child of each name in turn. *)
Inductive found : ptree -> list text -> text -> Prop :=
  | found_here data children : found (Tree data children) [] data
  | found_child data before name t after path s :
      (forall t', (name, t') ∉ before) -> found t path s ->
      found (Tree data (before ++ (name, t) :: after)) (name :: path) s.

(** The value of the attribute [attr] of the element [openmps/section/name]. *)
Definition attribute (xml : ptree) (section name : string) (s : text) : Prop :=
  found xml [lit "openmps"; lit section; lit name; lit "<xmlattr>"; lit "value"] s.

(** The entries a build needs: section and name. *)
Definition needed (cfg : config) (section name : string) : Prop :=
  (section, name) ∈
    [("condition", "startTime"); ("condition", "endTime"); ("condition", "outputInterval");
     ("environment", "l_0"); ("environment", "minStepCountPerOutput"); ("environment", "courant"); ("environment", "g");
     ("environment", "rho"); ("environment", "nu"); ("environment", "r_eByl_0");
     ("environment", "minX"); ("environment", "minZ"); ("environment", "maxX"); ("environment", "maxZ")]%string
    ++ (if cExplicit cfg then [("environment", "c")]%string else [("condition", "eps")]%string)
    ++ (if cSPP cfg then [] else [("environment", "surfaceRatio")]%string)
    ++ match cDim cfg with D2 => [] | D3 => [("environment", "minY"); ("environment", "maxY")]%string end.

(** Names of the corners' coordinates, by axis. *)
Definition axis_letter (d : dim) (k : nat) : string :=
  match d, k with _, O => "X" | D2, _ => "Z" | D3, 1%nat => "Y" | D3, _ => "Z" end%string.

(** [means_count s z]: [s] is a number - blanks, a sign, digits, blanks, nothing else - that fits into 64 bits; a negative one wraps. *)
Definition means_count (s : text) (z : Z) : Prop :=
  exists blanks sign digits rest,
    s = blanks ++ sign ++ digits ++ rest /\
    Forall white blanks /\ Forall digit digits /\ digits <> [] /\ Forall white rest /\ (decimal digits < 2^64)%Z /\
    ((sign = [] \/ sign = ["+"%char]) /\ z = decimal digits \/ sign = ["-"%char] /\ z = ((- decimal digits) mod 2^64)%Z).

Section Settings.
  Context {N : num} (cfg : config) (parse_num parse_attr : text -> option N).

  (** The number an entry gives. *)
  Definition setting (xml : ptree) (section name : string) (v : N) : Prop :=
    exists s, attribute xml section name s /\ parse_attr s = Some v.
  Definition count_setting (xml : ptree) (section name : string) (z : Z) : Prop :=
    exists s, attribute xml section name s /\ means_count s z.
  (** The entry is there and can be read. *)
  Definition readable (xml : ptree) (section name : string) : Prop :=
    if decide (name = "minStepCountPerOutput"%string) then exists z, count_setting xml section name z
    else exists v, setting xml section name v.
  (** The interaction radius, in units of l_0: its ceiling has to be an [int]. *)
  Definition usable_radius (ratio : N) : Prop := exists z, nceil ratio = Some z /\ (- 2 ^ 31 <= z < 2 ^ 31)%Z.
  (** The particle table: its text, and the format it is said to be in. *)
  Definition table (xml : ptree) (s : text) : Prop := found xml [lit "openmps"; lit "particles"] s.
  Definition table_format (xml : ptree) (s : text) : Prop :=
    found xml [lit "openmps"; lit "particles"; lit "<xmlattr>"; lit "type"] s.

  (** Two settings files with the same entries, as far as the build needs them. *)
  Definition same_settings (xml xml' : ptree) : Prop :=
    (forall section name s, needed cfg section name -> attribute xml section name s <-> attribute xml' section name s) /\
    (forall s, table xml s <-> table xml' s) /\ (forall s, table_format xml s <-> table_format xml' s).
End Settings.

(** The number in the name of an output file: five decimal digits, more only when the number needs them. *)
Definition numbered (n : Z) (name : text) : Prop :=
  exists digits, name = lit "result/particles_" ++ digits ++ lit ".csv" /\
    (5 <= length digits)%nat /\ Forall (fun c => 48 <= Ascii.nat_of_ascii c <= 57)%nat digits /\
    foldl (fun a c => 10 * a + (Z.of_nat (Ascii.nat_of_ascii c) - 48))%Z 0%Z digits = n /\
    (length digits = 5%nat \/ 10 ^ (Z.of_nat (length digits) - 1) <= n)%Z.
