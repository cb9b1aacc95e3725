(** Main.cpp:30-183: writing and reading the particle tables, and stov.hpp. *)
From Coq Require Import String Ascii Decimal DecimalZ.
From Verif Require Export M_Main.

(** [std::string]. *)
Notation text := (list ascii).
(** String literals. *)
Definition lit : string -> text := list_ascii_of_string.
Definition newline : ascii := Ascii.ascii_of_nat 10.
Definition tab : ascii := Ascii.ascii_of_nat 9.
Definition comma : ascii := ","%char.
Definition blank : ascii := " "%char.

(** [boost::algorithm::split(_, str, boost::is_any_of(one character))], without token
    compression: always one piece more than separators. *)
Fixpoint cut (c : ascii) (l : text) : list text :=
  match l with
  | [] => [[]]
  | a :: l =>
      if Ascii.eqb a c then [] :: cut c l
      else match cut c l with h :: t => (a :: h) :: t | [] => [[a]] end
  end.

(** Main.cpp:84-88: [std::remove_if] with [(c == ' ') || (c == '\t')], then [erase]. *)
Definition strip (s : text) : text :=
  List.filter (fun c => negb (Ascii.eqb c blank || Ascii.eqb c tab)) s.

(** Main.cpp:82-96 [GetItems]. *)
Definition get_items (s : text) : list text :=
  match strip s with [] => [] | s' => cut comma s' end.

(** Decimal digits of a [Decimal.uint]. *)
Fixpoint uint_text (u : uint) : text :=
  match u with
  | Nil => []
  | Decimal.D0 u => "0"%char :: uint_text u | Decimal.D1 u => "1"%char :: uint_text u
  | Decimal.D2 u => "2"%char :: uint_text u | Decimal.D3 u => "3"%char :: uint_text u
  | Decimal.D4 u => "4"%char :: uint_text u | Decimal.D5 u => "5"%char :: uint_text u
  | Decimal.D6 u => "6"%char :: uint_text u | Decimal.D7 u => "7"%char :: uint_text u
  | Decimal.D8 u => "8"%char :: uint_text u | Decimal.D9 u => "9"%char :: uint_text u
  end.
(** [operator<<(std::ostream&, int)] (Main.cpp:49). *)
Definition print_int (z : Z) : text :=
  match Z.to_int z with Pos u => uint_text u | Neg u => "-"%char :: uint_text u end.

(** The longest prefix of digits. *)
Fixpoint text_uint (s : text) : uint :=
  match s with
  | "0" :: s => Decimal.D0 (text_uint s) | "1" :: s => Decimal.D1 (text_uint s)
  | "2" :: s => Decimal.D2 (text_uint s) | "3" :: s => Decimal.D3 (text_uint s)
  | "4" :: s => Decimal.D4 (text_uint s) | "5" :: s => Decimal.D5 (text_uint s)
  | "6" :: s => Decimal.D6 (text_uint s) | "7" :: s => Decimal.D7 (text_uint s)
  | "8" :: s => Decimal.D8 (text_uint s) | "9" :: s => Decimal.D9 (text_uint s)
  | _ => Nil
  end%char.
(** [std::isspace] in the "C" locale. *)
Definition is_space (c : ascii) : bool :=
  let n := Ascii.nat_of_ascii c in Nat.eqb n 32 || ((9 <=? n)%nat && (n <=? 13)%nat).
Fixpoint skip_space (s : text) : text :=
  match s with c :: s' => if is_space c then skip_space s' else s | [] => [] end.
Definition read_sign (s : text) : bool * text :=
  match s with
  | "-" :: s' => (true, s') | "+" :: s' => (false, s') | _ => (false, s)
  end%char.
(** stov.hpp:10-13: [std::stoi(s)] in base 10: white space, an optional sign, digits; anything after
    them is ignored.  [None]: [std::invalid_argument] or [std::out_of_range] (32-bit [int]). *)
Definition parse_int (s : text) : option Z :=
  let s := skip_space s in
  let '(neg, s) := read_sign s in
  match text_uint s with
  | Nil => None
  | u => let z := (if neg then Z.of_int (Neg u) else Z.of_int (Pos u)) in
         if (-2^31 <=? z)%Z && (z <? 2^31)%Z then Some z else None
  end.

(** Main.cpp:99-115, in the order in which the columns are written (39-43) and read (153-172). *)
Definition columns (d : dim) : list text :=
  map lit match d with
          | D2 => ["Type"; "x"; "z"; "u"; "w"; "p"; "n"]
          | D3 => ["Type"; "x"; "y"; "z"; "u"; "v"; "w"; "p"; "n"]
          end%string.

(** The [std::unordered_map] of Main.cpp:100-115: names with column number + 1, 0: not found. *)
Definition header_map := list (text * nat).
Definition header_init (d : dim) : header_map := map (fun c => (c, 0%nat)) (columns d).
Fixpoint header_find (m : header_map) (name : text) : option nat :=
  match m with
  | [] => None
  | (c, k) :: m => if decide (c = name) then Some k else header_find m name
  end.
Definition header_set (m : header_map) (name : text) (k : nat) : header_map :=
  map (fun ck => if decide (ck.1 = name) then (ck.1, k) else ck) m.
(** Main.cpp:120-131: [None] stands for the exception "Illegal header item in input csv". *)
Fixpoint header_fill (m : header_map) (items : list text) (i : nat) : option header_map :=
  match items with
  | [] => Some m
  | name :: items =>
      match header_find m name with
      | Some _ => header_fill (header_set m name (i + 1)) items (i + 1)
      | None => None
      end
  end.
(** Main.cpp:133-143: [None] stands for the exception "Some header item doesn't exist"; otherwise
    the numbers are decremented. *)
Definition header_check (m : header_map) : option header_map :=
  if forallb (fun ck => negb (Nat.eqb ck.2 0)) m
  then Some (map (fun ck => (ck.1, ck.2 - 1)%nat) m) else None.

(** Results of reading. *)
Inductive csv_result (A : Type) :=
  | Read (a : A)
  | IllegalHeader        (* "Illegal header item in input csv" *)
  | MissingHeader        (* "Some header item doesn't exist" *)
  | BadValue             (* exception of [std::stoi] or [std::stod] *)
  | CsvUndefined.        (* undefined behaviour *)
Arguments Read {A}. Arguments IllegalHeader {A}. Arguments MissingHeader {A}.
Arguments BadValue {A}. Arguments CsvUndefined {A}.

Definition csv_bind {A B} (r : csv_result A) (f : A -> csv_result B) : csv_result B :=
  match r with
  | Read a => f a
  | IllegalHeader => IllegalHeader | MissingHeader => MissingHeader
  | BadValue => BadValue | CsvUndefined => CsvUndefined
  end.

Section Csv.
  Context {N : num} {d : dim}.
  (** Main.cpp:52-59 [operator<<(std::ostream&, double)] and stov.hpp:46-49 [std::stod]
      ([None]: exception), both taken as given. *)
  Context (print_num : N -> text) (parse_num : text -> option N).

  (** Main.cpp:48-60: what is written about a particle, in order. *)
  Definition fields (p : particle N d) : list text :=
    print_int (Z_of_ptype (pT p))
    :: map (fun k => print_num (tget d (pX p) k)) (seq 0 (dimn d))
    ++ map (fun k => print_num (tget d (pU p) k)) (seq 0 (dimn d))
    ++ [print_num (pP p); print_num (pN p)].
  (** Separator of the output (Main.cpp:39-60). *)
  Definition sep : text := lit ", ".
  Fixpoint glue (c : text) (l : list text) : text :=
    match l with [] => [] | [a] => a | a :: l => a ++ c ++ glue c l end.
  (** Main.cpp:38-66: the contents of the file ([std::endl] ends a line). *)
  Definition write_csv (ps : list (particle N d)) : text :=
    (glue sep (columns d) ++ [newline]) ++
    mjoin (map (fun p => glue sep (fields p) ++ [newline]) ps).

  (** [data[header[name]]] (Main.cpp:153-172): undefined when the row is too short. *)
  Definition item (h : header_map) (data : list text) (name : text) : csv_result text :=
    match header_find h name with
    | Some k => match data !! k with Some s => Read s | None => CsvUndefined end
    | None => CsvUndefined
    end.
  Definition read_num (h : header_map) (data : list text) (name : text) : csv_result N :=
    csv_bind (item h data name)
      (fun s => match parse_num s with Some v => Read v | None => BadValue end).
  Definition read_type (h : header_map) (data : list text) : csv_result ptype :=
    csv_bind (item h data (lit "Type"))
      (fun s => match parse_int s with Some z => Read (ptype_of_Z z) | None => BadValue end).
  (** Components of a vector, in the order of the axes. *)
  Fixpoint read_list (h : header_map) (data : list text) (names : list text) : csv_result (list N) :=
    match names with
    | [] => Read []
    | c :: names =>
        csv_bind (read_num h data c) (fun v =>
        csv_bind (read_list h data names) (fun vs => Read (v :: vs)))
    end.
  (** Names of the position and velocity columns, by axis (Main.cpp:156-168). *)
  Definition position_columns : list text :=
    map lit match d with D2 => ["x"; "z"] | D3 => ["x"; "y"; "z"] end%string.
  Definition velocity_columns : list text :=
    map lit match d with D2 => ["u"; "w"] | D3 => ["u"; "v"; "w"] end%string.
  (** Main.cpp:153-174: one row. *)
  Definition read_row (h : header_map) (data : list text) : csv_result (particle N d) :=
    csv_bind (read_type h data) (fun t =>
    csv_bind (read_list h data position_columns) (fun x =>
    csv_bind (read_list h data velocity_columns) (fun u =>
    csv_bind (read_num h data (lit "p")) (fun p =>
    csv_bind (read_num h data (lit "n")) (fun n =>
    Read (mkParticle (tmk d (fun k => nth k x (nofZ 0))) (tmk d (fun k => nth k u (nofZ 0)))
                     p n t)))))).
  (** Main.cpp:147-176. *)
  Fixpoint read_rows (h : header_map) (lines : list text) : csv_result (list (particle N d)) :=
    match lines with
    | [] => Read []
    | line :: lines =>
        match get_items line with
        | [] => read_rows h lines
        | data =>
            csv_bind (read_row h data) (fun p =>
            csv_bind (read_rows h lines) (fun ps => Read (p :: ps)))
        end
    end.
  (** Main.cpp:78-79: leading empty lines are skipped; without any other line the iterator runs past the end. *)
  Fixpoint skip_empty (lines : list text) : option (text * list text) :=
    match lines with
    | [] => None
    | [] :: lines => skip_empty lines
    | line :: lines => Some (line, lines)
    end.
  (** Main.cpp:70-183 [InputFromCsv]. *)
  Definition read_csv (csv : text) : csv_result (list (particle N d)) :=
    match skip_empty (cut newline csv) with
    | None => CsvUndefined
    | Some (first, lines) =>
        match header_fill (header_init d) (get_items first) 0 with
        | None => IllegalHeader
        | Some m =>
            match header_check m with
            | None => MissingHeader
            | Some h => read_rows h lines
            end
        end
    end.
End Csv.
