(** The settings files the generators of the benchmark scenes write (Benchmark/*/generate*.py), as the property tree the program gets
    from [read_xml].

    Python's XML writer and [read_xml] are in M_Xml.  Simplification: the text between the elements (line ends and tabs of
    [toprettyxml]) is any text; one function gives the text of a number, although Python writes the int 0 (startTime) and the float 0
    (a coordinate) differently. *)
From Coq Require Import String Ascii.
From Verif Require Export M_Bench M_App.
From stdpp Require Import list.

Section Script.
  (** [py_str]: Python's [str] of a number. *)
  Context {N : num} (py_str : N -> text).
  (** The dictionaries [condition] and [environment] (generate.py of StaticPressure:8-25, generate_koshizukaoka1996.py:11-29,
      generate_zhouetal1999.py:11-29, generate.py of CentralGravity:8-25): the same keys in all scripts, other values. *)
  Record settings := mkSettings {
    stStart : N; stEnd : N; stInterval : N; stEps : N;
    stL0 : N; stSteps : Z; stCourant : N; stG : N; stRho : N; stNu : N; stRatio : N; stSurf : N }.
  (** [ET.SubElement(parent, key).set("value", str(value))] (43-54; 46-57; 46-57; 43-54). *)
  Definition script_entry (pad : text) (e : string * text) : text * ptree :=
    (lit e.1, Tree pad [(lit "<xmlattr>", Tree [] [(lit "value", Tree e.2 [])])]).
  Definition script_condition (st : settings) : list (string * text) :=
    [("startTime", py_str (stStart st)); ("endTime", py_str (stEnd st)); ("outputInterval", py_str (stInterval st)); ("eps", py_str (stEps st))]%string.
  Definition script_environment (st : settings) : list (string * text) :=
    [("l_0", py_str (stL0 st)); ("minStepCountPerOutput", print_int (stSteps st)); ("courant", py_str (stCourant st)); ("g", py_str (stG st));
     ("rho", py_str (stRho st)); ("nu", py_str (stNu st)); ("r_eByl_0", py_str (stRatio st)); ("surfaceRatio", py_str (stSurf st))]%string.
  (** Lines 198-201; 156-159; 155-158; 73-76. *)
  Definition script_corners (sc : scene N) : list (string * text) :=
    [("minX", py_str (tget D2 (scMin sc) 0)); ("minZ", py_str (tget D2 (scMin sc) 1));
     ("maxX", py_str (tget D2 (scMax sc) 0)); ("maxZ", py_str (tget D2 (scMax sc) 1))]%string.
  (** "{0}, {1}, {2}, 0, 0, 0, 0\n" with the number of the type (36-40; 37-41; 39-43; 34-38) and the position; the head line 64; 68; 67; 59. *)
  Definition script_line (p : particle N D2) : text :=
    print_int (Z_of_ptype (pT p)) ++ lit ", " ++ py_str (tget D2 (pX p) 0) ++ lit ", " ++ py_str (tget D2 (pX p) 1) ++ lit ", 0, 0, 0, 0" ++ [newline].
  Definition script_csv (ps : list (particle N D2)) : text :=
    (lit "Type, x, z, u, w, p, n" ++ [newline]) ++ mjoin (map script_line ps).
  Definition script_tree (pad : text) (st : settings) (sc : scene N) : ptree :=
    Tree pad [(lit "openmps", Tree pad
      [(lit "condition", Tree pad (map (script_entry pad) (script_condition st)));
       (lit "environment", Tree pad (map (script_entry pad) (script_environment st ++ script_corners sc)));
       (lit "particles", Tree (script_csv (scParts sc)) [(lit "<xmlattr>", Tree [] [(lit "type", Tree (lit "csv") [])])])])].
End Script.
Arguments settings : clear implicits.
