(** Parameters and variables (Parameters.cpp), and the scope discipline of the scenario reader.

    Simplifications: XML nodes are given as lists of attribute values; [std::to_string], [strtoi], [strtod] and the
    expression evaluator are arbitrary functions (record [conv]); doubles are rationals.  [LOG_ERROR_AND_QUIT] is the
    outcome [None]; so is an erase with an invalid iterator range. *)
From Coq Require Import List String Ascii ZArith QArith Bool Arith.
Import ListNotations.
Open Scope string_scope.
Open Scope list_scope.

(** OSCParameterDeclarations.hpp:30-37 (ParameterType). *)
Inductive ptype := PARAM_TYPE_NONE | PARAM_TYPE_INTEGER | PARAM_TYPE_DOUBLE | PARAM_TYPE_STRING | PARAM_TYPE_BOOL.

Definition ptype_eqb (a b : ptype) : bool :=
  match a, b with
  | PARAM_TYPE_NONE, PARAM_TYPE_NONE | PARAM_TYPE_INTEGER, PARAM_TYPE_INTEGER | PARAM_TYPE_DOUBLE, PARAM_TYPE_DOUBLE
  | PARAM_TYPE_STRING, PARAM_TYPE_STRING | PARAM_TYPE_BOOL, PARAM_TYPE_BOOL => true
  | _, _ => false
  end.

(** OSCParameterDeclarations.hpp:43-49 (struct value). *)
Record pvalue := mkV { v_int : Z; v_double : Q; v_string : string; v_bool : bool }.

(** OSCParameterDeclarations.hpp:39-52 (struct ParameterStruct). *)
Record param := mkP { p_name : string; p_type : ptype; p_val : pvalue; p_variable : bool; p_dirty : bool }.

(** Parameters.hpp:31-33: the restore stack (top first), the catalog assignments (vector order; name, value), and the
    declarations (vector order). *)
Record pstate := mkS { sizes : list nat; assigns : list (string * string); decls : list param }.

(** Conversions left abstract: std::to_string(int), std::to_string(double), strtoi, strtod (CommonMini) and the value of an
    expression attribute "${...}" (Parameters.cpp:430-474; [None] when it fails). *)
Record conv := mkC { itoa : Z -> string; dtoa : Q -> string; strtoi : string -> Z; strtod : string -> Q;
                     eval_expr : list param -> string -> option string }.

(** Parameters.hpp:23 (PARAMETER_PREFIX) and the comparison of Parameters.cpp:61-62, 79-80, 95-96. *)
Definition matches (name : string) (p : param) : bool :=
  String.eqb (String "$" (p_name p)) name || String.eqb (p_name p) name.

(** Parameters.cpp:90-103 (getParameterEntry): first match; the entry itself. *)
Fixpoint get_entry (name : string) (l : list param) : option param :=
  match l with
  | [] => None
  | p :: l' => if matches name p then Some p else get_entry name l'
  end.

(** Writing through the pointer returned by getParameterEntry (Parameters.cpp:90-103): replace the first match. *)
Fixpoint upd_entry (name : string) (f : param -> param) (l : list param) : list param :=
  match l with
  | [] => []
  | p :: l' => if matches name p then f p :: l' else p :: upd_entry name f l'
  end.

Definition set_decls (s : pstate) (l : list param) : pstate := mkS (sizes s) (assigns s) l.

(** Parameters.cpp:73-88 (getParameter): string value of the first match; quits when there is none. *)
Definition get_parameter (name : string) (l : list param) : option string :=
  match get_entry name l with Some p => Some (v_string (p_val p)) | None => None end.

(** Parameters.cpp:55-71 (setParameter): writes the string member only. *)
Definition set_parameter (s : pstate) (name value : string) : Z * pstate :=
  match get_entry name (decls s) with
  | None => ((-1)%Z, s)
  | Some _ => (0%Z, set_decls s (upd_entry name (fun p => mkP (p_name p) (p_type p)
                 (mkV (v_int (p_val p)) (v_double (p_val p)) value (v_bool (p_val p))) (p_variable p) (p_dirty p)) (decls s)))
  end.

Section Typed.
Variable C : conv.

(** Parameters.cpp:330-343 (setParameterValue int): the assignments to the entry. *)
Definition put_int (z : Z) (p : param) : param :=
  mkP (p_name p) (p_type p) (mkV z (v_double (p_val p)) (itoa C z) (v_bool (p_val p))) (p_variable p) true.
(** Parameters.cpp:345-358 (setParameterValue double). *)
Definition put_double (d : Q) (p : param) : param :=
  mkP (p_name p) (p_type p) (mkV (v_int (p_val p)) d (dtoa C d) (v_bool (p_val p))) (p_variable p) true.
(** Parameters.cpp:360-372 (setParameterValue const char* ). *)
Definition put_string (x : string) (p : param) : param :=
  mkP (p_name p) (p_type p) (mkV (v_int (p_val p)) (v_double (p_val p)) x (v_bool (p_val p))) (p_variable p) true.
(** Parameters.cpp:374-387 (setParameterValue bool). *)
Definition put_bool (b : bool) (p : param) : param :=
  mkP (p_name p) (p_type p) (mkV (v_int (p_val p)) (v_double (p_val p)) (if b then "true" else "false") b) (p_variable p) true.

(** Parameters.cpp:330-387: the common shape of the four typed setters: -1 when unknown or of another type. *)
Definition set_typed (t : ptype) (f : param -> param) (s : pstate) (name : string) : Z * pstate :=
  match get_entry name (decls s) with
  | None => ((-1)%Z, s)
  | Some p => if ptype_eqb (p_type p) t then (0%Z, set_decls s (upd_entry name f (decls s))) else ((-1)%Z, s)
  end.
Definition set_int s name z := set_typed PARAM_TYPE_INTEGER (put_int z) s name.
Definition set_double s name d := set_typed PARAM_TYPE_DOUBLE (put_double d) s name.
Definition set_string s name x := set_typed PARAM_TYPE_STRING (put_string x) s name.
Definition set_bool s name b := set_typed PARAM_TYPE_BOOL (put_bool b) s name.

(** Parameters.cpp:205-259 (getParameterValueInt/Double/String/Bool): [None] is the return code -1. *)
Definition get_typed {A} (t : ptype) (f : pvalue -> A) (s : pstate) (name : string) : option A :=
  match get_entry name (decls s) with
  | None => None
  | Some p => if ptype_eqb (p_type p) t then Some (f (p_val p)) else None
  end.
Definition get_int := get_typed PARAM_TYPE_INTEGER v_int.
Definition get_double := get_typed PARAM_TYPE_DOUBLE v_double.
Definition get_string := get_typed PARAM_TYPE_STRING v_string.
Definition get_bool := get_typed PARAM_TYPE_BOOL v_bool.

(** Parameters.cpp:261-291 (getParameterValueAsString). *)
Definition get_as_string (s : pstate) (name : string) : string :=
  match get_entry name (decls s) with
  | None => ""
  | Some p =>
    match p_type p with
    | PARAM_TYPE_STRING => v_string (p_val p)
    | PARAM_TYPE_INTEGER => itoa C (v_int (p_val p))
    | PARAM_TYPE_DOUBLE => dtoa C (v_double (p_val p))
    | PARAM_TYPE_BOOL => if v_bool (p_val p) then "true" else "false"
    | PARAM_TYPE_NONE => ""
    end
  end.

(** Parameters.cpp:293-328 (setParameterValueByString).  The string is written before the type is examined: for an entry
    of type NONE the function returns -1 with the string changed (and dirty unchanged). *)
Definition set_by_string (s : pstate) (name value : string) : Z * pstate :=
  match get_entry name (decls s) with
  | None => ((-1)%Z, s)
  | Some p0 =>
    let put p :=
      let v := p_val p in
      match p_type p with
      | PARAM_TYPE_INTEGER => mkP (p_name p) (p_type p) (mkV (strtoi C value) (v_double v) value (v_bool v)) (p_variable p) true
      | PARAM_TYPE_DOUBLE => mkP (p_name p) (p_type p) (mkV (v_int v) (strtod C value) value (v_bool v)) (p_variable p) true
      | PARAM_TYPE_BOOL => mkP (p_name p) (p_type p) (mkV (v_int v) (v_double v) value (String.eqb value "true")) (p_variable p) true
      | PARAM_TYPE_STRING => mkP (p_name p) (p_type p) (mkV (v_int v) (v_double v) value (v_bool v)) (p_variable p) true
      | PARAM_TYPE_NONE => mkP (p_name p) (p_type p) (mkV (v_int v) (v_double v) value (v_bool v)) (p_variable p) (p_dirty p)
      end in
    ((if ptype_eqb (p_type p0) PARAM_TYPE_NONE then -1 else 0)%Z, set_decls s (upd_entry name put (decls s)))
  end.

(** Parameters.cpp:412-488 (ReadAttribute) of an attribute with raw value [raw] ("" when absent, not required):
    "$x" is resolved by getParameter, "${...}" by the expression evaluator, all else literally. *)
Definition read_attribute (l : list param) (raw : string) : option string :=
  match raw with
  | String "$" (String "{" (String _ _)) => eval_expr C l raw
  | String "$" (String _ _) => get_parameter raw l
  | _ => Some raw
  end.

(** One child of a ParameterDeclarations node: attributes name, value, parameterType/variableType ([None]: missing). *)
Record xdecl := mkX { x_name : string; x_value : string; x_type : option string }.

(** Parameters.cpp:505-516: the last catalog assignment of that name, if any. *)
Definition last_assign (name : string) (a : list (string * string)) : option string :=
  match find (fun e => String.eqb name (fst e)) (rev a) with Some e => Some (snd e) | None => None end.

(** Parameters.cpp:518-566: type string to type; unsupported types leave PARAM_TYPE_STRING, unknown ones quit. *)
Definition type_of (ts : string) : option ptype :=
  if String.eqb ts "integer" || String.eqb ts "int" then Some PARAM_TYPE_INTEGER
  else if String.eqb ts "double" then Some PARAM_TYPE_DOUBLE
  else if String.eqb ts "boolean" || String.eqb ts "bool" then Some PARAM_TYPE_BOOL
  else if String.eqb ts "string" then Some PARAM_TYPE_STRING
  else if String.eqb ts "unsignedInt" || String.eqb ts "unsignedShort" || String.eqb ts "dateTime" then Some PARAM_TYPE_STRING
  else None.

(** Parameters.cpp:500-566: the entry built for one declaration, [g] being the parameters used by getParameter
    (ScenarioReader::parameters), [a] the catalog assignments. *)
Definition make_param (variable : bool) (g : list param) (a : list (string * string)) (x : xdecl) : option param :=
  match read_attribute g (x_value x) with
  | None => None
  | Some v0 =>
    let v := match last_assign (x_name x) a with Some w => w | None => v0 end in
    match x_type x with
    | None => None
    | Some ts =>
      match type_of ts with
      | None => None
      | Some t => Some (mkP (x_name x) t
          (mkV (if ptype_eqb t PARAM_TYPE_INTEGER then strtoi C v else 0%Z)
               (if ptype_eqb t PARAM_TYPE_DOUBLE then strtod C v else 0%Q) v
               (if ptype_eqb t PARAM_TYPE_BOOL then String.eqb v "true" else false)) variable false)
      end
    end
  end.

(** Parameters.cpp:568-583: insert in front, unless the first entry with the same name is dirty (then it is kept and the
    declaration is skipped). *)
Definition insert_param (p : param) (l : list param) : list param :=
  match find (fun q => String.eqb (p_name q) (p_name p)) l with
  | Some q => if p_dirty q then l else p :: l
  | None => p :: l
  end.

(** Parameters.cpp:490-585 (parseParameterDeclarations) on the object [ScenarioReader::parameters] itself. *)
Fixpoint parse_decls (a : list (string * string)) (xs : list xdecl) (l : list param) : option (list param) :=
  match xs with
  | [] => Some l
  | x :: xs' =>
    match make_param false l a x with
    | None => None
    | Some p => parse_decls a xs' (insert_param p l)
    end
  end.

(** Parameters.cpp:20-24 (addParameterDeclarations). *)
Definition add_decls (xs : list xdecl) (s : pstate) : option pstate :=
  match parse_decls (assigns s) xs (decls s) with
  | None => None
  | Some l => Some (mkS (List.length (decls s) :: sizes s) (assigns s) l)
  end.

(** Parameters.cpp:36-39 (CreateRestorePoint). *)
Definition create_restore_point (s : pstate) : pstate := mkS (List.length (decls s) :: sizes s) (assigns s) (decls s).

(** Parameters.cpp:41-53 (RestoreParameterDeclarations): erase [begin, begin + size - top); the range is invalid when
    top > size ([None]).  An empty stack is only logged. *)
Definition restore_decls (s : pstate) : option pstate :=
  match sizes s with
  | [] => Some s
  | top :: rest =>
    if Nat.ltb (List.length (decls s)) top then None
    else Some (mkS rest [] (skipn (List.length (decls s) - top) (decls s)))
  end.

(** ScenarioReader.cpp:1530-1544 (ResolveCatalogReference): one parameter assignment. *)
Definition push_assign (n v : string) (s : pstate) : pstate := mkS (sizes s) (assigns s ++ [(n, v)]) (decls s).

(** Calls made on the parameters object (Parameters.hpp:35-66). *)
Inductive pop := OAdd (xs : list xdecl) | OCreate | ORestore | OAssign (n v : string)
               | OSetInt (n : string) (z : Z) | OSetDouble (n : string) (d : Q) | OSetString (n x : string) | OSetBool (n : string) (b : bool)
               | OByString (n x : string) | OSetParameter (n x : string).

(** One call (Parameters.cpp:20-71, 293-387). *)
Definition papply (o : pop) (s : pstate) : option pstate :=
  match o with
  | OAdd xs => add_decls xs s
  | OCreate => Some (create_restore_point s)
  | ORestore => restore_decls s
  | OAssign n v => Some (push_assign n v s)
  | OSetInt n z => Some (snd (set_int s n z))
  | OSetDouble n d => Some (snd (set_double s n d))
  | OSetString n x => Some (snd (set_string s n x))
  | OSetBool n b => Some (snd (set_bool s n b))
  | OByString n x => Some (snd (set_by_string s n x))
  | OSetParameter n x => Some (snd (set_parameter s n x))
  end.
Fixpoint papplies (os : list pop) (s : pstate) : option pstate :=
  match os with
  | [] => Some s
  | o :: os' => match papply o s with None => None | Some s' => papplies os' s' end
  end.

(** ** The calls made by the scenario reader while parsing stories. *)

(** A route inside an event: ScenarioReader.cpp:1186-1243 (parseOSCRoute): CreateRestorePoint, addParameterDeclarations for
    a ParameterDeclarations child, RestoreParameterDeclarations. *)
Definition route_ops (d : option (list xdecl)) : list pop :=
  OCreate :: match d with Some xs => [OAdd xs] | None => [] end ++ [ORestore].

(** A maneuver (ScenarioReader.cpp:5219-5231, parseOSCManeuver): addParameterDeclarations for a ParameterDeclarations child;
    then its events, of which only the inline routes (ScenarioReader.cpp:2112-2124) touch the parameters.  No restore. *)
Record xman := mkM { m_decls : option (list xdecl); m_routes : list (option (list xdecl)) }.
Definition maneuver_ops (m : xman) : list pop :=
  match m_decls m with Some xs => [OAdd xs] | None => [] end ++ flat_map route_ops (m_routes m).

(** A maneuver group (ScenarioReader.cpp:5448-5486): the catalog maneuvers, each between CreateRestorePoint and
    RestoreParameterDeclarations with its parameter assignments, then the inline maneuvers. *)
Record xgroup := mkG { g_catalog : list (list (string * string) * xman); g_inline : list xman }.
Definition catalog_ops (c : list (string * string) * xman) : list pop :=
  OCreate :: map (fun a => OAssign (fst a) (snd a)) (fst c) ++ maneuver_ops (snd c) ++ [ORestore].
Definition group_ops (g : xgroup) : list pop :=
  flat_map catalog_ops (g_catalog g) ++ flat_map maneuver_ops (g_inline g).

(** A story (ScenarioReader.cpp:5378-5500): CreateRestorePoint, addParameterDeclarations when the first child is a
    ParameterDeclarations, the maneuver groups of all acts, RestoreParameterDeclarations. *)
Record xstory := mkSt { s_decls : option (list xdecl); s_groups : list xgroup }.
Definition story_ops (x : xstory) : list pop :=
  OCreate :: match s_decls x with Some xs => [OAdd xs] | None => [] end ++ flat_map group_ops (s_groups x) ++ [ORestore].

(** ** Parameters in expressions *)

(** Parameters.cpp:394: the delimiters ending a parameter name. *)
Definition delims : string := " ({)}-+*/%^!|&<>=,".
Fixpoint mem_char (c : ascii) (s : string) : bool :=
  match s with EmptyString => false | String d s' => Ascii.eqb c d || mem_char c s' end.
Definition is_delim (c : ascii) : bool := mem_char c delims.

(** Parameters.cpp:392 (str.find("$")): text before the first '$' and the text starting with it. *)
Fixpoint split_dollar (s : string) : option (string * string) :=
  match s with
  | EmptyString => None
  | String c s' =>
    if Ascii.eqb c "$" then Some ("", s)
    else match split_dollar s' with None => None | Some (a, b) => Some (String c a, b) end
  end.
(** Parameters.cpp:394 (find_first_of): the text up to the first delimiter, and the remaining text. *)
Fixpoint span_name (s : string) : string * string :=
  match s with
  | EmptyString => ("", "")
  | String c s' => if is_delim c then ("", s) else let (a, b) := span_name s' in (String c a, b)
  end.

(** Parameters.cpp:389-406 (ResolveParametersInString).  [inl]: result; [inr false]: quits (unknown parameter);
    [inr true]: still not finished after [fuel] replacements. *)
Fixpoint resolve_string (fuel : nat) (l : list param) (str : string) : string + bool :=
  match split_dollar str with
  | None => inl str
  | Some (pre, rest) =>
    match fuel with
    | O => inr true
    | S n =>
      let (name, post) := span_name rest in
      match get_parameter name l with
      | None => inr false
      | Some v => resolve_string n l (pre ++ v ++ post)%string
      end
    end
  end.
End Typed.
