(** * Command line options: SE_Options

    CM = EnvironmentSimulator/Modules/CommonMini.  Log messages, usage output and option descriptions are left out. *)
From Coq Require Import List Bool ZArith String Ascii.
Import ListNotations.
Open Scope string_scope.
Open Scope list_scope.

(** class SE_Option, CM/CommonMini.hpp:1058-1098 (opt_desc_ left out). *)
Record opt := Opt {
  opt_str : string;
  opt_arg : string;
  is_set : bool;
  arg_value : list string;
  default_value : string;
  persistent : bool;
  auto_apply : bool;
  single : bool;
  is_default : bool }.

(** Initial values, CM/CommonMini.hpp:1061-1074. *)
Definition empty_opt : opt := Opt "" "" false [] "" false false false false.

(** Assignments to single members. *)
Definition with_set (b : bool) (o : opt) : opt :=
  Opt (opt_str o) (opt_arg o) b (arg_value o) (default_value o) (persistent o) (auto_apply o) (single o) (is_default o).
Definition with_values (v : list string) (o : opt) : opt :=
  Opt (opt_str o) (opt_arg o) (is_set o) v (default_value o) (persistent o) (auto_apply o) (single o) (is_default o).
Definition with_persistent (b : bool) (o : opt) : opt :=
  Opt (opt_str o) (opt_arg o) (is_set o) (arg_value o) (default_value o) b (auto_apply o) (single o) (is_default o).

(** class SE_Options, CM/CommonMini.hpp:1100-1167; the option vector has one place per known name and never grows
    (CM/CommonMini.cpp:2490-2494 quits), pointers to options are indices (app_name_ left out). *)
Record options := Options {
  option_ : list opt;
  option_order : list nat;
  original_args : list string;
  unknown_args : list string;
  default_option : option nat }.

(** Replacement of one element of the option vector. *)
Fixpoint upd (i : nat) (f : opt -> opt) (l : list opt) : list opt :=
  match l, i with
  | [], _ => []
  | o :: l, 0 => f o :: l
  | o :: l, S i => o :: upd i f l
  end.

Definition modify (i : nat) (f : opt -> opt) (s : options) : options :=
  Options (upd i f (option_ s)) (option_order s) (original_args s) (unknown_args s) (default_option s).

(** std::string::empty and comparison with "". *)
Definition is_empty (s : string) : bool := match s with EmptyString => true | _ => false end.

(** The test for the prefix "--", CM/CommonMini.cpp:2710 and 2734. *)
Definition dashed (s : string) : bool := prefix "--" s.

(** [&args[i][strlen(OPT_PREFIX)]], CM/CommonMini.cpp:2722. *)
Definition drop2 (s : string) : string := match s with String _ (String _ r) => r | _ => "" end.

(** OSG_ARGS, CM/CommonMini.cpp:2567-2576. *)
Definition OSG_ARGS : list (string * nat) :=
  [("--clear-color", 1); ("--screen", 1); ("--window", 4); ("--borderless-window", 0); ("--SingleThreaded", 0);
   ("--CullDrawThreadPerContext", 0); ("--SingleThreaded", 0); ("--DrawThreadPerContext", 0);
   ("--CullThreadPerCameraDrawThreadPerContext", 0); ("--lodScale", 1)].

(** std::find_if over OSG_ARGS, CM/CommonMini.cpp:2764-2766. *)
Definition osg_arity (arg : string) : option nat := option_map snd (find (fun p => String.eqb (fst p) arg) OSG_ARGS).

Section Options.
(** esmini_options::ConvertStrKeyToEnum: the place of a known name, [None] for CONFIGS_COUNT. *)
Variable key : string -> option nat.

(** GetOption, CM/CommonMini.cpp:2798-2817; the second loop is over no elements. *)
Definition GetOption (s : options) (name : string) : option nat :=
  match key name with
  | Some i => if Nat.ltb i (List.length (option_ s)) then Some i else None
  | None => None
  end.

(** AddOption, CM/CommonMini.cpp:2449-2502; for an unknown name the process quits ([None]). *)
Definition AddOption (name arg default : string) (auto sgl dflt : bool) (s : options) : option options :=
  match GetOption s name with
  | None => None
  | Some i =>
      let s := modify i (fun o => Opt name arg (is_set o) (arg_value o) default (persistent o) auto sgl dflt) s in
      Some (Options (option_ s) (option_order s ++ [i]) (original_args s) (unknown_args s)
              (if dflt then Some i else default_option s))
  end.

(** SE_Option::IsSpecified, CM/CommonMini.cpp:2684-2687. *)
Definition IsSpecified (o : opt) : bool := negb (is_empty (opt_str o)).

(** SetOptionValue, CM/CommonMini.cpp:2593-2635; [None] is the return value -1. *)
Definition SetOptionValue (name value : string) (add persist : bool) (s : options) : option options :=
  match GetOption s name with
  | None => None
  | Some i =>
      let s :=
        if IsSpecified (nth i (option_ s) empty_opt) then s
        else match AddOption name value "" false true false s with Some s' => s' | None => s end in
      let o := nth i (option_ s) empty_opt in
      if is_empty value then Some (modify i (fun o => with_set true (with_persistent persist o)) s)
      else if is_empty (opt_arg o) then None
      else
        let old := if add then arg_value o else [] in
        Some (modify i (fun o => with_set true (with_persistent persist (with_values (value :: old) o))) s)
  end.

(** UnsetOption, CM/CommonMini.cpp:2637-2648. *)
Definition UnsetOption (name : string) (s : options) : options :=
  match GetOption s name with
  | None => s
  | Some i => modify i (fun o => with_values [] (with_persistent false (with_set false o))) s
  end.

(** ClearOption, CM/CommonMini.cpp:2650-2660. *)
Definition ClearOption (name : string) (s : options) : options :=
  match GetOption s name with
  | None => s
  | Some i => modify i (with_values []) s
  end.

(** ChangeOptionArg, CM/CommonMini.cpp:2579-2591; [None] is the return value -1. *)
Fixpoint set_nth (i : nat) (v : string) (l : list string) : list string :=
  match l, i with
  | [], _ => []
  | _ :: l, 0 => v :: l
  | x :: l, S i => x :: set_nth i v l
  end.
Definition ChangeOptionArg (name new_value : string) (index : Z) (s : options) : option options :=
  match GetOption s name with
  | None => None
  | Some i =>
      let o := nth i (option_ s) empty_opt in
      if Z.ltb index 0 || Z.leb (Z.of_nat (List.length (arg_value o))) index then None
      else Some (modify i (with_values (set_nth (Z.to_nat index) new_value (arg_value o))) s)
  end.

(** GetOptionSet, CM/CommonMini.cpp:2524-2536. *)
Definition GetOptionSet (name : string) (s : options) : bool :=
  match GetOption s name with Some i => is_set (nth i (option_ s) empty_opt) | None => false end.

(** SE_Option::GetValue, CM/CommonMini.cpp:2437-2447. *)
Definition GetValue (o : opt) (index : nat) : string :=
  if negb (is_empty (opt_arg o)) && Nat.ltb index (List.length (arg_value o)) then nth index (arg_value o) "" else "".

(** GetOptionValue, CM/CommonMini.cpp:2819-2829. *)
Definition GetOptionValue (name : string) (index : nat) (s : options) : string :=
  match GetOption s name with Some i => GetValue (nth i (option_ s) empty_opt) index | None => "" end.

(** GetOptionValues, CM/CommonMini.cpp:2554-2565. *)
Definition GetOptionValues (name : string) (s : options) : list string :=
  match GetOption s name with Some i => arg_value (nth i (option_ s) empty_opt) | None => [] end.

(** The do-while loop of ParseArgs, CM/CommonMini.cpp:2732-2748: values are consumed while they do not start with "--";
    returns the option, settingSuccess and the arguments left. *)
Fixpoint take_values (o : opt) (success : bool) (rest : list string) : opt * bool * list string :=
  match rest with
  | v :: rest' =>
      if dashed v then (o, success, rest)
      else take_values (with_values (v :: (if single o then [] else arg_value o)) o) true rest'
  | [] => (o, success, rest)
  end.

(** The branch for a known option, CM/CommonMini.cpp:2724-2759; returns the option, whether an argument is missing, and the
    arguments left. *)
Definition parse_option (o : opt) (rest : list string) : opt * bool * list string :=
  let o := with_set true o in
  if is_empty (opt_arg o) then (o, false, rest)
  else
    let '(o, success, rest) := take_values o false rest in
    if negb success && negb (is_empty (default_value o)) then
      (with_values (arg_value o ++ [default_value o]) o, false, rest)
    else if negb success then (with_set false o, true, rest)
    else (o, false, rest).

(** The loop of ParseArgs, CM/CommonMini.cpp:2706-2776; [None]: default_option_ is a null pointer (2712).  The boolean is
    "returnVal = -1". *)
Fixpoint parse_loop (fuel : nat) (args : list string) (s : options) (failed : bool) : option (options * bool) :=
  match fuel with
  | 0 => None
  | S fuel =>
      match args with
      | [] => Some (s, failed)
      | arg :: rest =>
          if negb (dashed arg) then
            match default_option s with
            | None => None
            | Some d =>
                let o := nth d (option_ s) empty_opt in
                let s := match arg_value o with
                         | [] => modify d (fun o => with_set true (with_values [arg] o)) s
                         | _ => s
                         end in
                parse_loop fuel rest s failed
            end
          else
            match GetOption s (drop2 arg) with
            | Some i =>
                let '(o, missing, rest) := parse_option (nth i (option_ s) empty_opt) rest in
                parse_loop fuel rest (modify i (fun _ => o) s) (failed || missing)
            | None =>
                match osg_arity arg with
                | Some k => parse_loop fuel (skipn k rest) s failed
                | None =>
                    parse_loop fuel rest
                      (Options (option_ s) (option_order s) (original_args s) (unknown_args s ++ [arg]) (default_option s)) failed
                end
            end
      end
  end.

(** ApplyDefaultValues, CM/CommonMini.cpp:2783-2796. *)
Definition apply_default (o : opt) : opt :=
  match arg_value o with
  | [] =>
      if negb (is_empty (default_value o))
         && ((negb (auto_apply o) && is_set o) || (auto_apply o && negb (is_set o)))
      then with_set true (with_values [default_value o] o)
      else o
  | _ => o
  end.
Definition ApplyDefaultValues (s : options) : options :=
  Options (map apply_default (option_ s)) (option_order s) (original_args s) (unknown_args s) (default_option s).

(** ParseArgs, CM/CommonMini.cpp:2689-2781. *)
Definition ParseArgs (argv : list string) (s : options) : option (options * bool) :=
  match argv with
  | [] => Some (s, true)
  | _ :: args =>
      let s := Options (option_ s) (option_order s) (original_args s ++ argv) (unknown_args s) (default_option s) in
      match parse_loop (S (List.length args)) args s false with
      | Some (s, failed) => Some (ApplyDefaultValues s, failed)
      | None => None
      end
  end.

(** Reset, CM/CommonMini.cpp:2882-2896. *)
Definition reset_opt (o : opt) : opt := if persistent o then o else with_values [] (with_set false o).
Definition Reset (s : options) : options := Options (map reset_opt (option_ s)) [] [] [] (default_option s).

End Options.
