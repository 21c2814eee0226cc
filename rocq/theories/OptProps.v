(** Properties of the command line options. *)
From Coq Require Import List Bool ZArith String Ascii Lia.
From Verif Require Import OptModel OptProofs.
Import ListNotations.
Open Scope string_scope.
Open Scope list_scope.

(** ** C26: command line parsing *)

(** Every argument vector is read in exactly one way. *)
Theorem C26_reading : forall known takes args,
  (exists its, reads known takes args its) /\
  forall its its', reads known takes args its -> reads known takes args its' -> its = its'.
Proof. intros known takes args. split; [eapply reads_total; eauto|apply reads_unique]. Qed.

(** Parsing: each option is changed by its own occurrences only (and the default option by arguments without option); unknown
    arguments are reported in order; the result tells whether a value was missing. *)
Theorem C26_parse : forall key s prog args its, (forall d, default_option s = Some d -> d < List.length (option_ s)) ->
  reads (known_of key s) (takes_of s) args its -> (default_option s = None -> existsb is_pos its = false) ->
  exists s', ParseArgs key (prog :: args) s = Some (s', existsb (incomplete (option_ s)) its) /\
    List.length (option_ s') = List.length (option_ s) /\
    unknown_args s' = unknown_args s ++ unknowns its /\ original_args s' = original_args s ++ prog :: args /\
    default_option s' = default_option s /\ option_order s' = option_order s /\
    forall i o, nth_error (option_ s) i = Some o ->
      nth_error (option_ s') i = Some (apply_default (fold_left (step (default_option s) i) its o)).
Proof. exact parse_spec. Qed.

(** The values of an option that is not the default one: independent of everything else on the command line. *)
Theorem C26_own_values : forall key s prog args its i o, (forall d, default_option s = Some d -> d < List.length (option_ s)) ->
  reads (known_of key s) (takes_of s) args its -> (default_option s = None -> existsb is_pos its = false) ->
  nth_error (option_ s) i = Some o -> default_option s <> Some i ->
  exists s' b, ParseArgs key (prog :: args) s = Some (s', b) /\
    nth_error (option_ s') i = Some (apply_default (fold_left occurrence (values_of i its) o)).
Proof.
  intros key s prog args its i o D R P N ND. destruct (parse_spec key s prog args its D R P) as (s' & PA & _ & _ & _ & _ & _ & F).
  exists s'. eexists. split; [exact PA|]. rewrite (F i o N). now rewrite fold_not_default.
Qed.

(** A flag is set when present; an option with one value keeps the last one; an option with many values collects all, the latest
    first. *)
Theorem C26_flag : forall vss o, is_empty (opt_arg o) = true ->
  fold_left occurrence vss o = match vss with [] => o | _ => with_set true o end.
Proof. exact fold_flag. Qed.

Theorem C26_single : forall vss o, is_empty (opt_arg o) = false -> single o = true -> Forall (fun vs => vs <> []) vss ->
  fold_left occurrence vss o =
    match List.concat vss with [] => o | v :: _ => with_set true (with_values [last (List.concat vss) v] o) end.
Proof. exact fold_single. Qed.

Theorem C26_multi : forall vss o, is_empty (opt_arg o) = false -> single o = false -> Forall (fun vs => vs <> []) vss ->
  fold_left occurrence vss o =
    match vss with [] => o | _ => with_set true (with_values (rev (List.concat vss) ++ arg_value o) o) end.
Proof. exact fold_multi. Qed.

(** A command line written from settings is read back as these settings. *)
Theorem C26_write : forall known takes sts places,
  Forall2 (fun st i => known (fst st) = Some i /\ Forall plain (snd st) /\ (takes i = false -> snd st = [])) sts places ->
  reads known takes (flat_map write sts) (map (fun p => IOpt (snd p) (snd (fst p))) (combine sts places)).
Proof. exact write_reads. Qed.

(** Defaults are applied exactly to options without value: those given without value, and the automatic ones not given. *)
Theorem C26_defaults : forall o, apply_default o =
  if match arg_value o with [] => true | _ => false end && negb (is_empty (default_value o)) && xorb (auto_apply o) (is_set o)
  then with_set true (with_values [default_value o] o) else o.
Proof.
  intros o. unfold apply_default. destruct (arg_value o); auto. cbn [andb].
  destruct (is_empty (default_value o)), (auto_apply o), (is_set o); reflexivity.
Qed.

(** An argument without option and no default option: null pointer. *)
Theorem C26_no_default_option : forall key s prog args its, default_option s = None ->
  reads (known_of key s) (takes_of s) args its -> existsb is_pos its = true -> ParseArgs key (prog :: args) s = None.
Proof. exact parse_null. Qed.

(** A table of three options: "osc" (default option), "step" (one value), and a name known to the library but not to the
    application. *)
Definition ex_key (n : string) : option nat :=
  if String.eqb n "osc" then Some 0 else if String.eqb n "step" then Some 1 else if String.eqb n "odr" then Some 2 else None.
Definition ex_options : options :=
  Options [Opt "osc" "filename" false [] "" false false true true;
           Opt "step" "seconds" false [] "" false false true false;
           empty_opt] [] [] [] (Some 0).

(** The scenario file after an option's value replaces that value and is lost. *)
Theorem C26_swallowed_refuted : exists s b, ParseArgs ex_key ["esmini"; "--step"; "0.1"; "my.xosc"] ex_options = Some (s, b) /\
  GetOptionValue ex_key "step" 0 s = "my.xosc" /\ GetOptionSet ex_key "osc" s = false.
Proof. eexists. eexists. split; [reflexivity|]. split; reflexivity. Qed.

(** Repeating an option without value unsets it although it has a value. *)
Theorem C26_repeated_refuted : exists s b, ParseArgs ex_key ["esmini"; "--step"; "0.1"; "--step"] ex_options = Some (s, b) /\
  GetOptionSet ex_key "step" s = false /\ GetOptionValue ex_key "step" 0 s = "0.1".
Proof. eexists. eexists. split; [reflexivity|]. split; reflexivity. Qed.

(** The value of an unknown option becomes the scenario file. *)
Theorem C26_unknown_value_refuted : exists s b, ParseArgs ex_key ["esmini"; "--stepp"; "0.1"; "--osc"] ex_options = Some (s, b) /\
  unknown_args s = ["--stepp"] /\ GetOptionValue ex_key "osc" 0 s = "0.1".
Proof. eexists. eexists. split; [reflexivity|]. split; reflexivity. Qed.

(** An option the application does not have is not reported when the library knows its name. *)
Theorem C26_undeclared_refuted : exists s, ParseArgs ex_key ["esmini"; "--odr"; "--osc"; "a"] ex_options = Some (s, false) /\
  unknown_args s = [] /\ GetOptionSet ex_key "odr" s = true.
Proof. eexists. split; [reflexivity|]. split; reflexivity. Qed.

(** A second argument without option disappears. *)
Theorem C26_extra_refuted : exists s, ParseArgs ex_key ["esmini"; "a.xosc"; "b.xosc"] ex_options = Some (s, false) /\
  unknown_args s = [] /\ GetOptionValues ex_key "osc" s = ["a.xosc"] /\ GetOptionValues ex_key "step" s = [].
Proof. eexists. split; [reflexivity|]. repeat split. Qed.

Example C26_parse_ex : exists its, reads (known_of ex_key ex_options) (takes_of ex_options) ["--step"; "0.1"; "--foo"; "my.xosc"] its
  /\ values_of 1 its = [["0.1"]] /\ unknowns its = ["--foo"] /\ existsb is_pos its = true.
Proof.
  exists [IOpt 1 ["0.1"]; IUnknown "--foo"; IPos "my.xosc"]. split; [|repeat split].
  apply (r_arg _ _ "step" ["0.1"] ["--foo"; "my.xosc"]); try reflexivity.
  - repeat constructor.
  - intros v r' H. injection H as <- <-. discriminate.
  - apply (r_unknown _ _ "foo"); try reflexivity. apply r_pos; [reflexivity|constructor].
Qed.
Example C26_write_ex : Forall2 (fun st i => known_of ex_key ex_options (fst st) = Some i /\ Forall plain (snd st) /\ (takes_of ex_options i = false -> snd st = []))
  [("step", ["0.1"]); ("osc", ["a"])] [1; 0].
Proof. repeat constructor; discriminate. Qed.
Example C26_no_default_option_ex :
  ParseArgs ex_key ["esmini"; "a"] (Options (option_ ex_options) [] [] [] None) = None.
Proof. reflexivity. Qed.

Print Assumptions C26_reading.
Print Assumptions C26_parse.
Print Assumptions C26_own_values.
Print Assumptions C26_flag.
Print Assumptions C26_single.
Print Assumptions C26_multi.
Print Assumptions C26_write.
Print Assumptions C26_defaults.
Print Assumptions C26_no_default_option.
Print Assumptions C26_swallowed_refuted.
Print Assumptions C26_repeated_refuted.
Print Assumptions C26_unknown_value_refuted.
Print Assumptions C26_undeclared_refuted.
Print Assumptions C26_extra_refuted.

(** ** C44: setting options through the interface *)

Theorem C44_get : forall key s n o, option_of key s n = Some o ->
  GetOptionSet key n s = is_set o /\ GetOptionValues key n s = arg_value o /\ forall k, GetOptionValue key n k s = GetValue o k.
Proof. exact getters. Qed.

(** The value read at an index: that of the value list, and nothing for a flag (an option without argument) or beyond the list. *)
Theorem C44_value : forall key s n o k, option_of key s n = Some o ->
  GetOptionValue key n k s = match opt_arg o with "" => "" | _ => match nth_error (arg_value o) k with Some v => v | None => "" end end.
Proof.
  intros key s n o k E. destruct (C44_get _ _ _ _ E) as (_ & _ & G). rewrite G. unfold GetValue.
  destruct (opt_arg o); [reflexivity|]. cbn [is_empty negb andb].
  destruct (Nat.ltb_spec k (List.length (arg_value o))) as [L|L].
  - rewrite (nth_error_nth' _ "" L). reflexivity.
  - apply nth_error_None in L. rewrite L. reflexivity.
Qed.

Theorem C44_set : forall key s n v add p o, option_of key s n = Some o -> opt_str o <> "" -> v <> "" -> opt_arg o <> "" ->
  exists s', SetOptionValue key n v add p s = Some s' /\
    option_of key s' n = Some (with_set true (with_persistent p (with_values (v :: if add then arg_value o else []) o))) /\
    forall m, key m <> key n -> option_of key s' m = option_of key s m.
Proof. exact set_spec. Qed.

Theorem C44_set_flag : forall key s n add p o, option_of key s n = Some o -> opt_str o <> "" ->
  exists s', SetOptionValue key n "" add p s = Some s' /\
    option_of key s' n = Some (with_set true (with_persistent p o)) /\
    forall m, key m <> key n -> option_of key s' m = option_of key s m.
Proof. exact set_flag_spec. Qed.

(** The latest value is the one returned. *)
Theorem C44_latest : forall key s n v add p o, option_of key s n = Some o -> opt_str o <> "" -> v <> "" -> opt_arg o <> "" ->
  exists s', SetOptionValue key n v add p s = Some s' /\ GetOptionValue key n 0 s' = v /\ GetOptionSet key n s' = true.
Proof.
  intros key s n v add p o H S V A. destruct (set_spec key s n v add p o H S V A) as (s' & E & O & _). exists s'. split; [auto|].
  destruct (getters key s' n _ O) as (G1 & _ & G3). split; [|rewrite G1; reflexivity]. rewrite G3. unfold GetValue. cbn [opt_arg with_set with_persistent with_values arg_value List.length].
  destruct (opt_arg o); [congruence|reflexivity].
Qed.

(** A value set before the application declares the option survives the declaration. *)
Theorem C44_early : forall key s n v add p o, option_of key s n = Some o -> opt_str o = "" -> n <> "" -> v <> "" ->
  exists s', SetOptionValue key n v add p s = Some s' /\
    (forall m, key m <> key n -> option_of key s' m = option_of key s m) /\
    forall arg default auto sgl dflt, exists s'' o', AddOption key n arg default auto sgl dflt s' = Some s'' /\
      option_of key s'' n = Some o' /\ is_set o' = true /\ persistent o' = p /\ arg_value o' = v :: (if add then arg_value o else []) /\
      opt_arg o' = arg /\ default_value o' = default /\ auto_apply o' = auto /\ single o' = sgl.
Proof. exact set_early_spec. Qed.

Theorem C44_unset : forall key s n o, option_of key s n = Some o ->
  option_of key (UnsetOption key n s) n = Some (with_values [] (with_persistent false (with_set false o))) /\
  forall m, key m <> key n -> option_of key (UnsetOption key n s) m = option_of key s m.
Proof. exact unset_spec. Qed.

Theorem C44_clear : forall key s n o, option_of key s n = Some o ->
  option_of key (ClearOption key n s) n = Some (with_values [] o) /\
  forall m, key m <> key n -> option_of key (ClearOption key n s) m = option_of key s m.
Proof. exact clear_spec. Qed.

Theorem C44_change : forall key s n v k o, option_of key s n = Some o ->
  match ChangeOptionArg key n v k s with
  | Some s' => (0 <= k < Z.of_nat (List.length (arg_value o)))%Z /\
      (exists vs, option_of key s' n = Some (with_values vs o) /\
         forall j, nth_error vs j = if Z.eqb (Z.of_nat j) k then Some v else nth_error (arg_value o) j) /\
      forall m, key m <> key n -> option_of key s' m = option_of key s m
  | None => ~ (0 <= k < Z.of_nat (List.length (arg_value o)))%Z
  end.
Proof. exact change_spec. Qed.

(** A reset keeps exactly the persistent options. *)
Theorem C44_reset : forall key s n o, option_of key s n = Some o ->
  option_of key (Reset s) n = Some (if persistent o then o else with_values [] (with_set false o)).
Proof. exact reset_spec. Qed.

Theorem C44_reset_lists : forall s, original_args (Reset s) = [] /\ unknown_args (Reset s) = [].
Proof. split; reflexivity. Qed.

Example C44_value_ex : exists o, option_of ex_key ex_options "step" = Some o /\ nth_error (arg_value o) 1 = None.
Proof. eexists. split; [vm_compute; reflexivity|reflexivity]. Qed.
Example C44_set_ex : exists o, option_of ex_key ex_options "step" = Some o /\ opt_str o <> "" /\ opt_arg o <> "".
Proof. eexists. split; [reflexivity|]. split; discriminate. Qed.
Example C44_early_ex : exists o, option_of ex_key ex_options "odr" = Some o /\ opt_str o = "" /\ ex_key "step" <> ex_key "odr".
Proof. eexists. split; [reflexivity|]. split; [reflexivity|discriminate]. Qed.
Example C44_change_ex : exists s, SetOptionValue ex_key "step" "1" true true ex_options = Some s
  /\ ChangeOptionArg ex_key "step" "2" 0 s <> None /\ option_of ex_key (Reset s) "step" = option_of ex_key s "step".
Proof. eexists. split; [reflexivity|]. split; [discriminate|reflexivity]. Qed.

Print Assumptions C44_get.
Print Assumptions C44_value.
Print Assumptions C44_set.
Print Assumptions C44_set_flag.
Print Assumptions C44_latest.
Print Assumptions C44_early.
Print Assumptions C44_unset.
Print Assumptions C44_clear.
Print Assumptions C44_change.
Print Assumptions C44_reset.
Print Assumptions C44_reset_lists.
