(** Properties C11, C12, C37: parameter scopes, typed access, substitution in strings.  [C] are the number/string
    conversions of the C library and the expression evaluator, arbitrary functions here. *)
From Coq Require Import List String Ascii ZArith QArith Bool Arith Lia.
From Verif Require Import ParamModel ParamProofs.
Import ListNotations.
Open Scope string_scope.
Open Scope list_scope.
Open Scope nat_scope.

(** ** C11 *)

(** Leaving every scope entered restores exactly the declarations (and the pending scopes), for any nesting. *)
Theorem C11_restore : forall C os, balanced os -> forall s s', papplies C os s = Some s' -> decls s' = decls s /\ sizes s' = sizes s.
Proof. exact balanced_restore. Qed.

(** With values set inside the scopes, the same declarations (names, types, order) remain. *)
Theorem C11_restore_with_sets : forall C os, balanced_set os -> forall s s', papplies C os s = Some s' ->
  Forall2 same_decl (decls s') (decls s) /\ sizes s' = sizes s.
Proof. exact balanced_set_restore. Qed.

(** Any call sequence on a fresh object: the only way to fail is a declaration that cannot be read; erasing is always in range. *)
Theorem C11_only_declarations_fail : forall C os, papplies C os (mkS [] [] []) = None ->
  exists pre xs post s1, os = pre ++ OAdd xs :: post /\ papplies C pre (mkS [] [] []) = Some s1 /\ papply C (OAdd xs) s1 = None.
Proof. intros C os. apply only_declarations_fail. exact I. Qed.

(** Inside a scope the innermost declaration of a name is the visible one: its value is the last catalog assignment of
    that name, else its own (resolved) value; provided no visible entry of that name has been modified before. *)
Theorem C11_shadow : forall C a x b s s' s1 v0 n,
  add_decls C (a ++ x :: b) s = Some s' ->
  refers n (x_name x) ->
  (forall y, In y b -> ~ refers n (x_name y)) ->
  (forall q, In q (decls s) -> p_name q = x_name x -> p_dirty q = false) ->
  add_decls C a s = Some s1 -> read_attribute C (decls s1) (x_value x) = Some v0 ->
  exists p, get_entry n (decls s') = Some p /\ p_name p = x_name x /\
    effective (assigns s) (x_name x) v0 (v_string (p_val p)) /\
    (exists ts, x_type x = Some ts /\ type_of ts = Some (p_type p)).
Proof. exact shadow. Qed.

(** Names not declared in the scope keep their meaning. *)
Theorem C11_outer_visible : forall C xs s s' n, add_decls C xs s = Some s' -> (forall x, In x xs -> ~ refers n (x_name x)) ->
  get_entry n (decls s') = get_entry n (decls s).
Proof. exact outer_visible. Qed.

Definition C0 : conv := mkC (fun _ => "") (fun _ => "") (fun _ => 0%Z) (fun _ => 0%Q) (fun _ _ => None).
Definition str_decl (n v : string) : xdecl := mkX n v (Some "string").

(** An outer parameter whose value was modified is not shadowed: the inner declaration is dropped (Parameters.cpp:570-575). *)
Theorem C11_shadow_modified_refuted : exists C s',
  papplies C [OAdd [str_decl "p" "outer"]; OSetString "p" "modified"; OAdd [str_decl "p" "inner"]] (mkS [] [] []) = Some s' /\
  get_parameter "$p" (decls s') = Some "modified".
Proof. exists C0. eexists. split; vm_compute; reflexivity. Qed.

(** The reader: parsing a story leaves the declarations as they were when no maneuver or route inside it has declarations of its own. *)
Theorem C11_story_partial : forall C x s s',
  (forall g c, In g (s_groups x) -> In c (g_catalog g) -> no_decls (snd c)) ->
  (forall g m, In g (s_groups x) -> In m (g_inline g) -> no_decls m) ->
  papplies C (story_ops x) s = Some s' -> decls s' = decls s.
Proof. exact story_restore. Qed.

(** In every story no outer declaration is ever lost: they remain, in order, behind whatever was left over. *)
Theorem C11_story_keeps_outer_partial : forall C x s s', sizes_ok (List.length (decls s)) (sizes s) ->
  papplies C (story_ops x) s = Some s' -> exists e D', decls s' = e ++ D' /\ Forall2 same_decl D' (decls s).
Proof. intros C x s s'. apply covered_keeps, covered_story. Qed.

Definition leaking_story : xstory :=
  mkSt (Some [str_decl "p" "of story 1"]) [mkG [] [mkM (Some [str_decl "q" "of maneuver"]) []]].
Definition global_p : list pop := [OAdd [str_decl "p" "global"]].

(** Missing part: a maneuver with declarations of its own makes the declarations of its story survive the story, so that
    a later story sees them instead of the global ones. *)
Theorem C11_story_refuted : exists C s s', papplies C global_p (mkS [] [] []) = Some s /\
  papplies C (story_ops leaking_story) s = Some s' /\
  get_parameter "$p" (decls s) = Some "global" /\ get_parameter "$p" (decls s') = Some "of story 1".
Proof. exists C0. do 2 eexists. repeat split; vm_compute; reflexivity. Qed.

(** Same for a route with declarations inside a maneuver of the story. *)
Theorem C11_story_route_refuted : exists C s s' x, papplies C global_p (mkS [] [] []) = Some s /\
  papplies C (story_ops x) s = Some s' /\ (forall g m, In g (s_groups x) -> In m (g_inline g) -> m_decls m = None) /\
  get_parameter "$p" (decls s') = Some "of story 1".
Proof.
  exists C0. do 2 eexists. exists (mkSt (Some [str_decl "p" "of story 1"]) [mkG [] [mkM None [Some [str_decl "q" "of route"]]]]).
  split; [vm_compute; reflexivity|]. split; [vm_compute; reflexivity|]. split; [|reflexivity].
  simpl. intros g m [<-|[]] [<-|[]]. reflexivity.
Qed.

Example C11_example : exists s',
  balanced [OAdd [str_decl "p" "1"; str_decl "q" "$p"]; OAdd [str_decl "p" "2"]; OAssign "r" "9"; ORestore; ORestore] /\
  papplies C0 [OAdd [str_decl "p" "1"; str_decl "q" "$p"]; OAssign "p" "7"; OAdd [str_decl "p" "2"]] (mkS [] [] []) = Some s' /\
  get_parameter "$p" (decls s') = Some "7" /\ get_parameter "q" (decls s') = Some "1" /\ List.length (decls s') = 3.
Proof.
  eexists. split; [|split; [vm_compute; reflexivity|repeat split; reflexivity]].
  apply (bal_add _ [OAdd _; OAssign _ _; ORestore]). apply (bal_add _ [OAssign _ _]). constructor.
Qed.
Example C11_story_example : exists s', papplies C0 (story_ops (mkSt (Some [str_decl "p" "x"]) [mkG [([("p", "y")], mkM None [None])] [mkM None []]])) (mkS [] [] []) = Some s' /\ decls s' = [].
Proof. eexists. split; vm_compute; reflexivity. Qed.

(** ** C12 *)

(** A successful typed set is what the next typed get, and the textual get, of that name return. *)
Theorem C12_set_get : forall C s n v, fst (set_val C s n v) = 0%Z -> lookup (snd (set_val C s n v)) n = Some v.
Proof. exact set_get. Qed.
Theorem C12_set_get_text : forall C s n v, fst (set_val C s n v) = 0%Z ->
  get_as_string C (snd (set_val C s n v)) n = text_of C v /\ get_parameter n (decls (snd (set_val C s n v))) = Some (text_of C v).
Proof. exact set_get_text. Qed.
(** The textual get always renders the typed value. *)
Theorem C12_text_of_typed : forall C s n v, lookup s n = Some v -> get_as_string C s n = text_of C v.
Proof. exact as_string_typed. Qed.
(** It succeeds iff the name is known with the same type ... *)
Theorem C12_success : forall C s n v, fst (set_val C s n v) = 0%Z <-> exists w, lookup s n = Some w /\ same_type w v = true.
Proof. exact set_ok_lookup. Qed.
(** ... and is otherwise rejected with -1 and no effect at all. *)
Theorem C12_reject : forall C s n v, fst (set_val C s n v) <> 0%Z -> fst (set_val C s n v) = (-1)%Z /\ snd (set_val C s n v) = s.
Proof. exact set_reject. Qed.
(** No other name (one not referring to the same declaration) is affected, by any observation. *)
Theorem C12_frame : forall C s n m v, (forall p, In p (decls s) -> refers n (p_name p) -> refers m (p_name p) -> False) ->
  same_obs C s (snd (set_val C s n v)) m.
Proof. exact set_frame. Qed.
(** Whole histories: the object behaves as a partial map from names, for every sequence of sets and every later get. *)
Theorem C12_refines_map : forall C l s, (forall p, In p (decls s) -> plain (p_name p)) ->
  exists m, (forall k, plain k -> m k = lookup s k) /\
    fst (sets C l s) = fst (asets l m) /\ forall k, lookup (snd (sets C l s)) k = snd (asets l m) (strip k).
Proof.
  intros C l s P. exists (absn s). split; [intros k K; apply lookup_absn; auto|]. exact (sets_refine C l s P).
Qed.
(** Setting by text: the typed value is the converted text, other names unaffected, unknown names rejected. *)
Theorem C12_by_string : forall C os s s' n x p, papplies C os (mkS [] [] []) = Some s -> get_entry n (decls s) = Some p ->
  s' = snd (set_by_string C s n x) ->
  fst (set_by_string C s n x) = 0%Z /\
  lookup s' n = Some (match p_type p with PARAM_TYPE_INTEGER => VInt (strtoi C x) | PARAM_TYPE_DOUBLE => VDouble (strtod C x)
                      | PARAM_TYPE_BOOL => VBool (String.eqb x "true") | _ => VString x end) /\
  get_parameter n (decls s') = Some x.
Proof.
  intros C os s s' n x p R E ->. apply by_string_ok; auto. apply get_entry_in in E. destruct E as [E _].
  revert p E. eapply (papplies_types C os); [|exact R]. simpl. tauto.
Qed.
Theorem C12_by_string_frame : forall C s n m x, (forall p, In p (decls s) -> refers n (p_name p) -> refers m (p_name p) -> False) ->
  same_obs C s (snd (set_by_string C s n x)) m.
Proof. exact by_string_frame. Qed.
Theorem C12_by_string_unknown : forall C s n x, get_entry n (decls s) = None -> set_by_string C s n x = ((-1)%Z, s).
Proof. exact by_string_unknown. Qed.

Example C12_example : exists s, papplies C0 [OAdd [mkX "i" "3" (Some "integer"); str_decl "t" "abc"; mkX "b" "true" (Some "boolean")]] (mkS [] [] []) = Some s /\
  fst (sets C0 [("i", VInt 5); ("$i", VInt 6); ("t", VInt 1); ("zz", VBool true); ("b", VBool false)] s) = [0; 0; -1; -1; 0]%Z /\
  let s' := snd (sets C0 [("i", VInt 5); ("$i", VInt 6); ("t", VInt 1); ("zz", VBool true); ("b", VBool false)] s) in
  get_int s' "i" = Some 6%Z /\ get_string s' "t" = Some "abc" /\ get_bool s' "b" = Some false /\ get_int s' "zz" = None /\
  (forall p, In p (decls s) -> plain (p_name p)).
Proof.
  eexists. split; [vm_compute; reflexivity|]. simpl. repeat split.
  intros p [<-|[<-|[<-|[]]]]; reflexivity.
Qed.

(** ** C37 *)

(** When no parameter value contains '$', resolving a string terminates ... *)
Theorem C37_terminates : forall l, (forall p, In p l -> no_dollar (v_string (p_val p))) ->
  forall str fuel, dollars str <= fuel -> resolve_string fuel l str <> inr true.
Proof. intros l V str fuel. apply resolve_terminates; auto. Qed.
(** ... with every reference replaced by the value of the parameter, everything else kept, and an error for unknown references. *)
Theorem C37_substitution : forall l ts fuel, (forall p, In p l -> no_dollar (v_string (p_val p))) -> well_formed ts ->
  dollars (render ts) <= fuel ->
  resolve_string fuel l (render ts) = match substitute (fun n => get_parameter (String "$" n) l) ts with Some y => inl y | None => inr false end.
Proof. intros l ts fuel V W F. apply (resolve_tokens l V ts "" fuel); auto. Qed.
(** Otherwise it need not terminate: a value that mentions its own parameter is replaced for ever. *)
Theorem C37_terminates_refuted : exists C l, (exists s, papplies C [OAdd [str_decl "a" "x$a"]] (mkS [] [] []) = Some s /\ decls s = l) /\
  forall fuel, resolve_string fuel l "$a" = inr true.
Proof.
  exists C0, [loop_param]. split; [eexists; split; [vm_compute; reflexivity|reflexivity]|].
  intros fuel. apply (resolve_loops fuel ""). reflexivity.
Qed.
Example C37_example : exists s, papplies C0 [OAdd [str_decl "a" "12"; str_decl "bc" "3"]] (mkS [] [] []) = Some s /\
  well_formed [Text "2*("; Ref "a"; Text "+"; Ref "bc"; Text ")"] /\
  resolve_string 5 (decls s) "2*($a+$bc)" = inl "2*(12+3)" /\ resolve_string 5 (decls s) "$a$bc" = inr false.
Proof. eexists. split; [vm_compute; reflexivity|]. repeat split. Qed.

Print Assumptions C11_restore.
Print Assumptions C11_shadow.
Print Assumptions C11_story_refuted.
Print Assumptions C11_story_keeps_outer_partial.
Print Assumptions C12_refines_map.
Print Assumptions C12_frame.
Print Assumptions C12_by_string.
Print Assumptions C37_substitution.
Print Assumptions C37_terminates_refuted.
