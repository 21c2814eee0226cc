(** Command line options: specification and lemmas. *)
From Coq Require Import List Bool ZArith String Ascii Lia.
From Verif Require Import OptModel.
Import ListNotations.
Open Scope list_scope.

(** ** Specification: reading an argument vector *)

(** One item of the command line. *)
Inductive item :=
  | IPos (s : string)                     (* an argument without dashes that belongs to no option *)
  | IOpt (i : nat) (vs : list string)     (* a known option with its values *)
  | IOsg                                  (* an argument for the graphics library with its parameters *)
  | IUnknown (s : string).                (* anything else *)

Definition plain (s : string) : Prop := prefix "--" s = false.

(** [reads known takes args items]: the argument vector consists of the given items, where [known] gives the place of an option
    name and [takes i] tells whether that option has values.  An option takes all arguments up to the next one with dashes. *)
Inductive reads (known : string -> option nat) (takes : nat -> bool) : list string -> list item -> Prop :=
  | r_nil : reads known takes [] []
  | r_pos : forall a r its, plain a -> reads known takes r its -> reads known takes (a :: r) (IPos a :: its)
  | r_flag : forall a r its i, known a = Some i -> takes i = false ->
      reads known takes r its -> reads known takes ((String "-" (String "-" a)) :: r) (IOpt i [] :: its)
  | r_arg : forall a vs r its i, known a = Some i -> takes i = true -> Forall plain vs ->
      (forall v r', r = v :: r' -> ~ plain v) ->
      reads known takes r its -> reads known takes ((String "-" (String "-" a)) :: vs ++ r) (IOpt i vs :: its)
  | r_osg : forall a r its k, known a = None -> osg_arity (String "-" (String "-" a)) = Some k ->
      reads known takes (skipn k r) its -> reads known takes ((String "-" (String "-" a)) :: r) (IOsg :: its)
  | r_unknown : forall a r its, known a = None -> osg_arity (String "-" (String "-" a)) = None ->
      reads known takes r its ->
      reads known takes ((String "-" (String "-" a)) :: r) (IUnknown (String "-" (String "-" a)) :: its).

(** What one occurrence of an option with the given values does to it. *)
Definition occurrence (o : opt) (vs : list string) : opt :=
  if is_empty (opt_arg o) then with_set true o
  else match vs with
       | [] => if is_empty (default_value o) then with_set false o
               else with_set true (with_values (arg_value o ++ [default_value o]) o)
       | v :: _ => with_set true (with_values (if single o then [last vs v] else rev vs ++ arg_value o) o)
       end.

(** What one item does to the option at place [i]; [d] is the place of the default option. *)
Definition step (d : option nat) (i : nat) (o : opt) (it : item) : opt :=
  match it with
  | IPos s => match d with
              | Some j => if Nat.eqb j i then match arg_value o with [] => with_set true (with_values [s] o) | _ => o end else o
              | None => o
              end
  | IOpt j vs => if Nat.eqb j i then occurrence o vs else o
  | _ => o
  end.

Definition unknowns (its : list item) : list string :=
  flat_map (fun it => match it with IUnknown s => [s] | _ => [] end) its.

(** A value is missing. *)
Definition incomplete (os : list opt) (it : item) : bool :=
  match it with
  | IOpt i [] => let o := nth i os empty_opt in negb (is_empty (opt_arg o)) && is_empty (default_value o)
  | _ => false
  end.

Definition known_of (key : string -> option nat) (s : options) (name : string) : option nat :=
  match key name with Some i => if Nat.ltb i (List.length (option_ s)) then Some i else None | None => None end.
Definition takes_of (s : options) (i : nat) : bool := negb (is_empty (opt_arg (nth i (option_ s) empty_opt))).

(** ** Lemmas *)

Lemma upd_length : forall l i f, List.length (upd i f l) = List.length l.
Proof. induction l; destruct i; simpl; auto. Qed.

Lemma upd_same : forall l i f o, nth_error l i = Some o -> nth_error (upd i f l) i = Some (f o).
Proof. induction l; destruct i; simpl; intros; try discriminate; [now injection H as ->|auto]. Qed.

Lemma upd_other : forall l i j f, i <> j -> nth_error (upd i f l) j = nth_error l j.
Proof. induction l; destruct i, j; simpl; intros; auto; try congruence. Qed.

Lemma nth_of : forall (l : list opt) i o, nth_error l i = Some o -> nth i l empty_opt = o.
Proof. intros. now apply nth_error_nth. Qed.

(** Static part of an option. *)
Definition same_decl (o o' : opt) : Prop :=
  opt_arg o' = opt_arg o /\ default_value o' = default_value o /\ single o' = single o /\ auto_apply o' = auto_apply o
  /\ opt_str o' = opt_str o /\ persistent o' = persistent o /\ is_default o' = is_default o.

Lemma same_decl_refl : forall o, same_decl o o.
Proof. repeat split. Qed.

Lemma occurrence_decl : forall o vs, same_decl o (occurrence o vs).
Proof.
  intros o vs. unfold occurrence. destruct (is_empty (opt_arg o)); [repeat split|].
  destruct vs; [|repeat split]. destruct (is_empty (default_value o)); repeat split.
Qed.

Lemma take_values_spec : forall vs o b r, Forall plain vs -> (forall v r', r = v :: r' -> ~ plain v) ->
  take_values o b (vs ++ r) =
    (match vs with [] => o | v :: _ => with_values (if single o then [last vs v] else rev vs ++ arg_value o) o end,
     b || match vs with [] => false | _ => true end, r).
Proof.
  induction vs as [|v vs IH]; intros o b r F H.
  - simpl. destruct r as [|v r]; simpl; [now rewrite orb_false_r|]. unfold dashed.
    specialize (H v r eq_refl). unfold plain in H. destruct (prefix "--" v); [now rewrite orb_false_r|tauto].
  - inversion F; subst. cbn [app take_values]. unfold dashed. rewrite H2. rewrite IH by auto.
    cbn [single with_values arg_value]. f_equal. f_equal.
    + destruct vs as [|w vs].
      * destruct (single o); reflexivity.
      * destruct (single o) eqn:E.
        -- unfold with_values. cbn. rewrite E. f_equal. f_equal. clear. revert v w. induction vs as [|x vs IH]; intros; auto. cbn in *.
           destruct vs; auto. 
        -- unfold with_values. cbn. rewrite E. f_equal. cbn [rev]. rewrite <- !app_assoc. reflexivity.
    + rewrite orb_true_r. destruct vs; reflexivity.
Qed.

Lemma parse_option_spec : forall o vs r, Forall plain vs -> (forall v r', r = v :: r' -> ~ plain v) ->
  is_empty (opt_arg o) = false ->
  parse_option o (vs ++ r) = (occurrence o vs, match vs with [] => is_empty (default_value o) | _ => false end, r).
Proof.
  intros o vs r F H E. unfold parse_option, occurrence. cbn [opt_arg with_set]. rewrite E.
  rewrite take_values_spec by auto. cbn [orb single with_set arg_value default_value].
  destruct vs as [|v vs]; cbn [negb andb].
  - cbn [default_value with_set]. destruct (is_empty (default_value o)); reflexivity.
  - reflexivity.
Qed.

Lemma parse_flag_spec : forall o r, is_empty (opt_arg o) = true -> parse_option o r = (occurrence o [], false, r).
Proof. intros o r E. unfold parse_option, occurrence. cbn [opt_arg with_set]. now rewrite E. Qed.

(** Every argument vector can be read in exactly one way. *)
Lemma span_plain : forall l, exists vs r, l = vs ++ r /\ Forall plain vs /\ (forall v r', r = v :: r' -> ~ plain v).
Proof.
  induction l as [|v l IH]; [exists [], []; repeat split; auto; discriminate|].
  destruct (prefix "--" v) eqn:E.
  - exists [], (v :: l). split; [auto|split; [auto|]]. intros v' r' H. injection H as <- <-. unfold plain. congruence.
  - destruct IH as (vs & r & -> & F & H). exists (v :: vs), r. repeat split; auto.
Qed.

Lemma dashed_shape : forall a, prefix "--" a = true -> exists b, a = String "-" (String "-" b).
Proof.
  intros a H. destruct a as [|c [|c' b]]; cbn [prefix] in H; try discriminate H.
  - destruct (ascii_dec "-" c); discriminate H.
  - destruct (ascii_dec "-" c) as [E|E]; [|discriminate H]. destruct (ascii_dec "-" c') as [E'|E']; [|discriminate H]. subst c c'. eauto.
Qed.

Lemma dashed_dd : forall b, prefix "--" (String "-" (String "-" b)) = true.
Proof. intros b. cbn. destruct b; reflexivity. Qed.

Lemma reads_total : forall known takes n args, List.length args <= n -> exists its, reads known takes args its.
Proof.
  intros known takes. induction n as [|n IH]; intros args L.
  - destruct args; [eexists; constructor|simpl in L; lia].
  - destruct args as [|a r]; [eexists; constructor|]. simpl in L.
    destruct (prefix "--" a) eqn:E.
    + destruct (dashed_shape a E) as (b & ->). destruct (known b) as [i|] eqn:K.
      * destruct (takes i) eqn:T.
        -- destruct (span_plain r) as (vs & r' & -> & F & H). rewrite app_length in L.
           destruct (IH r') as (its & I); [lia|]. eexists. eapply r_arg; eauto.
        -- destruct (IH r) as (its & I); [lia|]. eexists. eapply r_flag; eauto.
      * destruct (osg_arity (String "-" (String "-" b))) as [k|] eqn:O.
        -- destruct (IH (skipn k r)) as (its & I); [rewrite skipn_length; lia|]. eexists. eapply r_osg; eauto.
        -- destruct (IH r) as (its & I); [lia|]. eexists. eapply r_unknown; eauto.
    + destruct (IH r) as (its & I); [lia|]. eexists. apply r_pos; eauto.
Qed.

Lemma split_unique : forall vs vs' r r', Forall plain vs -> Forall plain vs' ->
  (forall v q, r = v :: q -> ~ plain v) -> (forall v q, r' = v :: q -> ~ plain v) -> vs ++ r = vs' ++ r' -> vs = vs' /\ r = r'.
Proof.
  induction vs as [|v vs IH]; intros vs' r r' F F' H H' E.
  - destruct vs' as [|v' vs']; [auto|]. simpl in E. inversion F'; subst. exfalso. eapply H; eauto.
  - destruct vs' as [|v' vs'].
    + simpl in E. inversion F; subst. exfalso. eapply H'; eauto.
    + simpl in E. injection E as -> E. inversion F; inversion F'; subst. destruct (IH vs' r r') as (-> & ->); auto.
Qed.

Lemma not_plain_dd : forall b, plain (String "-" (String "-" b)) -> False.
Proof. intros b H. unfold plain in H. rewrite dashed_dd in H. discriminate. Qed.

Lemma reads_unique : forall known takes args its its', reads known takes args its -> reads known takes args its' -> its = its'.
Proof.
  intros known takes args its its' R. revert its'. induction R; intros its' R'; inversion R'; subst; auto;
    try (exfalso; eapply not_plain_dd; eauto; fail); try congruence.
  - f_equal. auto.
  - assert (i0 = i) by congruence. subst. f_equal. auto.
  - assert (i0 = i) by congruence. subst. 
    match goal with H : _ ++ _ = _ ++ _ |- _ => apply split_unique in H; auto; destruct H; subst end. f_equal. auto.
  - assert (k0 = k) by congruence. subst. f_equal. auto.
  - f_equal. auto.
Qed.

Definition is_pos (it : item) : bool := match it with IPos _ => true | _ => false end.

Section Parse.
Variable key : string -> option nat.

Lemma known_same : forall s s', List.length (option_ s') = List.length (option_ s) -> forall n, GetOption key s' n = known_of key s n.
Proof. intros s s' L n. unfold GetOption, known_of. now rewrite L. Qed.

(** The state during the loop compared with the state before it. *)
Definition reached (s0 : options) (done : list item) (s : options) : Prop :=
  List.length (option_ s) = List.length (option_ s0) /\
  default_option s = default_option s0 /\ option_order s = option_order s0 /\ original_args s = original_args s0 /\
  unknown_args s = unknown_args s0 ++ unknowns done /\
  forall i o, nth_error (option_ s0) i = Some o ->
    nth_error (option_ s) i = Some (fold_left (step (default_option s0) i) done o) /\
    same_decl o (fold_left (step (default_option s0) i) done o).

Lemma step_decl : forall d i o it, same_decl o (step d i o it).
Proof.
  intros d i o it. destruct it; cbn; try apply same_decl_refl.
  - destruct d; [|apply same_decl_refl]. destruct (Nat.eqb n i); [|apply same_decl_refl]. destruct (arg_value o); repeat split.
  - destruct (Nat.eqb i0 i); [apply occurrence_decl|apply same_decl_refl].
Qed.

Lemma same_decl_trans : forall a b c, same_decl a b -> same_decl b c -> same_decl a c.
Proof. unfold same_decl. intros a b c H1 H2. intuition congruence. Qed.

Lemma fold_decl : forall d i its o, same_decl o (fold_left (step d i) its o).
Proof.
  induction its as [|it its IH]; intros o; [apply same_decl_refl|]. cbn. eapply same_decl_trans; [apply step_decl|apply IH].
Qed.

Lemma reached_step : forall s0 done s it s', reached s0 done s ->
  List.length (option_ s') = List.length (option_ s) -> default_option s' = default_option s -> option_order s' = option_order s ->
  original_args s' = original_args s -> unknown_args s' = unknown_args s ++ unknowns [it] ->
  (forall i o, nth_error (option_ s) i = Some o -> nth_error (option_ s') i = Some (step (default_option s0) i o it)) ->
  reached s0 (done ++ [it]) s'.
Proof.
  intros s0 done s it s' (L & D & O & A & U & N) L' D' O' A' U' N'. unfold reached.
  repeat (split; [congruence|]). split.
  - rewrite U', U, <- app_assoc. unfold unknowns. now rewrite flat_map_app.
  - intros i o H. destruct (N i o H) as (H1 & _). rewrite fold_left_app. cbn [fold_left]. split; [now apply N'|].
    change (step (default_option s0) i (fold_left (step (default_option s0) i) done o) it)
      with (fold_left (step (default_option s0) i) [it] (fold_left (step (default_option s0) i) done o)).
    rewrite <- fold_left_app. apply fold_decl.
Qed.

Lemma takes_same : forall s0 done s i, reached s0 done s -> takes_of s0 i = negb (is_empty (opt_arg (nth i (option_ s) empty_opt))).
Proof.
  intros s0 done s i (L & _ & _ & _ & _ & N). unfold takes_of. destruct (nth_error (option_ s0) i) as [o|] eqn:E.
  - destruct (N i o E) as (H & C & _). rewrite (nth_of _ _ _ E), (nth_of _ _ _ H), C. auto.
  - apply nth_error_None in E. rewrite !nth_overflow by lia. auto.
Qed.

Lemma nth_in : forall s i, i < List.length (option_ s) -> nth_error (option_ s) i = Some (nth i (option_ s) empty_opt).
Proof.
  intros s i H. destruct (nth_error (option_ s) i) eqn:E; [now rewrite (nth_of _ _ _ E)|]. apply nth_error_None in E. lia.
Qed.

Lemma known_range : forall s n i, known_of key s n = Some i -> i < List.length (option_ s).
Proof.
  intros s n i H. unfold known_of in H. destruct (key n); [|discriminate]. destruct (Nat.ltb n0 (List.length (option_ s))) eqn:E; [|discriminate].
  injection H as <-. now apply Nat.ltb_lt.
Qed.

Lemma modify_step : forall s i (f : opt -> opt) d it,
  (forall o, nth_error (option_ s) i = Some o -> step d i o it = f o) -> (forall j o, j <> i -> step d j o it = o) ->
  forall j o, nth_error (option_ s) j = Some o -> nth_error (option_ (modify i f s)) j = Some (step d j o it).
Proof.
  intros s i f d it H1 H2 j o H. cbn [option_ modify]. destruct (Nat.eq_dec j i) as [->|N].
  - rewrite (upd_same _ _ _ _ H). f_equal. symmetry. auto.
  - rewrite upd_other by auto. rewrite H2 by auto. auto.
Qed.

Lemma parse_loop_spec : forall s0, (forall d, default_option s0 = Some d -> d < List.length (option_ s0)) ->
  forall fuel args its done s failed,
  List.length args < fuel -> reads (known_of key s0) (takes_of s0) args its -> reached s0 done s ->
  (default_option s0 = None -> existsb is_pos its = false) ->
  exists s', parse_loop key fuel args s failed = Some (s', failed || existsb (incomplete (option_ s0)) its) /\ reached s0 (done ++ its) s'.
Proof.
  intros s0 DR. induction fuel as [|fuel IH]; intros args its done s failed L R I P; [lia|].
  destruct I as (IL & ID & IO & IA & IU & IN). assert (I : reached s0 done s) by (repeat split; auto; now apply IN).
  inversion R; subst; cbn [parse_loop].
  - exists s. cbn. rewrite orb_false_r, app_nil_r. auto.
  - unfold dashed. unfold plain in H. rewrite H. cbn [negb]. rewrite ID.
    destruct (default_option s0) as [d|] eqn:E; [|specialize (P eq_refl); discriminate].
    specialize (DR d eq_refl). assert (DS : nth_error (option_ s) d = Some (nth d (option_ s) empty_opt)) by (apply nth_in; lia).
    set (s1 := match arg_value (nth d (option_ s) empty_opt) with [] => _ | _ => s end).
    destruct (IH r its0 (done ++ [IPos a]) s1 failed) as (s' & PL & RE); auto.
    + simpl in L. lia.
    + apply reached_step with s; auto.
      * unfold s1. destruct (arg_value _); auto. cbn. now rewrite upd_length.
      * unfold s1. destruct (arg_value _); auto.
      * unfold s1. destruct (arg_value _); auto.
      * unfold s1. destruct (arg_value _); auto.
      * unfold s1. cbn. rewrite app_nil_r. destruct (arg_value _); auto.
      * rewrite E. unfold s1. destruct (arg_value (nth d (option_ s) empty_opt)) eqn:V.
        -- apply modify_step.
           ++ intros o Ho. rewrite DS in Ho. injection Ho as <-. cbn. rewrite Nat.eqb_refl, V. auto.
           ++ intros j o N. cbn. replace (Nat.eqb d j) with false; auto. symmetry. apply Nat.eqb_neq; auto.
        -- intros j o Ho. rewrite Ho. f_equal. cbn. destruct (Nat.eqb d j) eqn:Q; auto. apply Nat.eqb_eq in Q. subst j.
           rewrite DS in Ho. injection Ho as <-. now rewrite V.
    + intros HH. discriminate.
    + exists s'. rewrite <- app_assoc in RE. split; auto.
  - unfold dashed. rewrite dashed_dd. cbn [negb drop2]. rewrite (known_same s0 s) by auto. rewrite H.
    pose proof (known_range _ _ _ H) as KR. rewrite (takes_same _ _ _ _ I) in H0.
    assert (E : is_empty (opt_arg (nth i (option_ s) empty_opt)) = true) by (now apply negb_false_iff).
    rewrite parse_flag_spec by auto.
    assert (NS : nth_error (option_ s) i = Some (nth i (option_ s) empty_opt)) by (apply nth_in; lia).
    destruct (IH r its0 (done ++ [IOpt i []]) (modify i (fun _ => occurrence (nth i (option_ s) empty_opt) []) s) (failed || false)) as (s' & PL & RE); auto.
    + simpl in L. lia.
    + apply reached_step with s; auto.
      * cbn. now rewrite upd_length.
      * cbn. now rewrite app_nil_r.
      * apply modify_step.
        -- intros o Ho. rewrite NS in Ho. injection Ho as <-. cbn. now rewrite Nat.eqb_refl.
        -- intros j o N. cbn. replace (Nat.eqb i j) with false; auto. symmetry. apply Nat.eqb_neq; auto.
    + exists s'. rewrite <- app_assoc in RE. rewrite PL. split; auto. f_equal. f_equal. rewrite orb_false_r.
      cbn [existsb incomplete]. pose proof (takes_same _ _ _ i I) as T. unfold takes_of in T. rewrite T, H0. reflexivity.
  - unfold dashed. rewrite dashed_dd. cbn [negb drop2]. rewrite (known_same s0 s) by auto. rewrite H.
    pose proof (known_range _ _ _ H) as KR. pose proof H0 as H0'. rewrite (takes_same _ _ _ _ I) in H0.
    assert (E : is_empty (opt_arg (nth i (option_ s) empty_opt)) = false) by (now apply negb_true_iff).
    rewrite parse_option_spec by auto.
    assert (NS : nth_error (option_ s) i = Some (nth i (option_ s) empty_opt)) by (apply nth_in; lia).
    set (m := match vs with [] => _ | _ => false end).
    destruct (IH r its0 (done ++ [IOpt i vs]) (modify i (fun _ => occurrence (nth i (option_ s) empty_opt) vs) s) (failed || m)) as (s' & PL & RE); auto.
    + simpl in L. rewrite app_length in L. lia.
    + apply reached_step with s; auto.
      * cbn. now rewrite upd_length.
      * cbn. now rewrite app_nil_r.
      * apply modify_step.
        -- intros o Ho. rewrite NS in Ho. injection Ho as <-. cbn. now rewrite Nat.eqb_refl.
        -- intros j o N. cbn. replace (Nat.eqb i j) with false; auto. symmetry. apply Nat.eqb_neq; auto.
    + exists s'. rewrite <- app_assoc in RE. rewrite PL. split; auto. f_equal. f_equal. rewrite <- orb_assoc. f_equal.
      cbn [existsb]. f_equal. unfold m. destruct vs; auto. cbn [incomplete]. unfold takes_of in H0'. rewrite H0'. cbn [andb].
      destruct (nth_error (option_ s0) i) as [o|] eqn:Q; [|apply nth_error_None in Q; lia].
      destruct (IN i o Q) as (Q1 & _ & Q2 & _). rewrite (nth_of _ _ _ Q), (nth_of _ _ _ Q1), Q2. auto.
  - unfold dashed. rewrite dashed_dd. cbn [negb drop2]. rewrite (known_same s0 s) by auto. rewrite H, H0.
    destruct (IH (skipn k r) its0 (done ++ [IOsg]) s failed) as (s' & PL & RE); auto.
    + simpl in L. rewrite skipn_length. lia.
    + apply reached_step with s; auto. cbn. now rewrite app_nil_r.
    + exists s'. rewrite <- app_assoc in RE. split; auto.
  - unfold dashed. rewrite dashed_dd. cbn [negb drop2]. rewrite (known_same s0 s) by auto. rewrite H, H0.
    set (s1 := Options _ _ _ _ _).
    destruct (IH r its0 (done ++ [IUnknown (String "-" (String "-" a))]) s1 failed) as (s' & PL & RE); auto.
    + simpl in L. lia.
    + apply reached_step with s; auto.
    + exists s'. rewrite <- app_assoc in RE. split; auto.
Qed.

Lemma parse_spec : forall s prog args its, (forall d, default_option s = Some d -> d < List.length (option_ s)) ->
  reads (known_of key s) (takes_of s) args its -> (default_option s = None -> existsb is_pos its = false) ->
  exists s', ParseArgs key (prog :: args) s = Some (s', existsb (incomplete (option_ s)) its) /\
    List.length (option_ s') = List.length (option_ s) /\
    unknown_args s' = unknown_args s ++ unknowns its /\ original_args s' = original_args s ++ prog :: args /\
    default_option s' = default_option s /\ option_order s' = option_order s /\
    forall i o, nth_error (option_ s) i = Some o ->
      nth_error (option_ s') i = Some (apply_default (fold_left (step (default_option s) i) its o)).
Proof.
  intros s prog args its D R P. unfold ParseArgs.
  set (s0 := Options (option_ s) (option_order s) (original_args s ++ prog :: args) (unknown_args s) (default_option s)).
  destruct (parse_loop_spec s0 D (S (List.length args)) args its [] s0 false) as (s' & PL & RE); auto.
  { repeat split; auto. cbn. now rewrite app_nil_r. }
  rewrite PL. destruct RE as (L & DD & O & A & U & N). exists (ApplyDefaultValues s'). cbn [orb]. split; [auto|].
  cbn [option_ ApplyDefaultValues unknown_args original_args default_option option_order].
  split; [now rewrite map_length|]. split; [auto|]. split; [auto|]. split; [auto|]. split; [auto|].
  intros i o H. destruct (N i o H) as (H1 & _). now apply map_nth_error.
Qed.

Lemma parse_null : forall s prog args its, default_option s = None ->
  reads (known_of key s) (takes_of s) args its -> existsb is_pos its = true -> ParseArgs key (prog :: args) s = None.
Proof.
  intros s prog args its D R P. unfold ParseArgs.
  set (s0 := Options (option_ s) (option_order s) (original_args s ++ prog :: args) (unknown_args s) (default_option s)).
  assert (G : forall fuel args its done st failed, List.length args < fuel -> reads (known_of key s0) (takes_of s0) args its -> reached s0 done st ->
    existsb is_pos its = true -> parse_loop key fuel args st failed = None).
  { clear its R P. induction fuel as [|fuel IH]; intros args' its done st failed L R I P; [lia|].
    destruct I as (IL & ID & IO & IA & IU & IN). assert (I : reached s0 done st) by (repeat split; auto; now apply IN).
    inversion R; subst; cbn [parse_loop]; cbn [existsb is_pos orb] in P; [discriminate| | | | |].
    - unfold dashed. unfold plain in H. rewrite H. cbn [negb]. rewrite ID. cbn. now rewrite D.
    - unfold dashed. rewrite dashed_dd. cbn [negb drop2]. rewrite (known_same s0 st) by auto. rewrite H.
      pose proof (known_range _ _ _ H) as KR. rewrite (takes_same _ _ _ _ I) in H0.
      rewrite parse_flag_spec by (now apply negb_false_iff).
      assert (NS : nth_error (option_ st) i = Some (nth i (option_ st) empty_opt)) by (apply nth_in; lia).
      eapply IH with (its := its0) (done := done ++ [IOpt i []]); auto; [simpl in L; lia|].
      apply reached_step with st; auto.
      + cbn. now rewrite upd_length.
      + cbn. now rewrite app_nil_r.
      + apply modify_step.
        * intros o Ho. rewrite NS in Ho. injection Ho as <-. cbn. now rewrite Nat.eqb_refl.
        * intros j o N. cbn. replace (Nat.eqb i j) with false; auto. symmetry. apply Nat.eqb_neq; auto.
    - unfold dashed. rewrite dashed_dd. cbn [negb drop2]. rewrite (known_same s0 st) by auto. rewrite H.
      pose proof (known_range _ _ _ H) as KR. rewrite (takes_same _ _ _ _ I) in H0.
      rewrite parse_option_spec by (auto; now apply negb_true_iff).
      assert (NS : nth_error (option_ st) i = Some (nth i (option_ st) empty_opt)) by (apply nth_in; lia).
      eapply IH with (its := its0) (done := done ++ [IOpt i vs]); auto; [simpl in L; rewrite app_length in L; lia|].
      apply reached_step with st; auto.
      + cbn. now rewrite upd_length.
      + cbn. now rewrite app_nil_r.
      + apply modify_step.
        * intros o Ho. rewrite NS in Ho. injection Ho as <-. cbn. now rewrite Nat.eqb_refl.
        * intros j o N. cbn. replace (Nat.eqb i j) with false; auto. symmetry. apply Nat.eqb_neq; auto.
    - unfold dashed. rewrite dashed_dd. cbn [negb drop2]. rewrite (known_same s0 st) by auto. rewrite H, H0.
      eapply IH with (its := its0) (done := done ++ [IOsg]); auto; [simpl in L; rewrite skipn_length; lia|].
      apply reached_step with st; auto. cbn. now rewrite app_nil_r.
    - unfold dashed. rewrite dashed_dd. cbn [negb drop2]. rewrite (known_same s0 st) by auto. rewrite H, H0.
      eapply IH with (its := its0) (done := done ++ [IUnknown (String "-" (String "-" a))]); auto; [simpl in L; lia|].
      apply reached_step with st; auto. }
  rewrite (G (S (List.length args)) args its [] s0 false); auto. repeat split; auto. cbn. now rewrite app_nil_r.
Qed.

End Parse.

(** ** Closed forms *)

Definition values_of (i : nat) (its : list item) : list (list string) :=
  flat_map (fun it => match it with IOpt j vs => if Nat.eqb j i then [vs] else [] | _ => [] end) its.

Lemma fold_not_default : forall d i its o, d <> Some i ->
  fold_left (step d i) its o = fold_left occurrence (values_of i its) o.
Proof.
  intros d i its. induction its as [|it its IH]; intros o N; [auto|]. cbn [fold_left].
  rewrite IH by auto. unfold values_of. cbn [flat_map]. rewrite fold_left_app. f_equal.
  destruct it; cbn; auto.
  - destruct d; auto. destruct (Nat.eqb n i) eqn:E; auto. apply Nat.eqb_eq in E. congruence.
  - destruct (Nat.eqb i0 i); auto.
Qed.

Lemma fold_flag : forall vss o, is_empty (opt_arg o) = true ->
  fold_left occurrence vss o = match vss with [] => o | _ => with_set true o end.
Proof.
  induction vss as [|vs vss IH]; intros o E; [auto|]. cbn [fold_left].
  assert (Q : occurrence o vs = with_set true o) by (unfold occurrence; now rewrite E). rewrite Q, IH by auto. destruct vss; auto.
Qed.

Lemma with_values_same : forall o, with_values (arg_value o) o = o.
Proof. destruct o; reflexivity. Qed.
Lemma with_set_same : forall o, with_set (is_set o) o = o.
Proof. destruct o; reflexivity. Qed.

Lemma fold_single : forall vss o, is_empty (opt_arg o) = false -> single o = true -> Forall (fun vs => vs <> []) vss ->
  fold_left occurrence vss o =
    match List.concat vss with [] => o | v :: _ => with_set true (with_values [last (List.concat vss) v] o) end.
Proof.
  induction vss as [|vs vss IH] using rev_ind; intros o E S F; [auto|].
  rewrite fold_left_app. cbn [fold_left]. apply Forall_app in F. destruct F as (F & Fv). inversion Fv; subst. rewrite IH by auto.
  rewrite concat_app. cbn [List.concat]. rewrite app_nil_r.
  assert (G : forall o', opt_arg o' = opt_arg o -> single o' = single o -> exists v, occurrence o' vs = with_set true (with_values [last vs v] o')).
  { intros o' A B. unfold occurrence. rewrite A, E. destruct vs as [|v vs]; [congruence|]. exists v. now rewrite B, S. }
  assert (LA : forall (l : list string) d d', l <> [] -> last l d = last l d').
  { induction l as [|x l IHl]; intros d d' N; [congruence|]. destruct l; [auto|]. cbn in *. apply IHl. discriminate. }
  assert (LL : forall (l : list string) d, last (l ++ vs) d = last vs d).
  { induction l as [|x l IHl]; intros d; [auto|]. cbn [app last]. rewrite IHl. destruct (l ++ vs) eqn:Q; [|auto].
    apply app_eq_nil in Q. destruct Q. congruence. }
  destruct (List.concat vss) as [|w ws] eqn:C.
  - destruct (G o) as (v & ->); auto. cbn [app]. destruct vs as [|v' vs']; [congruence|]. now rewrite (LA (v' :: vs') v v').
  - destruct (G (with_set true (with_values [last (w :: ws) w] o))) as (v & ->); auto. cbn [app].
    change (w :: ws ++ vs) with ((w :: ws) ++ vs). rewrite LL. rewrite (LA vs v w) by auto. destruct o; reflexivity.
Qed.

Lemma fold_multi : forall vss o, is_empty (opt_arg o) = false -> single o = false -> Forall (fun vs => vs <> []) vss ->
  fold_left occurrence vss o =
    match vss with [] => o | _ => with_set true (with_values (rev (List.concat vss) ++ arg_value o) o) end.
Proof.
  induction vss as [|vs vss IH]; intros o E S F; [auto|]. cbn [fold_left]. inversion F; subst.
  assert (G : occurrence o vs = with_set true (with_values (rev vs ++ arg_value o) o)).
  { unfold occurrence. rewrite E. destruct vs; [congruence|]. now rewrite S. }
  rewrite G, IH by auto. destruct vss as [|w ws]; [cbn; now rewrite app_nil_r|].
  change (List.concat (vs :: w :: ws)) with (vs ++ List.concat (w :: ws)). rewrite (rev_app_distr vs), <- app_assoc. reflexivity.
Qed.

(** ** Setters and getters *)

Section Access.
Variable key : string -> option nat.

Definition option_of (s : options) (name : string) : option opt :=
  match key name with Some i => nth_error (option_ s) i | None => None end.

Lemma get_iff : forall s n i, GetOption key s n = Some i <-> key n = Some i /\ exists o, nth_error (option_ s) i = Some o.
Proof.
  intros s n i. unfold GetOption. destruct (key n) as [j|]; [|split; [discriminate|intros (? & _); discriminate]].
  destruct (Nat.ltb j (List.length (option_ s))) eqn:E.
  - apply Nat.ltb_lt in E. split.
    + intros H. injection H as <-. split; auto. destruct (nth_error (option_ s) j) eqn:Q; eauto. apply nth_error_None in Q. lia.
    + intros (H & _). congruence.
  - apply Nat.ltb_ge in E. split; [discriminate|]. intros (H & o & Q). injection H as <-. apply nth_error_None in E. congruence.
Qed.

Lemma option_of_get : forall s n o, option_of s n = Some o -> exists i, GetOption key s n = Some i /\ key n = Some i /\ nth_error (option_ s) i = Some o /\ nth i (option_ s) empty_opt = o.
Proof.
  intros s n o H. unfold option_of in H. destruct (key n) as [i|] eqn:K; [|discriminate]. exists i. split.
  - apply get_iff. eauto.
  - repeat split; auto. now apply nth_of.
Qed.

Lemma getters : forall s n o, option_of s n = Some o ->
  GetOptionSet key n s = is_set o /\ GetOptionValues key n s = arg_value o /\ forall k, GetOptionValue key n k s = GetValue o k.
Proof.
  intros s n o H. destruct (option_of_get s n o H) as (i & G & _ & _ & N). unfold GetOptionSet, GetOptionValues, GetOptionValue.
  rewrite G, N. auto.
Qed.

Lemma modify_of : forall s n i f o, key n = Some i -> nth_error (option_ s) i = Some o -> option_of (modify i f s) n = Some (f o).
Proof. intros. unfold option_of. rewrite H. cbn. now apply upd_same. Qed.

Lemma modify_frame : forall s n i f, key n <> Some i -> option_of (modify i f s) n = option_of s n.
Proof. intros s n i f H. unfold option_of. destruct (key n) as [j|]; auto. cbn. apply upd_other. congruence. Qed.

Lemma set_spec : forall s n v add p o, option_of s n = Some o -> opt_str o <> EmptyString -> v <> EmptyString -> opt_arg o <> EmptyString ->
  exists s', SetOptionValue key n v add p s = Some s' /\
    option_of s' n = Some (with_set true (with_persistent p (with_values (v :: if add then arg_value o else []) o))) /\
    forall m, key m <> key n -> option_of s' m = option_of s m.
Proof.
  intros s n v add p o H SP V A. destruct (option_of_get s n o H) as (i & G & K & E & N). unfold SetOptionValue. rewrite G, N.
  unfold IsSpecified. replace (is_empty (opt_str o)) with false by (destruct (opt_str o); auto; congruence). cbn [negb].
  replace (is_empty v) with false by (destruct v; auto; congruence). rewrite N.
  replace (is_empty (opt_arg o)) with false by (destruct (opt_arg o); auto; congruence).
  eexists. split; [reflexivity|]. split; [rewrite (modify_of s n i _ o) by auto; reflexivity|].
  intros m M. apply modify_frame. congruence.
Qed.

Lemma set_flag_spec : forall s n add p o, option_of s n = Some o -> opt_str o <> EmptyString ->
  exists s', SetOptionValue key n EmptyString add p s = Some s' /\
    option_of s' n = Some (with_set true (with_persistent p o)) /\
    forall m, key m <> key n -> option_of s' m = option_of s m.
Proof.
  intros s n add p o H SP. destruct (option_of_get s n o H) as (i & G & K & E & N). unfold SetOptionValue. rewrite G, N.
  unfold IsSpecified. replace (is_empty (opt_str o)) with false by (destruct (opt_str o); auto; congruence). cbn [negb is_empty].
  eexists. split; [reflexivity|]. split; [rewrite (modify_of s n i _ o) by auto; reflexivity|].
  intros m M. apply modify_frame. congruence.
Qed.

(** An option set through the interface before the application declared it. *)
Lemma set_early_spec : forall s n v add p o, option_of s n = Some o -> opt_str o = EmptyString -> n <> EmptyString -> v <> EmptyString ->
  exists s', SetOptionValue key n v add p s = Some s' /\
    (forall m, key m <> key n -> option_of s' m = option_of s m) /\
    forall arg default auto sgl dflt, exists s'' o', AddOption key n arg default auto sgl dflt s' = Some s'' /\
      option_of s'' n = Some o' /\ is_set o' = true /\ persistent o' = p /\ arg_value o' = v :: (if add then arg_value o else []) /\
      opt_arg o' = arg /\ default_value o' = default /\ auto_apply o' = auto /\ single o' = sgl.
Proof.
  intros s n v add p o H SP NE V. destruct (option_of_get s n o H) as (i & G & K & E & N). unfold SetOptionValue. rewrite G, N.
  unfold IsSpecified. rewrite SP. cbn [is_empty negb]. 
  replace (is_empty v) with false by (destruct v; auto; congruence).
  set (s1 := match AddOption key n v EmptyString false true false s with Some s' => s' | None => s end).
  assert (E1 : nth_error (option_ s1) i = Some (Opt n v (is_set o) (arg_value o) EmptyString (persistent o) false true false)).
  { unfold s1, AddOption. rewrite G. cbn. now rewrite (upd_same _ _ _ _ E). }
  rewrite (nth_of _ _ _ E1). cbn [opt_arg]. replace (is_empty v) with false by (destruct v; auto; congruence). cbn [arg_value].
  eexists. split; [reflexivity|]. split.
  - intros m M. rewrite modify_frame by congruence. unfold s1, AddOption. rewrite G. unfold option_of. destruct (key m) as [j|] eqn:KM; auto. cbn. apply upd_other. congruence.
  - intros. unfold AddOption.
    match goal with |- context [GetOption key ?st n] => set (s2 := st) end.
    assert (E2 : nth_error (option_ s2) i = Some (with_set true (with_persistent p (with_values (v :: (if add then arg_value o else []))
       (Opt n v (is_set o) (arg_value o) EmptyString (persistent o) false true false))))).
    { unfold s2. cbn [option_ modify]. now rewrite (upd_same _ _ _ _ E1). }
    assert (G2 : GetOption key s2 n = Some i) by (apply get_iff; eauto). rewrite G2.
    eexists. eexists. split; [reflexivity|]. unfold option_of. rewrite K. cbn [option_ modify]. rewrite (upd_same _ _ _ _ E2).
    split; [reflexivity|]. repeat split.
Qed.

Lemma unset_spec : forall s n o, option_of s n = Some o ->
  option_of (UnsetOption key n s) n = Some (with_values [] (with_persistent false (with_set false o))) /\
  forall m, key m <> key n -> option_of (UnsetOption key n s) m = option_of s m.
Proof.
  intros s n o H. destruct (option_of_get s n o H) as (i & G & K & E & N). unfold UnsetOption. rewrite G. split.
  - now rewrite (modify_of s n i _ o).
  - intros m M. apply modify_frame. congruence.
Qed.

Lemma clear_spec : forall s n o, option_of s n = Some o ->
  option_of (ClearOption key n s) n = Some (with_values [] o) /\
  forall m, key m <> key n -> option_of (ClearOption key n s) m = option_of s m.
Proof.
  intros s n o H. destruct (option_of_get s n o H) as (i & G & K & E & N). unfold ClearOption. rewrite G. split.
  - now rewrite (modify_of s n i _ o).
  - intros m M. apply modify_frame. congruence.
Qed.

Lemma set_nth_spec : forall l k v j, k < List.length l -> nth_error (set_nth k v l) j = if Nat.eqb j k then Some v else nth_error l j.
Proof.
  induction l as [|x l IH]; intros k v j L; simpl in L; [lia|]. destruct k, j; simpl; auto. apply IH. lia.
Qed.

Lemma change_spec : forall s n v k o, option_of s n = Some o ->
  match ChangeOptionArg key n v k s with
  | Some s' => (0 <= k < Z.of_nat (List.length (arg_value o)))%Z /\
      (exists vs, option_of s' n = Some (with_values vs o) /\
         forall j, nth_error vs j = if Z.eqb (Z.of_nat j) k then Some v else nth_error (arg_value o) j) /\
      forall m, key m <> key n -> option_of s' m = option_of s m
  | None => ~ (0 <= k < Z.of_nat (List.length (arg_value o)))%Z
  end.
Proof.
  intros s n v k o H. destruct (option_of_get s n o H) as (i & G & K & E & N). unfold ChangeOptionArg. rewrite G, N.
  destruct (Z.ltb k 0) eqn:E1; [apply Z.ltb_lt in E1; cbn; lia|]. apply Z.ltb_ge in E1. cbn [orb].
  destruct (Z.leb (Z.of_nat (List.length (arg_value o))) k) eqn:E2; [apply Z.leb_le in E2; lia|]. apply Z.leb_gt in E2.
  split; [lia|]. split.
  - eexists. split; [rewrite (modify_of s n i _ o) by auto; reflexivity|]. intros j. rewrite set_nth_spec by lia.
    destruct (Nat.eqb j (Z.to_nat k)) eqn:Q.
    + apply Nat.eqb_eq in Q. subst. rewrite Z2Nat.id by lia. now rewrite Z.eqb_refl.
    + apply Nat.eqb_neq in Q. replace (Z.eqb (Z.of_nat j) k) with false; auto. symmetry. apply Z.eqb_neq. lia.
  - intros m M. apply modify_frame. congruence.
Qed.

Lemma reset_spec : forall s n o, option_of s n = Some o ->
  option_of (Reset s) n = Some (if persistent o then o else with_values [] (with_set false o)).
Proof. intros s n o H. unfold option_of in *. destruct (key n); [|discriminate]. cbn. now apply map_nth_error with (f := reset_opt) in H. Qed.

End Access.

(** ** Writing a command line *)

Definition write (st : string * list string) : list string := String "-" (String "-" (fst st)) :: snd st.

Lemma write_reads : forall known takes sts places,
  Forall2 (fun st i => known (fst st) = Some i /\ Forall plain (snd st) /\ (takes i = false -> snd st = [])) sts places ->
  reads known takes (flat_map write sts) (map (fun p => IOpt (snd p) (snd (fst p))) (combine sts places)).
Proof.
  intros known takes sts places H. induction H as [|(n & vs) i sts places (K & P & T) F IH]; [constructor|].
  cbn [flat_map combine map fst snd]. unfold write at 1. cbn [fst snd] in *. cbn [app]. destruct (takes i) eqn:E.
  - apply r_arg; auto. intros v r' Q. destruct sts as [|(n' & vs') sts]; [discriminate|]. cbn in Q. injection Q as <- _.
    intros Z. eapply not_plain_dd; eauto.
  - rewrite T by auto. now apply r_flag.
Qed.
