(** Storyboard: notification log (C01), execution counts (C03), priorities (C04), domains (C05), termination. *)
From Coq Require Import List ZArith Lia Bool Arith NArith.
From Verif Require Import SBModel SBProofs.
Import ListNotations.
Local Open Scope nat_scope.

(* ------------------------------------------------------------------ *)
(** * Specification of action conflicts *)

(** The lamps a light state action drives (SE/../OSCTypeDefs/OSCPrivateAction.cpp:3553-3590 SetVehicleLights). *)
Definition lamps (t : nat) : list nat :=
  if Nat.eqb t 3 then [3; 4; 5] else if Nat.eqb t 7 then [7; 8; 9] else [t].
(** Two actions compete for something: a common control domain, and in the light domain a common lamp. *)
Definition clash (T : tree) (a b : nat) : Prop :=
  exists d, N.testbit (a_dom T a) d = true /\ N.testbit (a_dom T b) d = true /\
    (d = 2%N -> exists ta tb l, a_light T a = Some ta /\ a_light T b = Some tb /\ In l (lamps ta) /\ In l (lamps tb)).
(** Only light state actions are in the light domain, and in no other (SE/../OSCTypeDefs/OSCPrivateAction.hpp:1466-1470). *)
Definition lights_ok (T : tree) : Prop :=
  forall b, N.testbit (a_dom T b) 2 = true -> a_dom T b = 4%N.

(** No two running registered private actions of one object compete. *)
Definition exclusive (T : tree) (w : world) : Prop :=
  forall o a b, a <> b -> a_private T a = true -> a_private T b = true -> a_obj T a = Some o -> a_obj T b = Some o ->
    registered T o a -> registered T o b -> st w a = RUNNING -> st w b = RUNNING -> ~ clash T a b.

Lemma clash_sym T a b : clash T a b -> clash T b a.
Proof.
  intros (d & A & B & C). exists d. split; [exact B|]. split; [exact A|].
  intros E. destruct (C E) as (ta & tb & l & ? & ? & ? & ?). exists tb, ta, l. auto.
Qed.

Lemma lamps_check ta tb l : In l (lamps ta) -> In l (lamps tb) -> check_conflicting_lights ta tb = true.
Proof.
  unfold lamps, check_conflicting_lights, FOG_LIGHTS, FOG_LIGHTS_FRONT, FOG_LIGHTS_REAR, WARNING_LIGHTS, INDICATOR_LEFT, INDICATOR_RIGHT.
  destruct (Nat.eqb_spec ta 3) as [->|N1]; [|destruct (Nat.eqb_spec ta 7) as [->|N2]];
    (destruct (Nat.eqb_spec tb 3) as [->|M1]; [|destruct (Nat.eqb_spec tb 7) as [->|M2]]); cbn [In]; intros H1 H2;
    intuition; subst; try reflexivity; try congruence; try discriminate.
  rewrite Nat.eqb_refl. reflexivity.
Qed.

Lemma clash_must_end T a b : lights_ok T -> clash T a b -> must_end T a b = true.
Proof.
  intros L (d & A & B & C). unfold must_end.
  assert (O : N.land (a_dom T b) (a_dom T a) <> 0%N).
  { intros E. assert (K : N.testbit (N.land (a_dom T b) (a_dom T a)) d = true) by (rewrite N.land_spec, A, B; reflexivity).
    rewrite E in K. rewrite N.bits_0 in K. discriminate. }
  apply N.eqb_neq in O. rewrite O. simpl.
  destruct (N.eqb_spec (N.land (a_dom T b) DOMAIN_MASK_LIGHT) 0) as [E|N]; simpl; [reflexivity|].
  assert (B2 : N.testbit (a_dom T b) 2 = true).
  { destruct (N.testbit (a_dom T b) 2) eqn:E2; [reflexivity|]. exfalso. apply N.
    apply N.bits_inj. intros k. rewrite N.land_spec, N.bits_0. unfold DOMAIN_MASK_LIGHT.
    destruct (N.eq_dec k 2) as [->|Nk]; [now rewrite E2|].
    replace 4%N with (2 ^ 2)%N by reflexivity. rewrite N.pow2_bits_false by congruence. apply andb_false_r. }
  assert (D : d = 2%N).
  { rewrite (L b B2) in B. replace 4%N with (2 ^ 2)%N in B by reflexivity.
    destruct (N.eq_dec d 2) as [->|Nd]; [reflexivity|]. rewrite N.pow2_bits_false in B by congruence. discriminate. }
  destruct (C D) as (ta & tb & l & E1 & E2 & I1 & I2). unfold light_conf. rewrite E1, E2. eapply lamps_check; eauto.
Qed.

(* ------------------------------------------------------------------ *)
(** * The log *)

Lemma starts_nonneg x l : (0 <= starts x l)%Z.
Proof. induction l as [|[y [] []|y s] r IH]; simpl; try lia. destruct (Nat.eqb y x); lia. Qed.
Lemma starts_since_le x l : (starts_since x l <= starts x l)%Z.
Proof.
  induction l as [|[y [] []|y s] r IH]; simpl; try lia.
  destruct (Nat.eqb y x); [|lia]. apply starts_nonneg.
Qed.

Section Tree.
Variable T : tree.
Hypothesis W : wf T.

Record LogOK (w : world) : Prop := mkLogOK {
  lo_trace : forall x, trace T x (log w) (st w x);
  lo_count : forall x, nexec w x = starts x (log w);
  lo_ends : ends_ok T (log w);
  lo_rearm : rearms_ok T (log w);
  lo_since : forall x, is_rep T x -> (0 < maxe T x)%Z ->
      (starts_since x (log w) <= maxe T x)%Z /\
      (st w x = INIT \/ st w x = STANDBY -> (starts_since x (log w) < maxe T x)%Z)
}.

Lemma ends_cons l e : ends_ok T l ->
  (forall x s, e = Note x END_TRANSITION s -> is_rep T x -> (s = COMPLETE <-> maxe T x <> (-1)%Z /\ (maxe T x <= starts x l)%Z)) ->
  ends_ok T (e :: l).
Proof.
  intros H He l1 l2 x s E R. destruct l1 as [|e1 l1]; simpl in E; injection E as E1 E2.
  - subst. apply He; auto.
  - subst. eapply H; eauto.
Qed.
Lemma ends_rearms rs l : (forall e, In e rs -> exists y, e = Rearm y INIT) -> ends_ok T l -> ends_ok T (rs ++ l).
Proof.
  induction rs as [|e r IH]; intros Hr H; simpl; [exact H|].
  apply ends_cons; [apply IH; [intros; apply Hr; now right|exact H]|].
  intros x s E. destruct (Hr e (or_introl eq_refl)) as [y Ey]. congruence.
Qed.
Lemma starts_rearms x rs l : (forall e, In e rs -> exists y, e = Rearm y INIT) -> starts x (rs ++ l) = starts x l.
Proof.
  induction rs as [|e r IH]; intros Hr; simpl; [reflexivity|].
  destruct (Hr e (or_introl eq_refl)) as [y ->]. apply IH. intros; apply Hr; now right.
Qed.
Lemma since_rearms x rs l : (forall e, In e rs -> exists y, e = Rearm y INIT) ->
  (In (Rearm x INIT) rs /\ starts_since x (rs ++ l) = 0%Z) \/
  (~ In (Rearm x INIT) rs /\ starts_since x (rs ++ l) = starts_since x l).
Proof.
  induction rs as [|e r IH]; intros Hr; simpl; [auto|].
  destruct (Hr e (or_introl eq_refl)) as [y ->].
  destruct (Nat.eqb_spec y x) as [->|N]; [left; auto|].
  destruct IH as [[A B]|[A B]]; [intros; apply Hr; now right|left; auto|right].
  split; [intros [C|C]; [congruence|contradiction]|exact B].
Qed.
Lemma trace_rearms x rs l a : (forall e, In e rs -> exists y, e = Rearm y INIT) -> trace T x l a ->
  (In (Rearm x INIT) rs /\ trace T x (rs ++ l) INIT) \/ (~ In (Rearm x INIT) rs /\ trace T x (rs ++ l) a).
Proof.
  intros Hr H. induction rs as [|e r IH]; simpl; [auto|].
  destruct (Hr e (or_introl eq_refl)) as [y ->].
  assert (IH' := IH (fun e h => Hr e (or_intror h))).
  destruct (Nat.eq_dec y x) as [->|N].
  - left. split; [auto|]. destruct IH' as [[_ K]|[_ K]]; eapply t_rearm; eauto.
  - destruct IH' as [[A K]|[A K]]; [left|right].
    + split; [auto|]. now apply t_other_rearm.
    + split; [intros [C|C]; [congruence|contradiction]|]. now apply t_other_rearm.
Qed.

Lemma estep_log G w w' : LogOK w -> estep T G w w' -> LogOK w'.
Proof.
  intros [L1 L2 L3 L4 L5] [x tr A Gx Tr Lim|f x w1 R A Gx Lim H].
  - destruct (complete_st w x tr (active_nc _ A)) as (B1 & B2 & B3). constructor.
    + intros y. rewrite B1, B3. destruct (Nat.eqb_spec y x) as [->|N].
      * eapply t_note; [apply L1|]. destruct A as [-> | ->], Tr as [-> | ->]; constructor.
      * apply t_other_note; [congruence|apply L1].
    + intros y. rewrite B2, B3, L2. destruct Tr as [-> | ->]; reflexivity.
    + rewrite B3. apply ends_cons; [exact L3|]. intros y s E R. injection E as <- E <-. subst tr.
      specialize (Lim eq_refl R). unfold limit_hit in Lim. rewrite L2 in Lim. tauto.
    + rewrite B3. intros y s [C|C]; [discriminate|]. apply (L4 _ _ C).
    + intros y Ry My. rewrite B1, B3. destruct (L5 y Ry My) as [K1 K2].
      destruct Tr as [-> | ->]; simpl; (split; [exact K1|]); destruct (Nat.eqb_spec y x); auto; intros []; discriminate.
  - destruct (rearm_st T W f w x w1 H A) as (B1 & B2 & B3 & B4 & B5 & rs & B6 & B7 & B8).
    assert (Hr : forall e, In e rs -> exists y, e = Rearm y INIT) by (intros e He; destruct (B7 e He) as (y & -> & _); eauto).
    set (nt := if state_eqb (st w x) STANDBY then [] else [Note x END_TRANSITION STANDBY]) in *.
    assert (Tn : forall y, trace T y (nt ++ log w) (if Nat.eqb y x then STANDBY else st w y)).
    { intros y. unfold nt. destruct (state_eqb_spec (st w x) STANDBY) as [E|N]; simpl.
      - destruct (Nat.eqb_spec y x) as [->|]; [rewrite <- E|]; apply L1.
      - destruct (Nat.eqb_spec y x) as [->|]; [|apply t_other_note; [congruence|apply L1]].
        destruct A as [A|A]; [congruence|]. eapply t_note; [apply L1|]. rewrite A. now constructor. }
    assert (Sn : forall y, starts y (nt ++ log w) = starts y (log w)).
    { intros y. unfold nt. destruct (state_eqb (st w x) STANDBY); reflexivity. }
    assert (Sn' : forall y, starts_since y (nt ++ log w) = starts_since y (log w)).
    { intros y. unfold nt. destruct (state_eqb (st w x) STANDBY); reflexivity. }
    constructor.
    + intros y. rewrite B6. destruct (trace_rearms y rs _ _ Hr (Tn y)) as [[C D]|[C D]];
        destruct (B8 y) as [[E F]|[E F]]; try contradiction; rewrite F; exact D.
    + intros y. rewrite B5, B6, L2, starts_rearms, Sn; auto.
    + rewrite B6. apply ends_rearms; [exact Hr|]. unfold nt.
      destruct (state_eqb (st w x) STANDBY); simpl; [exact L3|]. apply ends_cons; [exact L3|].
      intros y s E _. injection E as <- <-. split; [discriminate|]. intros C. exfalso. apply Lim.
      unfold limit_hit. rewrite L2. exact C.
    + rewrite B6. intros y s Hy. apply in_app_or in Hy as [Hy|Hy].
      * destruct (B7 _ Hy) as (z & Ez & Az). injection Ez as <- ->. split; [reflexivity|]. exists x. auto.
      * apply in_app_or in Hy as [Hy|Hy]; [|apply (L4 _ _ Hy)].
        unfold nt in Hy. destruct (state_eqb (st w x) STANDBY); [destruct Hy|]. destruct Hy as [Hy|[]]. discriminate.
    + intros y Ry My. rewrite B6. destruct (L5 y Ry My) as [K1 K2].
      destruct (since_rearms y rs (nt ++ log w) Hr) as [[C D]|[C D]]; rewrite D.
      * split; lia.
      * rewrite Sn'. split; [exact K1|]. destruct (B8 y) as [[E F]|[E F]]; [contradiction|]. rewrite F.
        destruct (Nat.eqb_spec y x) as [->|]; [|exact K2]. intros _.
        assert (Q := starts_since_le x (log w)). rewrite <- L2 in Q.
        unfold limit_hit in Lim. lia.
Qed.

Lemma begin_log w x : LogOK w -> st w x = INIT \/ st w x = STANDBY -> LogOK (start_self T w x).
Proof.
  intros [L1 L2 L3 L4 L5] S. destruct (start_self_st T w x S) as [(E & Hs & B1 & B2 & B3)|(E & B1 & B2 & B3)]; constructor.
  - intros y. rewrite B1, B3. destruct (Nat.eqb_spec y x) as [->|N].
    + eapply t_note; [apply L1|]. rewrite E. constructor.
    + apply t_other_note; [congruence|apply L1].
  - intros y. rewrite B2, B3, L2. reflexivity.
  - rewrite B3. apply ends_cons; [exact L3|]. intros; discriminate.
  - rewrite B3. intros y s [C|C]; [discriminate|]. apply (L4 _ _ C).
  - intros y Ry My. rewrite B1, B3. destruct (L5 y Ry My) as [K1 K2]. simpl. split; [exact K1|].
    destruct (Nat.eqb_spec y x) as [->|]; [|exact K2]. intros _. apply K2. now left.
  - intros y. rewrite B1, B3. destruct (Nat.eqb_spec y x) as [->|N].
    + eapply t_note; [apply L1|]. destruct E as [[-> _]| ->]; constructor.
    + apply t_other_note; [congruence|apply L1].
  - intros y. rewrite B2, B3. simpl. destruct (Nat.eqb_spec y x) as [->|N].
    + rewrite Nat.eqb_refl, L2. lia.
    + destruct (Nat.eqb_spec x y); [congruence|]. rewrite L2. lia.
  - rewrite B3. apply ends_cons; [exact L3|]. intros; discriminate.
  - rewrite B3. intros y s [C|C]; [discriminate|]. apply (L4 _ _ C).
  - intros y Ry My. rewrite B1, B3. destruct (L5 y Ry My) as [K1 K2]. simpl.
    destruct (Nat.eqb_spec y x) as [->|N].
    + rewrite Nat.eqb_refl. split; [|intros []; discriminate]. specialize (K2 S). lia.
    + destruct (Nat.eqb_spec x y); [congruence|]. split; [lia|]. intros K. specialize (K2 K). lia.
Qed.

Lemma mstar_log g U w w' : star (mstep T g U) w w' -> LogOK w -> LogOK w'.
Proof. apply star_pres. intros a b L [v H|x Ux S P C]; [eapply estep_log; eauto|apply begin_log; auto]. Qed.

Lemma log_world0 : LogOK world0.
Proof.
  constructor; simpl.
  - intros; constructor.
  - reflexivity.
  - intros [|e l1] l2 x s E; discriminate.
  - intros x s [].
  - intros; split; lia.
Qed.

Lemma run_log f r E0 Es w : ty T r = STORY_BOARD -> run f T r E0 Es = Some w -> Inv T w /\ LogOK w.
Proof.
  intros Tr H. destruct (run_guarded T W f r E0 Es w Tr H) as (w0 & S0 & S1). split.
  - eapply mstar_inv; [exact W|exact S1|]. eapply mstar_inv; [exact W|exact S0|]. apply inv_world0.
  - eapply mstar_log; [exact S1|]. eapply mstar_log; [exact S0|]. apply log_world0.
Qed.

(* ------------------------------------------------------------------ *)
(** * C05 *)

Lemma mstep_running g U w w' y : mstep T g U w w' -> st w' y = RUNNING -> st w y = RUNNING \/ U y.
Proof.
  intros [v H|x Ux S P C] R.
  - left. eapply estep_running; eauto.
  - destruct (start_self_st T w x S) as [(E & Hs & B1 & _)|(E & B1 & _)]; rewrite B1 in R;
      destruct (Nat.eqb_spec y x) as [->|]; auto.
Qed.
Lemma mstar_running g U w w' y : star (mstep T g U) w w' -> st w' y = RUNNING -> st w y = RUNNING \/ U y.
Proof.
  induction 1 as [|a b c H1 H2 IH]; auto. intros R. destruct (IH R) as [R'|]; auto. eapply mstep_running; eauto.
Qed.

Lemma registered_action o b : registered T o b -> ty T b = ACTION.
Proof.
  intros [H|(e & He & Hb)]; [eapply (wf_init_actions T W); eauto|].
  eapply (wf_event_kids T W); [eapply (wf_obj_events T W); eauto|exact Hb].
Qed.

(** exclusive for the actions in K *)
Definition excl_for (K : nat -> Prop) (w : world) : Prop :=
  forall o a b, K a -> a <> b -> a_private T a = true -> a_private T b = true -> a_obj T a = Some o -> a_obj T b = Some o ->
    registered T o a -> registered T o b -> st w a = RUNNING -> st w b = RUNNING -> ~ clash T a b.

Lemma excl_mstep (K g U : nat -> Prop) w w' : lights_ok T -> (forall x, U x -> ty T x = ACTION -> par T x <> None) ->
  (forall a, K a \/ ~ K a) ->
  mstep T g U w w' -> excl_for K w -> excl_for K w'.
Proof.
  intros L HU DK [v H|x Ux S P C] X o a b Ka N Pa Pb Oa Ob Ra Rb Sa Sb Cl.
  - eapply (X o a b); eauto using estep_running.
  - assert (Old : forall y, y <> x -> st (start_self T w x) y = RUNNING -> st w y = RUNNING).
    { intros y Ny Ry. apply Nat.eqb_neq in Ny.
      destruct (start_self_st T w x S) as [(E & Hs & B1 & _)|(E & B1 & _)]; rewrite B1, Ny in Ry; exact Ry. }
    destruct (Nat.eq_dec a x) as [->|Na].
    + assert (Tx := registered_action _ _ Ra). destruct (C Tx) as [C0|NC]; [exact (HU _ Ux Tx C0)|].
      assert (M := NC o b Pa Pb Oa Ob Rb ltac:(congruence) (Old b ltac:(congruence) Sb)).
      rewrite (clash_must_end T x b L Cl) in M. discriminate.
    + destruct (Nat.eq_dec b x) as [->|Nb].
      * assert (Tx := registered_action _ _ Rb). destruct (C Tx) as [C0|NC]; [exact (HU _ Ux Tx C0)|].
        assert (M := NC o a Pb Pa Ob Oa Ra Na (Old a Na Sa)).
        rewrite (clash_must_end T x a L (clash_sym _ _ _ Cl)) in M. discriminate.
      * eapply (X o a b); eauto.
Qed.

Lemma excl_mstar (K g U : nat -> Prop) w w' : lights_ok T -> (forall x, U x -> ty T x = ACTION -> par T x <> None) ->
  (forall a, K a \/ ~ K a) ->
  star (mstep T g U) w w' -> excl_for K w -> excl_for K w'.
Proof. intros L HU DK. apply star_pres. intros a b X S. eapply excl_mstep; eauto. Qed.

Lemma sub_action_par x y : ty T x <> ACTION -> sub T x y -> ty T y = ACTION -> par T y <> None.
Proof. intros Tx [->|A] Ty E; [congruence|]. inversion A; subst; congruence. Qed.

(** the whole run *)
Lemma run_exclusive f r E0 Es w : lights_ok T -> ty T r = STORY_BOARD ->
  (forall a b o, In a (sb_init T) -> In b (sb_init T) -> a <> b -> a_private T a = true -> a_private T b = true ->
     a_obj T a = Some o -> a_obj T b = Some o -> ~ clash T a b) ->
  run f T r E0 Es = Some w -> exclusive T w.
Proof.
  intros L Tr HI H. destruct (run_guarded T W f r E0 Es w Tr H) as (w0 & S0 & S1).
  assert (X0 : excl_for (fun _ => True) w0).
  { intros o a b _ N Pa Pb Oa Ob Ra Rb Sa Sb.
    destruct (mstar_running _ _ _ _ a S0 Sa) as [K|Ia]; [discriminate K|].
    destruct (mstar_running _ _ _ _ b S0 Sb) as [K|Ib]; [discriminate K|]. eapply HI; eauto. }
  assert (X1 : excl_for (fun _ => True) w).
  { eapply excl_mstar; [exact L| |auto|exact S1|exact X0]. intros x Sx. apply (sub_action_par r x); [congruence|exact Sx]. }
  intros o a b. intros. eapply (X1 o a b); eauto.
Qed.

(** one event *)
Lemma event_exclusive f E w x w' : lights_ok T -> Inv T w -> ty T x = EVENT -> st w x = STANDBY ->
  start_event f T E w x = Some w' ->
  forall o a b, In a (kids T x) -> a <> b -> a_private T a = true -> a_private T b = true ->
    a_obj T a = Some o -> a_obj T b = Some o -> registered T o a -> registered T o b ->
    st w' a = RUNNING -> st w' b = RUNNING -> ~ clash T a b.
Proof.
  intros L I Tx Sx H.
  assert (P : prest T w x) by (split; [now right|]; intros p Hp; eapply inv_anc; eauto; now left).
  assert (S := start_event_guarded T W f E w x w' I Tx P H).
  assert (X0 : excl_for (fun a => In a (kids T x)) w).
  { intros o a b Ka N Pa Pb Oa Ob Ra Rb Sa. apply (kids_par T W) in Ka.
    rewrite (inv1 T w I x a Ka (or_intror Sx)) in Sa. discriminate. }
  assert (X1 : excl_for (fun a => In a (kids T x)) w').
  { eapply excl_mstar; [exact L| | |exact S|exact X0].
    - intros y Sy. apply (sub_action_par x y); [congruence|exact Sy].
    - intros a. destruct (in_dec Nat.eq_dec a (kids T x)); auto. }
  intros o a b. intros. eapply (X1 o a b); eauto.
Qed.

(* ------------------------------------------------------------------ *)
(** * C04 *)

Lemma mstar_nexec g U w w' x : star (mstep T g U) w w' -> ~ U x -> nexec w' x = nexec w x.
Proof.
  intros H NU. induction H as [|a b c H1 H2 IH]; [reflexivity|]. rewrite IH.
  destruct H1 as [v H|y Uy S P C].
  - destruct (estep_cases T W _ _ _ H) as [-> _]. reflexivity.
  - assert (Ny : x <> y) by (intros ->; contradiction).
    destruct (start_self_st T a y S) as [(_ & _ & _ & -> & _)|(_ & _ & B2 & _)]; [reflexivity|].
    rewrite B2. apply Nat.eqb_neq in Ny. now rewrite Ny.
Qed.

Lemma standby_prest w x : Inv T w -> st w x = STANDBY -> prest T w x.
Proof. intros I S. split; [now right|]. intros p Hp. eapply inv_anc; eauto. now left. Qed.

Lemma event_go_nexec f E w x w' : Inv T w -> ty T x = EVENT -> prest T w x -> st w x = STANDBY ->
  event_go f T E w x = Some w' -> nexec w' x = (nexec w x + 1)%Z.
Proof.
  intros I Tx P S H. destruct (event_go_guarded T W f E w x w' I Tx P H) as [_ K].
  rewrite (mstar_nexec _ _ _ _ x K (anc_irrefl T W x)).
  destruct (start_self_st T w x (or_intror S)) as [(B & _)|(_ & _ & B & _)]; [congruence|].
  rewrite B, Nat.eqb_refl. reflexivity.
Qed.

Lemma skip_blocked f E w x m e : par T x = Some m -> prio_of T x = SKIP ->
  par T e = Some m -> st w e = RUNNING -> start_event f T E w x = Some w.
Proof.
  intros Hm Hp He R. unfold start_event. rewrite Hm, Hp.
  assert (A : any_child_running T w m = true).
  { unfold any_child_running. apply existsb_exists. exists e. split; [now apply (par_kids T W)|]. rewrite R. reflexivity. }
  rewrite A. reflexivity.
Qed.

Lemma skip_starts f E w x m w' : Inv T w -> ty T x = EVENT -> par T x = Some m -> prio_of T x = SKIP -> st w x = STANDBY ->
  (forall e, par T e = Some m -> st w e <> RUNNING) ->
  start_event f T E w x = Some w' -> nexec w' x = (nexec w x + 1)%Z.
Proof.
  intros I Tx Hm Hp S N H. unfold start_event in H. rewrite Hm, Hp in H.
  assert (A : any_child_running T w m = false).
  { unfold any_child_running. destruct (existsb _ (kids T m)) eqn:Ex; [|reflexivity].
    apply existsb_exists in Ex as (e & He & R). destruct (state_eqb_spec (st w e) RUNNING); [|discriminate].
    exfalso. eapply N; [apply (kids_par T W), He|assumption]. }
  rewrite A in H. eapply event_go_nexec; eauto using standby_prest.
Qed.

Lemma overwrite_starts f E w x m w' : Inv T w -> ty T x = EVENT -> par T x = Some m -> prio_of T x = OVERWRITE -> st w x = STANDBY ->
  start_event f T E w x = Some w' ->
  nexec w' x = (nexec w x + 1)%Z /\
  (forall e, par T e = Some m -> e <> x -> st w' e <> RUNNING) /\
  exists w1, nexec w1 = nexec w /\ st w1 x = STANDBY /\ (forall e, par T e = Some m -> e <> x -> st w1 e <> RUNNING) /\
    event_go f T E w1 x = Some w'.
Proof.
  intros I Tx Hm Hp S H. unfold start_event in H. rewrite Hm, Hp, S in H. simpl in H.
  destruct (iter (overwrite_one f T x) (kids T m) w) as [w1|] eqn:E1; [|discriminate].
  destruct (overwrite_guarded T W f x m w w1 I Tx Hm Hp E1) as [S1 N1].
  destruct (overwrite_lock T W f x m w w1 I Tx Hm Hp E1 (standby_prest w x I S)) as [P1 X1].
  assert (I1 := estar_inv T W _ _ _ S1 I).
  assert (N1' : forall e, par T e = Some m -> e <> x -> st w1 e <> RUNNING) by (intros; apply N1; auto using par_kids).
  assert (X1' : st w1 x = STANDBY) by congruence.
  assert (Q : nexec w1 = nexec w) by (eapply estar_nexec; eauto).
  split; [|split].
  - rewrite <- Q. eapply event_go_nexec; eauto.
  - intros e He Ne R. destruct (event_go_guarded T W f E w1 x w' I1 Tx P1 H) as [A B].
    destruct (mstar_running _ _ _ _ e B R) as [R1|U1].
    + destruct (mstep_running _ _ _ _ e A R1) as [R2|U2]; [exact (N1' e He Ne R2)|].
      exact (sibling_not_sub T W m x e Hm He ltac:(congruence) U2).
    + exact (sibling_not_sub T W m x e Hm He ltac:(congruence) (or_intror U1)).
  - exists w1. auto.
Qed.

Lemma parallel_starts f E w x m w' : Inv T w -> ty T x = EVENT -> par T x = Some m -> prio_of T x = PARALLEL -> st w x = STANDBY ->
  start_event f T E w x = Some w' -> nexec w' x = (nexec w x + 1)%Z.
Proof.
  intros I Tx Hm Hp S H. unfold start_event in H. rewrite Hm, Hp, S in H. simpl in H.
  eapply event_go_nexec; eauto using standby_prest.
Qed.

(** a running action of another event keeps running, with its event, when nothing in event x competes with it *)
Lemma unrelated_keeps f E w x w' e b : Inv T w -> ty T x = EVENT -> st w x = STANDBY ->
  prio_of T x = PARALLEL \/ prio_of T x = SKIP ->
  start_event f T E w x = Some w' ->
  ty T e = EVENT -> e <> x -> par T b = Some e -> st w b = RUNNING ->
  (forall a, In a (kids T x) -> a_obj T a = a_obj T b -> N.land (a_dom T b) (a_dom T a) = 0%N) ->
  st w' b = RUNNING /\ st w' e = RUNNING.
Proof.
  intros I Tx Sx Hp H Te Ne Hb Rb ND.
  assert (S := start_event_guarded T W f E w x w' I Tx (standby_prest w x I Sx) H).
  assert (Tb : ty T b = ACTION) by (eapply (wf_event_kids T W); [exact Te|apply (par_kids T W), Hb]).
  destruct (lock_mstar T W _ _ _ _ b I S) as [[_ LA] LB].
  - intros p A [[[-> Ek]|(a & Ha & C)]|(e' & _ & _ & _ & Po)].
    + destruct (anc_top T _ b A) as (c & Hc & _). apply (par_kids T W) in Hc. rewrite Ek in Hc. destruct Hc.
    + assert (Tp : ty T p = ACTION); [|exact (anc_not_action T W _ _ A Tp)].
      destruct C as [<-|(_ & _ & _ & C & _)]; [exact (wf_event_kids T W x _ Tx Ha)|exact C].
    + destruct Hp; congruence.
  - right. intros [[[-> Ek]|(a & Ha & C)]|(e' & _ & _ & _ & Po)].
    + congruence.
    + destruct C as [->|(Pa & Pb & M & _ & o & Oa & [In|Ob])].
      * apply (kids_par T W) in Ha. congruence.
      * apply (wf_init_actions T W) in In as [_ In]. congruence.
      * unfold must_end in M. rewrite (ND a Ha ltac:(congruence)) in M. discriminate.
    + destruct Hp; congruence.
  - intros [->|A]; [congruence|]. inversion A as [? ? Q|? q ? Q A']; subst; [congruence|].
    rewrite Hb in Q. injection Q as <-. apply (anc_not_event T W x e); auto. congruence.
  - split; [right; auto|]. intros p Hp'. eapply inv_anc; eauto. now right.
  - split; [congruence|]. apply LA. now apply anc_par.
Qed.

(* ------------------------------------------------------------------ *)
(** * Termination *)

Definition tot (F : nat -> option world) : Prop := exists N w', forall f, N <= f -> F f = Some w'.

Lemma tot_some (F : nat -> option world) w : (forall f, F f = Some w) -> tot F.
Proof. intros H. exists 0, w. auto. Qed.
Lemma tot_shift (F : nat -> option world) : tot (fun f => F (S f)) -> tot F.
Proof.
  intros (N & w & H). exists (S N), w. intros [|f] Hf; [lia|]. apply H. lia.
Qed.
Lemma tot_bind (F : nat -> option world) (G : nat -> world -> option world) :
  tot F -> (forall w, tot (fun f => G f w)) -> tot (fun f => match F f with None => None | Some w => G f w end).
Proof.
  intros (N & w & H) HG. destruct (HG w) as (M & w' & H'). exists (N + M), w'. intros f Hf.
  rewrite H by lia. apply H'. lia.
Qed.
Lemma tot_bind_if (F : nat -> option world) (G : nat -> world -> option world) (P : world -> Prop) :
  tot F -> (forall f w, F f = Some w -> P w) -> (forall w, P w -> tot (fun f => G f w)) ->
  tot (fun f => match F f with None => None | Some w => G f w end).
Proof.
  intros (N & w & H) HP HG. destruct (HG w) as (M & w' & H'); [eapply HP, (H N); lia|].
  exists (N + M), w'. intros f Hf. rewrite H by lia. apply H'. lia.
Qed.
Lemma tot_iter (F : nat -> world -> nat -> option world) l :
  (forall c w, In c l -> tot (fun f => F f w c)) -> forall w, tot (fun f => iter (F f) l w).
Proof.
  induction l as [|c r IH]; intros H w; simpl; [now apply tot_some with w|].
  apply (tot_bind (fun f => F f w c) (fun f w' => iter (F f) r w')); [apply H; now left|].
  intros w'. apply IH. intros; apply H; now right.
Qed.
Lemma tot_ext (F G : nat -> option world) : (forall f, F f = G f) -> tot F -> tot G.
Proof. intros E (N & w & H). exists N, w. intros. rewrite <- E. auto. Qed.

Lemma reset_tot : forall x w s, tot (fun f => reset f T w x s).
Proof.
  destruct (wf_hgt T W) as [hgt Hh].
  intros x. remember (hgt x) as h eqn:Eh. revert x Eh.
  induction h as [h IH] using lt_wf_ind; intros x -> w s.
  apply tot_shift. simpl.
  apply (tot_bind (fun f => iter (fun w0 c => reset f T w0 c s) (kids T x) w) (fun f w1 => Some (reset_state w1 x s))).
  - apply (tot_iter (fun f w0 c => reset f T w0 c s)). intros c w0 Hc. apply (kids_par T W) in Hc. eapply IH; [|reflexivity]. auto.
  - intros w1. now apply tot_some with (reset_state w1 x s).
Qed.

Lemma end_self_tot w x : tot (fun f => end_self (fun w c => reset f T w c INIT) T w x).
Proof.
  unfold end_self.
  destruct (state_eqb (st w x) RUNNING || state_eqb (st w x) STANDBY); [|now apply tot_some with w].
  destruct (etype_eqb (ty T x) MANEUVER_GROUP || etype_eqb (ty T x) EVENT); [|eapply tot_some; reflexivity].
  destruct (negb (maxe T x =? -1)%Z && (maxe T x <=? nexec w x)%Z); [eapply tot_some; reflexivity|].
  apply (tot_iter (fun f w c => reset f T w c INIT)). intros c w0 _. apply reset_tot.
Qed.

Lemma acc_iter w x f : all_children_complete T w x = true ->
  iter (fun w c => if state_eqb (st w c) RUNNING then end_ f T w c else Some w) (kids T x) w = Some w.
Proof.
  unfold all_children_complete. generalize (kids T x). induction l as [|c r IH]; simpl; [reflexivity|].
  intros [A B]%andb_prop. destruct (state_eqb_spec (st w c) COMPLETE) as [->|]; [|discriminate]. simpl. auto.
Qed.

Lemma end_tot_done : forall x w, all_children_complete T w x = true -> tot (fun f => end_ f T w x).
Proof.
  destruct (wf_dep T W) as [dep Hd].
  intros x. remember (dep x) as h eqn:Eh. revert x Eh.
  induction h as [h IH] using lt_wf_ind; intros x -> w A.
  apply tot_shift. simpl.
  destruct (state_eqb (st w x) COMPLETE) eqn:EC; [now apply tot_some with w|].
  apply (tot_ext (fun f => match end_self (fun w c => reset f T w c INIT) T w x with
     | None => None | Some w2 => propagate_parent (end_ f T) T w2 x end)).
  { intros f. rewrite acc_iter by exact A. rewrite EC. reflexivity. }
  apply (tot_bind (fun f => end_self (fun w c => reset f T w c INIT) T w x) (fun f w2 => propagate_parent (end_ f T) T w2 x));
    [apply end_self_tot|].
  intros w2. unfold propagate_parent, propagate. destruct (par T x) as [p|] eqn:Ep; [|now apply tot_some with w2].
  destruct (negb (etype_eqb (ty T p) STORY_BOARD) && negb (state_eqb (st w2 p) COMPLETE)); [|now apply tot_some with w2].
  destruct (all_children_complete T w2 p) eqn:Ea; [|now apply tot_some with w2].
  eapply IH; [|reflexivity|exact Ea]. auto.
Qed.

Lemma propagate_tot x w : tot (fun f => propagate_parent (end_ f T) T w x).
Proof.
  unfold propagate_parent, propagate. destruct (par T x) as [p|] eqn:Ep; [|now apply tot_some with w].
  destruct (negb (etype_eqb (ty T p) STORY_BOARD) && negb (state_eqb (st w p) COMPLETE)); [|now apply tot_some with w].
  destruct (all_children_complete T w p) eqn:Ea; [|now apply tot_some with w].
  now apply end_tot_done.
Qed.

Lemma end_tot : forall x w, tot (fun f => end_ f T w x).
Proof.
  destruct (wf_hgt T W) as [hgt Hh].
  intros x. remember (hgt x) as h eqn:Eh. revert x Eh.
  induction h as [h IH] using lt_wf_ind; intros x -> w.
  apply tot_shift. simpl.
  destruct (state_eqb (st w x) COMPLETE) eqn:EC; [now apply tot_some with w|].
  apply (tot_bind (fun f => iter (fun w c => if state_eqb (st w c) RUNNING then end_ f T w c else Some w) (kids T x) w)
    (fun f w1 => if state_eqb (st w1 x) COMPLETE then Some w1 else
      match end_self (fun w c => reset f T w c INIT) T w1 x with None => None | Some w2 => propagate_parent (end_ f T) T w2 x end)).
  - apply (tot_iter (fun f w c => if state_eqb (st w c) RUNNING then end_ f T w c else Some w)).
    intros c w0 Hc. apply (kids_par T W) in Hc. destruct (state_eqb (st w0 c) RUNNING); [|now apply tot_some with w0].
    eapply IH; [|reflexivity]. auto.
  - intros w1. destruct (state_eqb (st w1 x) COMPLETE); [now apply tot_some with w1|].
    apply (tot_bind (fun f => end_self (fun w c => reset f T w c INIT) T w1 x) (fun f w2 => propagate_parent (end_ f T) T w2 x));
      [apply end_self_tot|]. intros. apply propagate_tot.
Qed.

Lemma stop_tot : forall x w, tot (fun f => stop f T w x).
Proof.
  destruct (wf_hgt T W) as [hgt Hh].
  intros x. remember (hgt x) as h eqn:Eh. revert x Eh.
  induction h as [h IH] using lt_wf_ind; intros x -> w.
  apply tot_shift. simpl.
  apply (tot_bind (fun f => iter (stop f T) (kids T x) w) (fun f w1 => match st w1 x with
      | INIT => Some w1 | COMPLETE => Some w1
      | _ => propagate_parent (end_ f T) T (set_state (set_transition w1 x STOP_TRANSITION) x COMPLETE) x end)).
  - apply (tot_iter (fun f => stop f T)). intros c w0 Hc. apply (kids_par T W) in Hc. eapply IH; [|reflexivity]. auto.
  - intros w1. destruct (st w1 x); try (now apply tot_some with w1); apply propagate_tot.
Qed.

Lemma start_action_tot E a w : tot (fun f => start_action f T E w a).
Proof.
  unfold start_action. destruct (act_start E w a); try (eapply tot_some; reflexivity); [apply end_tot|apply stop_tot].
Qed.

Lemma end_conflicts_tot a w : tot (fun f => end_conflicts f T w a).
Proof.
  unfold end_conflicts. destruct (a_private T a); [|now apply tot_some with w].
  destruct (a_obj T a) as [o|]; [|now apply tot_some with w].
  apply (tot_bind (fun f => iter (end_init_conflict f T a) (init_actions T o) w)
     (fun f w1 => iter (end_event_conflict f T a) (flat_map (kids T) (obj_events T o)) w1)).
  - apply (tot_iter (fun f => end_init_conflict f T a)). intros b w0 _. unfold end_init_conflict.
    match goal with |- tot (fun f => if ?c then _ else _) => destruct c end; [apply end_tot|now apply tot_some with w0].
  - intros w1. apply (tot_iter (fun f => end_event_conflict f T a)). intros b w0 _. unfold end_event_conflict.
    match goal with |- tot (fun f => if ?c then _ else _) => destruct c end; [apply end_tot|now apply tot_some with w0].
Qed.

Lemma event_go_tot E x w : tot (fun f => event_go f T E w x).
Proof.
  unfold event_go. destruct (negb (state_eqb (st (start_self T w x) x) RUNNING)); [eapply tot_some; reflexivity|].
  destruct (kids T x) as [|a l]; [apply end_tot|].
  apply (tot_iter (fun f => start_event_action f T E)). intros b w0 _. unfold start_event_action.
  apply (tot_bind (fun f => end_conflicts f T w0 b) (fun f w1 => start_action f T E w1 b)); [apply end_conflicts_tot|].
  intros; apply start_action_tot.
Qed.

Lemma start_event_tot E x w : ty T x = EVENT -> tot (fun f => start_event f T E w x).
Proof.
  intros Tx. destruct (wf_event_par T W x Tx) as [m Hm]. unfold start_event. rewrite Hm.
  destruct (prio_of T x).
  - destruct (state_eqb (st w x) RUNNING); [now apply tot_some with w|].
    apply (tot_bind (fun f => iter (overwrite_one f T x) (kids T m) w) (fun f w1 => event_go f T E w1 x)).
    + apply (tot_iter (fun f => overwrite_one f T x)). intros e w0 _. unfold overwrite_one.
      destruct (negb (e =? x) && state_eqb (st w0 e) RUNNING); [apply end_tot|now apply tot_some with w0].
    + intros; apply event_go_tot.
  - destruct (any_child_running T w m); [now apply tot_some with w|apply event_go_tot].
  - destruct (state_eqb (st w x) RUNNING); [now apply tot_some with w|apply event_go_tot].
  - now apply tot_some with w.
Qed.

Lemma start_tot : forall E x w, tot (fun f => start f T E w x).
Proof.
  destruct (wf_hgt T W) as [hgt Hh]. intros E.
  intros x. remember (hgt x) as h eqn:Eh. revert x Eh.
  induction h as [h IH] using lt_wf_ind; intros x -> w.
  apply tot_shift.
  assert (Gen : tot (fun f => match (if etype_eqb (ty T x) STORY_BOARD then iter (start_action f T E) (sb_init T) w else Some w) with
      | None => None
      | Some w0 => let w1 := start_self T w0 x in
        if state_eqb (st w1 x) RUNNING then iter (start f T E) (kids T x) w1 else Some w1 end)).
  { apply (tot_bind (fun f => if etype_eqb (ty T x) STORY_BOARD then iter (start_action f T E) (sb_init T) w else Some w)
      (fun f w0 => let w1 := start_self T w0 x in
        if state_eqb (st w1 x) RUNNING then iter (start f T E) (kids T x) w1 else Some w1)).
    - destruct (etype_eqb (ty T x) STORY_BOARD); [|now apply tot_some with w].
      apply (tot_iter (fun f => start_action f T E)). intros. apply start_action_tot.
    - intros w0. cbv zeta. destruct (state_eqb (st (start_self T w0 x) x) RUNNING); [|eapply tot_some; reflexivity].
      apply (tot_iter (fun f => start f T E)). intros c w1 Hc. apply (kids_par T W) in Hc. eapply IH; [|reflexivity]. auto. }
  cbn [start]. destruct (ty T x) eqn:Tx; try exact Gen; [now apply start_event_tot|apply start_action_tot].
Qed.

Lemma eval_stop_tot E x w : tot (fun f => eval_stop f T E w x).
Proof.
  unfold eval_stop. destruct (state_eqb (st w x) RUNNING && has_stop T x && fire_stop E w x); [|now apply tot_some with w].
  apply (tot_bind (fun f => stop f T w x) (fun f w1 => if etype_eqb (ty T x) STORY_BOARD then stop f T w1 x else Some w1)); [apply stop_tot|].
  intros w1. destruct (etype_eqb (ty T x) STORY_BOARD); [apply stop_tot|now apply tot_some with w1].
Qed.

Lemma eval_start_tot E x w : tot (fun f => eval_start f T E w x).
Proof.
  unfold eval_start. destruct (state_eqb (st w x) STANDBY && (negb (has_start T x) || fire_start E w x)); [apply start_tot|now apply tot_some with w].
Qed.

Lemma eval_triggers_tot : forall E x w, tot (fun f => eval_triggers f T E w x).
Proof.
  destruct (wf_hgt T W) as [hgt Hh]. intros E.
  intros x. remember (hgt x) as h eqn:Eh. revert x Eh.
  induction h as [h IH] using lt_wf_ind; intros x -> w.
  apply tot_shift. cbn [eval_triggers].
  apply (tot_bind (fun f => eval_stop f T E w x) (fun f w1 => match eval_start f T E w1 x with None => None | Some w2 =>
     if state_eqb (st w2 x) RUNNING then iter (eval_triggers f T E) (kids T x) w2 else Some w2 end)); [apply eval_stop_tot|].
  intros w1. apply (tot_bind (fun f => eval_start f T E w1 x) (fun f w2 =>
     if state_eqb (st w2 x) RUNNING then iter (eval_triggers f T E) (kids T x) w2 else Some w2)); [apply eval_start_tot|].
  intros w2. destruct (state_eqb (st w2 x) RUNNING); [|now apply tot_some with w2].
  apply (tot_iter (fun f => eval_triggers f T E)). intros c w0 Hc. apply (kids_par T W) in Hc. eapply IH; [|reflexivity]. auto.
Qed.

Lemma step_action_tot E a w : tot (fun f => step_action f T E w a).
Proof.
  unfold step_action. destruct (state_eqb (st w a) RUNNING && negb (skip_action E w a)); [|now apply tot_some with w].
  destruct (act_step E w a); [now apply tot_some with w|apply end_tot|apply stop_tot].
Qed.

Lemma step_el_tot : forall E x w, tot (fun f => step_el f T E w x).
Proof.
  destruct (wf_hgt T W) as [hgt Hh]. intros E.
  intros x. remember (hgt x) as h eqn:Eh. revert x Eh.
  induction h as [h IH] using lt_wf_ind; intros x -> w.
  apply tot_shift. cbn [step_el].
  assert (Gen : tot (fun f => if state_eqb (st w x) RUNNING then iter (step_el f T E) (kids T x) w else Some w)).
  { destruct (state_eqb (st w x) RUNNING); [|now apply tot_some with w].
    apply (tot_iter (fun f => step_el f T E)). intros c w0 Hc. apply (kids_par T W) in Hc. eapply IH; [|reflexivity]. auto. }
  destruct (ty T x); try exact Gen; [|now apply tot_some with w].
  apply (tot_iter (fun f => step_action f T E)). intros. apply step_action_tot.
Qed.

Lemma sb_step_tot E r w : tot (fun f => sb_step f T E r w).
Proof.
  unfold sb_step.
  apply (tot_bind (fun f => eval_triggers f T E w r) (fun f w1 => match iter (step_action f T E) (sb_init T) w1 with
    None => None | Some w2 => step_el f T E w2 r end)); [apply eval_triggers_tot|].
  intros w1. apply (tot_bind (fun f => iter (step_action f T E) (sb_init T) w1) (fun f w2 => step_el f T E w2 r)).
  - apply (tot_iter (fun f => step_action f T E)). intros. apply step_action_tot.
  - intros. apply step_el_tot.
Qed.

Lemma run_tot r E0 Es : tot (fun f => run f T r E0 Es).
Proof.
  unfold run. apply (tot_bind (fun f => start f T E0 world0 r) (fun f w => run_steps f T r Es w)); [apply start_tot|].
  induction Es as [|E Es IH]; intros w; simpl; [now apply tot_some with w|].
  apply (tot_bind (fun f => sb_step f T E r w) (fun f w' => run_steps f T r Es w')); [apply sb_step_tot|exact IH].
Qed.

(** C02: a fired stop trigger *)
Lemma eval_triggers_stop f E w x w' :
  st w x = RUNNING -> has_stop T x = true -> fire_stop E w x = true ->
  eval_triggers f T E w x = Some w' -> forall y, sub T x y -> ~ active (st w' y).
Proof.
  intros R Hs Fs H. destruct f as [|f]; [discriminate|]. cbn [eval_triggers] in H.
  destruct (eval_stop f T E w x) as [w1|] eqn:E1; [|discriminate].
  assert (N : forall y, sub T x y -> ~ active (st w1 y)).
  { unfold eval_stop in E1. rewrite R, Hs, Fs in E1. simpl in E1.
    destruct (stop f T w x) as [w0|] eqn:E0; [|discriminate].
    destruct (etype_eqb (ty T x) STORY_BOARD).
    - apply (stop_any T W f w0 x w1 E1).
    - injection E1 as <-. apply (stop_any T W f w x w0 E0). }
  unfold eval_start in H. assert (Nx := N x (or_introl eq_refl)).
  destruct (state_eqb_spec (st w1 x) STANDBY) as [S|S]; [exfalso; apply Nx; now left|]. simpl in H.
  destruct (state_eqb_spec (st w1 x) RUNNING) as [S2|S2]; [exfalso; apply Nx; now right|].
  injection H as <-. exact N.
Qed.

Lemma end_tot' x w : exists N, forall f, N <= f -> exists w', end_ f T w x = Some w'.
Proof. destruct (end_tot x w) as (N & w' & H). exists N. intros f Hf. exists w'. auto. Qed.
End Tree.
