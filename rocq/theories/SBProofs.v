(** Storyboard: specification and proofs for C01-C05. *)
From Coq Require Import List ZArith Lia Bool Arith NArith.
From Verif Require Import SBModel.
Import ListNotations.
Local Open Scope nat_scope.

(* ------------------------------------------------------------------ *)
(** * Specification *)

(** [anc T p x]: p is a proper ancestor of x; [sub T x y]: y is x or a descendant of x. *)
Inductive anc (T : tree) : nat -> nat -> Prop :=
| anc_par p x : par T x = Some p -> anc T p x
| anc_up p q x : par T x = Some q -> anc T p q -> anc T p x.
Definition sub (T : tree) (x y : nat) : Prop := y = x \/ anc T x y.

Definition is_rep (T : tree) (x : nat) : Prop := ty T x = MANEUVER_GROUP \/ ty T x = EVENT.
Definition active (s : state) : Prop := s = STANDBY \/ s = RUNNING.

(** Well-formed storyboards: what ScenarioReader builds. *)
Record wf (T : tree) : Prop := mkWf {
  wf_kids : forall x c, In c (kids T x) <-> par T c = Some x;
  wf_nodup : forall x, NoDup (kids T x);
  wf_dep : exists dep : nat -> nat, forall x p, par T x = Some p -> dep p < dep x;
  wf_hgt : exists hgt : nat -> nat, forall x p, par T x = Some p -> hgt x < hgt p;
  wf_event_kids : forall x c, ty T x = EVENT -> In c (kids T x) -> ty T c = ACTION;
  wf_action_par : forall c x, ty T c = ACTION -> par T c = Some x -> ty T x = EVENT;
  wf_action_kids : forall x, ty T x = ACTION -> kids T x = [];
  wf_action_trig : forall x, ty T x = ACTION -> has_start T x = false;
  wf_event_par : forall x, ty T x = EVENT -> exists m, par T x = Some m;
  wf_event_sib : forall x m e, ty T x = EVENT -> par T x = Some m -> In e (kids T m) -> ty T e = EVENT;
  wf_sb_par : forall x, ty T x = STORY_BOARD -> par T x = None;
  wf_sb_trig : forall x, ty T x = STORY_BOARD -> has_start T x = false;
  wf_init : forall a, In a (sb_init T) -> ty T a = ACTION /\ par T a = None;
  wf_init_nodup : NoDup (sb_init T);
  wf_init_actions : forall o b, In b (init_actions T o) -> ty T b = ACTION /\ par T b = None;
  wf_obj_events : forall o e, In e (obj_events T o) -> ty T e = EVENT
}.

(** The life cycle of a storyboard element (OpenSCENARIO): which notifications may follow a state. *)
Inductive life (rep : Prop) : state -> transition -> state -> Prop :=
| l_init_stby : life rep INIT INIT_TO_STBY_TRANSITION STANDBY
| l_init_run : life rep INIT START_TRANSITION RUNNING
| l_stby_run : life rep STANDBY START_TRANSITION RUNNING
| l_run_stby : rep -> life rep RUNNING END_TRANSITION STANDBY
| l_stby_end : life rep STANDBY END_TRANSITION COMPLETE
| l_run_end : life rep RUNNING END_TRANSITION COMPLETE
| l_stby_stop : life rep STANDBY STOP_TRANSITION COMPLETE
| l_run_stop : life rep RUNNING STOP_TRANSITION COMPLETE.

(** [trace T x l s]: starting in INIT, the entries of the log [l] (newest first) that concern x lead x
    along life cycle edges (notifications) or back to INIT (re-arming) to the state s. *)
Inductive trace (T : tree) (x : nat) : list entry -> state -> Prop :=
| t_nil : trace T x [] INIT
| t_note l a tr s : trace T x l a -> life (is_rep T x) a tr s -> trace T x (Note x tr s :: l) s
| t_rearm l a : trace T x l a -> trace T x (Rearm x INIT :: l) INIT
| t_other_note l a y tr s : y <> x -> trace T x l a -> trace T x (Note y tr s :: l) a
| t_other_rearm l a y s : y <> x -> trace T x l a -> trace T x (Rearm y s :: l) a.

(** number of executions of x reported in the log / since the last re-arming of x *)
Fixpoint starts (x : nat) (l : list entry) : Z :=
  match l with
  | [] => 0
  | Note y START_TRANSITION RUNNING :: r => ((if Nat.eqb y x then 1 else 0) + starts x r)%Z
  | _ :: r => starts x r
  end.
Fixpoint starts_since (x : nat) (l : list entry) : Z :=
  match l with
  | [] => 0
  | Note y START_TRANSITION RUNNING :: r => ((if Nat.eqb y x then 1 else 0) + starts_since x r)%Z
  | Rearm y _ :: r => if Nat.eqb y x then 0 else starts_since x r
  | _ :: r => starts_since x r
  end.

(** the end of an execution is reported as COMPLETE exactly when the maximum number of executions is reached *)
Definition ends_ok (T : tree) (l : list entry) : Prop :=
  forall l1 l2 x s, l = l1 ++ Note x END_TRANSITION s :: l2 -> is_rep T x ->
    (s = COMPLETE <-> maxe T x <> (-1)%Z /\ (maxe T x <= starts x l2)%Z).

(** re-arming entries: only descendants of repeating elements *)
Definition rearms_ok (T : tree) (l : list entry) : Prop :=
  forall x s, In (Rearm x s) l -> s = INIT /\ exists p, anc T p x /\ is_rep T p.

(** Conflict of two actions on the same object, symmetric, independent of the model: they have a control domain in
    common and, when light actions, a lamp in common. *)
Definition registered (T : tree) (o b : nat) : Prop :=
  In b (init_actions T o) \/ exists e, In e (obj_events T o) /\ In b (kids T e).

(* ------------------------------------------------------------------ *)
(** * Basics *)

Lemma state_eqb_spec a b : reflect (a = b) (state_eqb a b).
Proof. destruct a, b; simpl; constructor; congruence. Qed.
Lemma etype_eqb_spec a b : reflect (a = b) (etype_eqb a b).
Proof. destruct a, b; simpl; constructor; congruence. Qed.
Lemma state_eqb_refl a : state_eqb a a = true.
Proof. destruct a; reflexivity. Qed.
Lemma updf_same {A} (f : nat -> A) x v : updf f x v x = v.
Proof. unfold updf. now rewrite Nat.eqb_refl. Qed.
Lemma updf_other {A} (f : nat -> A) x v y : y <> x -> updf f x v y = f y.
Proof. intros. unfold updf. destruct (Nat.eqb_spec y x); congruence. Qed.

Ltac seqb := repeat match goal with
  | H : context [state_eqb ?a ?b] |- _ => destruct (state_eqb_spec a b); simpl in H
  | |- context [state_eqb ?a ?b] => destruct (state_eqb_spec a b); simpl
  | H : context [etype_eqb ?a ?b] |- _ => destruct (etype_eqb_spec a b); simpl in H
  | |- context [etype_eqb ?a ?b] => destruct (etype_eqb_spec a b); simpl
  end.

Inductive star {A} (R : A -> A -> Prop) : A -> A -> Prop :=
| star_refl x : star R x x
| star_step x y z : R x y -> star R y z -> star R x z.

Lemma star_trans {A} (R : A -> A -> Prop) x y z : star R x y -> star R y z -> star R x z.
Proof. induction 1; auto. intros. econstructor; eauto. Qed.
Lemma star_one {A} (R : A -> A -> Prop) x y : R x y -> star R x y.
Proof. intros. econstructor; [eauto|constructor]. Qed.
Lemma star_mono {A} (R S : A -> A -> Prop) x y : (forall a b, R a b -> S a b) -> star R x y -> star S x y.
Proof. intros H. induction 1; econstructor; eauto. Qed.
Lemma star_pres {A} (R : A -> A -> Prop) (P : A -> Prop) x y :
  (forall a b, P a -> R a b -> P b) -> star R x y -> P x -> P y.
Proof. intros H. induction 1; eauto. Qed.

Section Tree.
Variable T : tree.
Hypothesis W : wf T.

Lemma kids_par x c : In c (kids T x) -> par T c = Some x.
Proof. apply (wf_kids T W). Qed.
Lemma par_kids x c : par T c = Some x -> In c (kids T x).
Proof. apply (wf_kids T W). Qed.

Lemma anc_trans p q x : anc T p q -> anc T q x -> anc T p x.
Proof. intros H1 H2. induction H2; eauto using anc. Qed.

Lemma anc_dep dep : (forall x p, par T x = Some p -> dep p < dep x) -> forall p x, anc T p x -> dep p < dep x.
Proof. intros H p x A. induction A; [auto|]. specialize (H _ _ H0). lia. Qed.
Lemma anc_irrefl x : ~ anc T x x.
Proof. destruct (wf_dep T W) as [d Hd]. intros H. apply (anc_dep d Hd) in H. lia. Qed.
Lemma anc_asym x y : anc T x y -> ~ anc T y x.
Proof. intros H1 H2. exact (anc_irrefl x (anc_trans _ _ _ H1 H2)). Qed.

Lemma anc_top p x : anc T p x -> exists c, par T c = Some p /\ sub T c x.
Proof.
  induction 1 as [p x H|p q x H A IH].
  - exists x. split; [exact H|now left].
  - destruct IH as (c & Hc & [->|S]).
    + exists c. split; [exact Hc|right; now apply anc_par].
    + exists c. split; [exact Hc|]. right. eapply anc_up; eauto.
Qed.

Lemma sub_kid x c y : In c (kids T x) -> sub T c y -> anc T x y.
Proof.
  intros Hc%kids_par [->|A].
  - now apply anc_par.
  - eapply anc_trans; [apply anc_par|]; eauto.
Qed.

Lemma sibling_not_sub x a b : par T a = Some x -> par T b = Some x -> a <> b -> ~ sub T a b.
Proof.
  intros Ha Hb N [E|A]; [congruence|].
  inversion A as [? ? H|? q ? H A']; subst.
  - rewrite Hb in H. injection H as ->. exact (anc_irrefl a (anc_par _ _ _ Ha)).
  - rewrite Hb in H. injection H as <-. exact (anc_asym _ _ A' (anc_par _ _ _ Ha)).
Qed.

Lemma anc_not_action p b : anc T p b -> ty T p <> ACTION.
Proof.
  intros A E. destruct (anc_top _ _ A) as (c & Hc & _). apply par_kids in Hc.
  rewrite (wf_action_kids T W p E) in Hc. destruct Hc.
Qed.
Lemma anc_not_event p b : ty T b <> ACTION -> anc T p b -> ty T p <> EVENT.
Proof.
  intros N A. induction A as [p x H|p q x H A IH]; intros E.
  - apply N. eapply (wf_event_kids T W); eauto using par_kids.
  - apply IH; [|exact E]. intros Eq. apply par_kids in H.
    rewrite (wf_action_kids T W q Eq) in H. destruct H.
Qed.

(* ------------------------------------------------------------------ *)
(** * Reset *)

(** [resets P w w']: w' is w with some elements satisfying P re-armed, all others untouched. *)
Definition resets (P : nat -> Prop) (w w' : world) : Prop :=
  nexec w' = nexec w /\
  exists rs, log w' = rs ++ log w /\ (forall e, In e rs -> exists y, e = Rearm y INIT /\ P y) /\
    (forall y, (In (Rearm y INIT) rs /\ st w' y = INIT) \/ (~ In (Rearm y INIT) rs /\ st w' y = st w y)).

Lemma resets_st P w w' : resets P w w' -> forall y, st w' y = st w y \/ (P y /\ st w' y = INIT).
Proof.
  intros (_ & rs & _ & A & B) y. destruct (B y) as [[Hy E]|[_ E]]; [right|now left].
  destruct (A _ Hy) as (z & Ez & Pz). injection Ez as <-. auto.
Qed.

Lemma iter_resets (F : world -> nat -> option world) (l : list nat) :
  (forall c, In c l -> forall w w', F w c = Some w' ->
     resets (sub T c) w w' /\ (forall y, sub T c y -> st w' y = INIT)) ->
  forall w w', iter F l w = Some w' ->
  resets (fun y => exists c, In c l /\ sub T c y) w w' /\
  (forall y, (exists c, In c l /\ sub T c y) -> st w' y = INIT).
Proof.
  induction l as [|c r IH]; intros HF w w' H; simpl in H.
  - injection H as <-. split.
    + split; [reflexivity|]. exists []. split; [reflexivity|]. split; [intros e []|]. intros y. right. auto.
    + intros y (c & [] & _).
  - destruct (F w c) as [w1|] eqn:E; [|discriminate].
    destruct (HF c (or_introl eq_refl) _ _ E) as [A B].
    assert (HF' : forall c, In c r -> forall w w', F w c = Some w' ->
              resets (sub T c) w w' /\ (forall y, sub T c y -> st w' y = INIT)) by (intros; apply HF; simpl; auto).
    destruct (IH HF' _ _ H) as [C D].
    assert (C1 := resets_st _ _ _ C).
    destruct A as (A2 & rs1 & A3 & A4 & A5). destruct C as (C2 & rs2 & C3 & C4 & C5).
    split.
    + split; [congruence|]. exists (rs2 ++ rs1). split; [rewrite C3, A3; apply app_assoc|]. split.
      * intros e [He|He]%in_app_or.
        -- destruct (C4 e He) as (y & -> & c' & Hc & Sc). exists y. split; [reflexivity|]. exists c'. simpl; auto.
        -- destruct (A4 e He) as (y & -> & Sc). exists y. split; [reflexivity|]. exists c. simpl; auto.
      * intros y. destruct (C5 y) as [[Hy Ey]|[Hy Ey]].
        -- left. split; [apply in_or_app; auto|exact Ey].
        -- destruct (A5 y) as [[Hy1 Ey1]|[Hy1 Ey1]].
           ++ left. split; [apply in_or_app; auto|congruence].
           ++ right. split; [intros [K|K]%in_app_or; auto|congruence].
    + intros y (c' & [->|Hc'] & Sc').
      * destruct (C1 y) as [->|[_ ->]]; auto.
      * apply D. exists c'. auto.
Qed.

Lemma reset_spec : forall f x w w', reset f T w x INIT = Some w' ->
  resets (sub T x) w w' /\ (forall y, sub T x y -> st w' y = INIT).
Proof.
  induction f as [|f IH]; intros x w w' H; simpl in H; [discriminate|].
  destruct (iter _ (kids T x) w) as [w1|] eqn:E; [|discriminate].
  injection H as <-.
  assert (K := iter_resets (fun w c => reset f T w c INIT) (kids T x) (fun c _ w0 w0' H0 => IH c w0 w0' H0) w w1 E).
  destruct K as [(A2 & rs & A3 & A4 & A5) B]. simpl.
  assert (SK : forall y, (exists c, In c (kids T x) /\ sub T c y) -> sub T x y).
  { intros y (c & Hc & Sc). right. eapply sub_kid; eauto. }
  split.
  - split; [exact A2|]. exists (Rearm x INIT :: rs). split; [simpl; now rewrite A3|]. split.
    + intros e [<-|He]; [exists x; split; [reflexivity|now left]|].
      destruct (A4 e He) as (y & -> & Sy). eauto.
    + intros y. unfold reset_state; simpl. destruct (Nat.eq_dec y x) as [->|N].
      * left. split; [now left|apply updf_same].
      * rewrite updf_other by exact N. destruct (A5 y) as [[Hy Ey]|[Hy Ey]]; [left; auto|right].
        split; [|exact Ey]. intros [K|K]; [congruence|contradiction].
  - intros y [->|Hy]; unfold reset_state; simpl.
    + apply updf_same.
    + rewrite updf_other; [|intros ->; exact (anc_irrefl _ Hy)].
      apply B. destruct (anc_top _ _ Hy) as (c & Hc & Sc). exists c. auto using par_kids.
Qed.

(* ------------------------------------------------------------------ *)
(** * Elementary changes *)

Definition limit_hit (w : world) (x : nat) : Prop := maxe T x <> (-1)%Z /\ (maxe T x <= nexec w x)%Z.

Inductive estep (G : world -> nat -> Prop) (w : world) : world -> Prop :=
| es_complete x tr :
    active (st w x) -> G w x -> tr = END_TRANSITION \/ tr = STOP_TRANSITION ->
    (tr = END_TRANSITION -> is_rep T x -> limit_hit w x) ->
    estep G w (set_state (set_transition w x tr) x COMPLETE)
| es_rearm f x w' :
    is_rep T x -> active (st w x) -> G w x -> ~ limit_hit w x ->
    iter (fun w c => reset f T w c INIT) (kids T x) (set_state (set_transition w x END_TRANSITION) x STANDBY) = Some w' ->
    estep G w w'.

Lemma estep_mono (G G' : world -> nat -> Prop) w w' :
  (forall v x, G v x -> G' v x) -> estep G w w' -> estep G' w w'.
Proof. intros H [x tr ? ? ? ?|f x w1 ? ? ? ? ?]; [eapply es_complete|eapply es_rearm]; eauto. Qed.

Lemma complete_st w x tr :
  st w x <> COMPLETE ->
  (forall y, st (set_state (set_transition w x tr) x COMPLETE) y = if Nat.eqb y x then COMPLETE else st w y) /\
  nexec (set_state (set_transition w x tr) x COMPLETE) = nexec w /\
  log (set_state (set_transition w x tr) x COMPLETE) = Note x tr COMPLETE :: log w.
Proof.
  intros N. unfold set_state; simpl. destruct (state_eqb_spec (st w x) COMPLETE) as [E|_]; [congruence|]. simpl.
  repeat split. rewrite updf_same. reflexivity.
Qed.

Lemma rearm_st f w x w' :
  iter (fun w c => reset f T w c INIT) (kids T x) (set_state (set_transition w x END_TRANSITION) x STANDBY) = Some w' ->
  active (st w x) ->
  st w' x = STANDBY /\ (forall y, anc T x y -> st w' y = INIT) /\
  (forall y, y = x \/ anc T x y \/ st w' y = st w y) /\
  (forall y, ~ sub T x y -> st w' y = st w y) /\
  nexec w' = nexec w /\
  (exists rs, log w' = rs ++ (if state_eqb (st w x) STANDBY then [] else [Note x END_TRANSITION STANDBY]) ++ log w /\
     (forall e, In e rs -> exists y, e = Rearm y INIT /\ anc T x y) /\
     (forall y, (In (Rearm y INIT) rs /\ st w' y = INIT) \/
                (~ In (Rearm y INIT) rs /\ st w' y = if Nat.eqb y x then STANDBY else st w y))).
Proof.
  intros H Ax.
  set (w0 := set_state (set_transition w x END_TRANSITION) x STANDBY) in *.
  assert (S0 : forall y, st w0 y = if Nat.eqb y x then STANDBY else st w y).
  { intros y. unfold w0, set_state; simpl. destruct (state_eqb_spec (st w x) STANDBY) as [E|N]; simpl.
    - destruct (Nat.eqb_spec y x) as [->|]; auto.
    - reflexivity. }
  assert (N0 : nexec w0 = nexec w).
  { unfold w0, set_state; simpl. destruct (state_eqb (st w x) STANDBY); reflexivity. }
  assert (L0 : log w0 = (if state_eqb (st w x) STANDBY then [] else [Note x END_TRANSITION STANDBY]) ++ log w).
  { unfold w0, set_state; simpl. destruct (state_eqb (st w x) STANDBY); simpl; [reflexivity|].
    now rewrite updf_same. }
  destruct (iter_resets _ _ (fun c _ v v' => reset_spec f c v v') _ _ H) as [A B].
  assert (A1 := resets_st _ _ _ A). destruct A as (A2 & rs & A3 & A4 & A5).
  assert (SK : forall y, (exists c, In c (kids T x) /\ sub T c y) -> anc T x y)
    by (intros y (c & Hc & Sc); eapply sub_kid; eauto).
  assert (KS : forall y, anc T x y -> exists c, In c (kids T x) /\ sub T c y).
  { intros y Hy. destruct (anc_top _ _ Hy) as (c & Hc & Sc). exists c. auto using par_kids. }
  repeat split.
  - destruct (A1 x) as [->|[Hx _]]; [now rewrite S0, Nat.eqb_refl|].
    exfalso. exact (anc_irrefl _ (SK _ Hx)).
  - intros y Hy. apply B, KS, Hy.
  - intros y. destruct (A1 y) as [Ey|[Hy _]]; [|right; left; apply SK, Hy].
    rewrite S0 in Ey. destruct (Nat.eqb_spec y x); auto.
  - intros y Ny. destruct (A1 y) as [Ey|[Hy _]]; [|exfalso; apply Ny; right; apply SK, Hy].
    rewrite S0 in Ey. destruct (Nat.eqb_spec y x) as [->|]; [exfalso; apply Ny; now left|exact Ey].
  - congruence.
  - exists rs. rewrite A3, L0. split; [reflexivity|]. split.
    + intros e He. destruct (A4 e He) as (y & -> & Hy). eauto.
    + intros y. destruct (A5 y) as [[Hy Ey]|[Hy Ey]]; [left; auto|right]. rewrite Ey, S0. auto.
Qed.

Lemma active_nc s : active s -> s <> COMPLETE.
Proof. intros [->| ->]; discriminate. Qed.

Lemma estep_cases G w w' : estep G w w' ->
  nexec w' = nexec w /\
  exists x, active (st w x) /\ G w x /\
   (((forall y, st w' y = if Nat.eqb y x then COMPLETE else st w y)) \/
    (is_rep T x /\ ~ limit_hit w x /\ st w' x = STANDBY /\ (forall y, anc T x y -> st w' y = INIT) /\
     (forall y, y = x \/ anc T x y \/ st w' y = st w y))).
Proof.
  intros [x tr A Gx Tr L|f x w1 R A Gx L H].
  - destruct (complete_st w x tr (active_nc _ A)) as (B1 & B2 & B3). split; [exact B2|].
    exists x. auto.
  - destruct (rearm_st f w x w1 H A) as (B1 & B2 & B3 & B4 & B5 & B6). split; [exact B5|].
    exists x. split; [exact A|]. split; [exact Gx|]. right. auto.
Qed.

(** no elementary end step starts anything *)
Lemma estep_running G w w' y : estep G w w' -> st w' y = RUNNING -> st w y = RUNNING.
Proof.
  intros H E. destruct (estep_cases _ _ _ H) as (_ & x & A & _ & [S|(R & L & S1 & S2 & S3)]).
  - rewrite S in E. destruct (Nat.eqb y x); congruence.
  - destruct (S3 y) as [->|[D|Ey]]; [congruence|rewrite (S2 _ D) in E; discriminate|congruence].
Qed.
Lemma estep_inactive G w w' y : estep G w w' -> ~ active (st w y) -> ~ active (st w' y).
Proof.
  intros H N A. destruct (estep_cases _ _ _ H) as (_ & x & Ax & _ & [S|(R & L & S1 & S2 & S3)]).
  - rewrite S in A. destruct (Nat.eqb_spec y x); [destruct A; discriminate|auto].
  - destruct (S3 y) as [->|[D|Ey]]; [auto|rewrite (S2 _ D) in A; destruct A; discriminate|].
    rewrite Ey in A. auto.
Qed.
Lemma estep_init G w w' y : estep G w w' -> st w y = INIT -> st w' y = INIT.
Proof.
  intros H N. destruct (estep_cases _ _ _ H) as (_ & x & Ax & _ & [S|(R & L & S1 & S2 & S3)]).
  - rewrite S. destruct (Nat.eqb_spec y x) as [->|]; [|exact N]. rewrite N in Ax. destruct Ax; discriminate.
  - destruct (S3 y) as [->|[D|Ey]]; [|auto|congruence]. rewrite N in Ax. destruct Ax; discriminate.
Qed.
Lemma estar_running G w w' y : star (estep G) w w' -> st w' y = RUNNING -> st w y = RUNNING.
Proof. induction 1; eauto using estep_running. Qed.
Lemma estar_inactive G w w' y : star (estep G) w w' -> ~ active (st w y) -> ~ active (st w' y).
Proof.
  intros H N. eapply (star_pres _ (fun w => ~ active (st w y))); eauto.
  intros; eapply estep_inactive; eauto.
Qed.
Lemma estar_nexec G w w' : star (estep G) w w' -> nexec w' = nexec w.
Proof. induction 1 as [|a b c H1 H2 IH]; [reflexivity|]. rewrite IH. apply estep_cases in H1. apply H1. Qed.

(* ------------------------------------------------------------------ *)
(** * End and Stop in arbitrary worlds *)

Definition anyG : world -> nat -> Prop := fun _ _ => True.

Lemma iter_star (R : world -> world -> Prop) (F : world -> nat -> option world) l :
  (forall c w w', In c l -> F w c = Some w' -> star R w w') ->
  forall w w', iter F l w = Some w' -> star R w w'.
Proof.
  induction l as [|c r IH]; intros HF w w' H; simpl in H.
  - injection H as <-. constructor.
  - destruct (F w c) as [w1|] eqn:E; [|discriminate].
    eapply star_trans; [eapply HF; [left; reflexivity|exact E]|]. apply IH; [|exact H].
    intros. eapply HF; [right|]; eauto.
Qed.

Lemma end_self_cases f w x w' :
  end_self (fun w c => reset f T w c INIT) T w x = Some w' ->
  (w' = w /\ ~ active (st w x)) \/
  (active (st w x) /\ forall G : world -> nat -> Prop, G w x -> estep G w w').
Proof.
  unfold end_self. intros H.
  assert (D : active (st w x) \/ ~ active (st w x)).
  { unfold active. destruct (st w x); auto; right; intros []; discriminate. }
  destruct D as [A|N].
  2: { left. destruct (st w x); simpl in H; try (split; [congruence|exact N]); exfalso; apply N; unfold active; auto. }
  right. split; [exact A|]. intros G Gx.
  assert (E : state_eqb (st w x) RUNNING || state_eqb (st w x) STANDBY = true) by (destruct A as [-> | ->]; reflexivity).
  rewrite E in H. clear E.
  destruct (etype_eqb (ty T x) MANEUVER_GROUP || etype_eqb (ty T x) EVENT) eqn:ER.
  - assert (R : is_rep T x).
    { apply orb_true_iff in ER. unfold is_rep. destruct ER as [ER|ER]; seqb; auto; discriminate. }
    destruct (negb (maxe T x =? -1)%Z && (maxe T x <=? nexec w x)%Z) eqn:EL.
    + injection H as <-. apply es_complete; auto. intros _ _.
      apply andb_prop in EL as [E1 E2]. apply negb_true_iff, Z.eqb_neq in E1. apply Z.leb_le in E2. split; auto.
    + eapply es_rearm; eauto. intros [L1 L2].
      apply andb_false_iff in EL as [E1|E1].
      * apply negb_false_iff, Z.eqb_eq in E1. auto.
      * apply Z.leb_gt in E1. lia.
  - injection H as <-. apply es_complete; auto. intros _ R.
    apply orb_false_iff in ER as [E1 E2]. exfalso.
    destruct R as [R|R]; rewrite R in *; discriminate.
Qed.

Lemma end_any : forall f w x w', end_ f T w x = Some w' -> star (estep anyG) w w'.
Proof.
  induction f as [|f IH]; intros w x w' H; simpl in H; [discriminate|].
  destruct (state_eqb_spec (st w x) COMPLETE) as [E|N]; [injection H as <-; constructor|].
  match goal with H : match ?t with _ => _ end = Some _ |- _ => destruct t as [w1|] eqn:E1; [|discriminate H] end.
  assert (S1 : star (estep anyG) w w1).
  { eapply iter_star; [|exact E1]. intros c v v' _ Hc. simpl in Hc.
    destruct (state_eqb (st v c) RUNNING); [eauto|injection Hc as <-; constructor]. }
  eapply star_trans; [exact S1|]. clear S1 E1.
  destruct (state_eqb_spec (st w1 x) COMPLETE) as [E|N1]; [injection H as <-; constructor|].
  destruct (end_self _ T w1 x) as [w2|] eqn:E2; [|discriminate].
  eapply star_trans.
  - destruct (end_self_cases _ _ _ _ E2) as [[-> _]|[_ S2]]; [constructor|apply star_one, S2; exact I].
  - unfold propagate_parent, propagate in H. destruct (par T x) as [p|]; [|injection H as <-; constructor].
    destruct (negb (etype_eqb (ty T p) STORY_BOARD) && negb (state_eqb (st w2 p) COMPLETE)); [|injection H as <-; constructor].
    destruct (all_children_complete T w2 p); [eauto|injection H as <-; constructor].
Qed.

(** After End an element is not running. *)
Lemma end_not_running f w x w' : end_ f T w x = Some w' -> st w' x <> RUNNING.
Proof.
  destruct f as [|f]; simpl; intros H; [discriminate|].
  destruct (state_eqb_spec (st w x) COMPLETE) as [E|N]; [injection H as <-; congruence|].
  match goal with H : match ?t with _ => _ end = Some _ |- _ => destruct t as [w1|] eqn:E1; [|discriminate H] end.
  destruct (state_eqb_spec (st w1 x) COMPLETE) as [E|N1]; [injection H as <-; congruence|].
  destruct (end_self _ T w1 x) as [w2|] eqn:E2; [|discriminate].
  assert (N2 : st w2 x <> RUNNING).
  { destruct (end_self_cases _ _ _ _ E2) as [[-> A]|[A S2]].
    - intros E. apply A. rewrite E. unfold active. auto.
    - destruct (estep_cases _ _ _ (S2 (fun _ y => y = x) eq_refl)) as (_ & y & _ & -> & [S|(R & L & S1 & _)]).
      + rewrite S, Nat.eqb_refl. discriminate.
      + congruence. }
  intros E. apply N2.
  assert (S : star (estep anyG) w2 w').
  { unfold propagate_parent, propagate in H. destruct (par T x) as [p|]; [|injection H as <-; constructor].
    destruct (negb (etype_eqb (ty T p) STORY_BOARD) && negb (state_eqb (st w2 p) COMPLETE)); [|injection H as <-; constructor].
    destruct (all_children_complete T w2 p); [eauto using end_any|injection H as <-; constructor]. }
  eapply estar_running; eauto.
Qed.

Lemma propagate_any f w x w' : propagate_parent (end_ f T) T w x = Some w' -> star (estep anyG) w w'.
Proof.
  unfold propagate_parent, propagate. destruct (par T x) as [p|]; [|intros H; injection H as <-; constructor].
  destruct (negb (etype_eqb (ty T p) STORY_BOARD) && negb (state_eqb (st w p) COMPLETE)); [|intros H; injection H as <-; constructor].
  destruct (all_children_complete T w p); [eauto using end_any|intros H; injection H as <-; constructor].
Qed.

Lemma stop_any : forall f w x w', stop f T w x = Some w' ->
  star (estep anyG) w w' /\ forall y, sub T x y -> ~ active (st w' y).
Proof.
  induction f as [|f IH]; intros w x w' H; simpl in H; [discriminate|].
  destruct (iter (stop f T) (kids T x) w) as [w1|] eqn:E1; [|discriminate].
  assert (S1 : star (estep anyG) w w1).
  { eapply iter_star; [|exact E1]. intros c v v' _ Hc. eapply IH; eauto. }
  assert (K1 : forall c y, In c (kids T x) -> sub T c y -> ~ active (st w1 y)).
  { revert E1. clear H S1. generalize (kids T x) as l. intros l. revert w.
    induction l as [|c r IHl]; intros w E1 c' y Hc Sy; [destruct Hc|].
    simpl in E1. destruct (stop f T w c) as [w0|] eqn:E0; [|discriminate].
    destruct Hc as [->|Hc]; [|eapply IHl; eauto].
    destruct (IH _ _ _ E0) as [_ N0]. eapply estar_inactive; [|apply N0, Sy].
    eapply iter_star; [|exact E1]. intros c v v' _ Hc. eapply IH; eauto. }
  assert (D : (w' = w1 /\ ~ active (st w1 x)) \/
              (active (st w1 x) /\
               propagate_parent (end_ f T) T (set_state (set_transition w1 x STOP_TRANSITION) x COMPLETE) x = Some w')).
  { unfold active. destruct (st w1 x); try (left; split; [congruence|intros []; discriminate]); right; auto. }
  destruct D as [[-> N]|[A P]].
  - split; [exact S1|]. intros y [->|Sy]; [exact N|].
    destruct (anc_top _ _ Sy) as (c & Hc & Sc). eapply K1; eauto using par_kids.
  - assert (St : estep anyG w1 (set_state (set_transition w1 x STOP_TRANSITION) x COMPLETE)).
    { apply es_complete; auto; [exact I|discriminate]. }
    apply propagate_any in P.
    split; [eapply star_trans; [exact S1|eapply star_step; eauto]|].
    intros y Sy. eapply estar_inactive; [exact P|].
    destruct Sy as [->|Sy].
    + destruct (complete_st w1 x STOP_TRANSITION (active_nc _ A)) as [B _]. rewrite B, Nat.eqb_refl. intros []; discriminate.
    + eapply estep_inactive; [exact St|]. destruct (anc_top _ _ Sy) as (c & Hc & Sc). eapply K1; eauto using par_kids.
Qed.

(* ------------------------------------------------------------------ *)
(** * Invariant *)

Record Inv (w : world) : Prop := mkInv {
  inv1 : forall p c, par T c = Some p -> st w p = INIT \/ st w p = STANDBY -> st w c = INIT;
  inv2 : forall p c, par T c = Some p -> active (st w c) -> st w p = RUNNING;
  inv3 : forall x, st w x = STANDBY -> is_rep T x \/ has_start T x = true
}.

Lemma inv_anc w x p : Inv w -> active (st w x) -> anc T p x -> st w p = RUNNING.
Proof.
  intros I A H. induction H as [p x H|p q x H A' IH].
  - eapply inv2; eauto.
  - apply IH. right. eapply inv2; eauto.
Qed.
Lemma inv_desc w x y : Inv w -> st w x = INIT \/ st w x = STANDBY -> anc T x y -> st w y = INIT.
Proof.
  intros I A H. induction H as [p x H|p q x H A' IH].
  - eapply inv1; eauto.
  - eapply inv1; [exact I|exact H|]. left. apply IH; auto.
Qed.

(** Guard of guarded end steps. *)
Definition kids_done (w : world) (x : nat) : Prop := kids T x <> [] /\ forall c, In c (kids T x) -> st w c = COMPLETE.
Definition Gd (g : nat -> Prop) (w : world) (x : nat) : Prop :=
  (g x \/ kids_done w x) /\ (forall c, In c (kids T x) -> ~ active (st w c)).

Definition noconf (w : world) (a : nat) : Prop :=
  forall o b, a_private T a = true -> a_private T b = true -> a_obj T a = Some o -> a_obj T b = Some o ->
    registered T o b -> b <> a -> st w b = RUNNING -> must_end T a b = false.

Inductive mstep (g U : nat -> Prop) (w : world) : world -> Prop :=
| ms_e w' : estep (Gd g) w w' -> mstep g U w w'
| ms_begin x : U x -> st w x = INIT \/ st w x = STANDBY -> (forall p, par T x = Some p -> st w p = RUNNING) ->
    (ty T x = ACTION -> par T x = None \/ noconf w x) -> mstep g U w (start_self T w x).

Lemma mstep_mono (g U g' U' : nat -> Prop) w w' :
  (forall x, g x -> g' x) -> (forall x, U x -> U' x) -> mstep g U w w' -> mstep g' U' w w'.
Proof.
  intros Hg HU [v H|x Ux S P C].
  - apply ms_e. eapply estep_mono; [|exact H]. intros u x [[D|D] K]; split; auto.
  - apply ms_begin; auto.
Qed.
Lemma mstar_mono (g U g' U' : nat -> Prop) w w' :
  (forall x, g x -> g' x) -> (forall x, U x -> U' x) -> star (mstep g U) w w' -> star (mstep g' U') w w'.
Proof. intros Hg HU. apply star_mono. intros. eapply mstep_mono; eauto. Qed.
Lemma estar_mstar g U w w' : star (estep (Gd g)) w w' -> star (mstep g U) w w'.
Proof. apply star_mono. intros. now apply ms_e. Qed.

Lemma start_self_st w x : st w x = INIT \/ st w x = STANDBY ->
  (st w x = INIT /\ has_start T x = true /\
   (forall y, st (start_self T w x) y = if Nat.eqb y x then STANDBY else st w y) /\
   nexec (start_self T w x) = nexec w /\
   log (start_self T w x) = Note x INIT_TO_STBY_TRANSITION STANDBY :: log w) \/
  ((st w x = INIT /\ has_start T x = false \/ st w x = STANDBY) /\
   (forall y, st (start_self T w x) y = if Nat.eqb y x then RUNNING else st w y) /\
   (forall y, nexec (start_self T w x) y = if Nat.eqb y x then (nexec w x + 1)%Z else nexec w y) /\
   log (start_self T w x) = Note x START_TRANSITION RUNNING :: log w).
Proof.
  intros H. unfold start_self.
  destruct H as [E|E]; rewrite E; simpl.
  - destruct (has_start T x); simpl.
    + left. unfold set_state; simpl. rewrite E; simpl. rewrite updf_same. repeat split.
    + right. unfold set_state; simpl. rewrite E; simpl. rewrite updf_same. repeat split. left; auto.
  - right. unfold set_state; simpl. rewrite E; simpl. rewrite updf_same. repeat split. now right.
Qed.

Lemma estep_inv g w w' : Inv w -> estep (Gd g) w w' -> Inv w'.
Proof.
  intros I H. destruct (estep_cases _ _ _ H) as (_ & x & A & [G K] & [S|(R & L & S1 & S2 & S3)]).
  - constructor.
    + intros p c Hp E. rewrite S in E. rewrite S.
      destruct (Nat.eqb_spec p x) as [->|Np]; [destruct E; discriminate|].
      destruct (Nat.eqb_spec c x) as [->|Nc]; [|eapply inv1; eauto].
      exfalso. assert (E2 := inv2 _ I _ _ Hp A). rewrite E2 in E. destruct E; discriminate.
    + intros p c Hp E. rewrite S in E. rewrite S.
      destruct (Nat.eqb_spec c x) as [->|Nc]; [destruct E; discriminate|].
      destruct (Nat.eqb_spec p x) as [->|Np]; [|eapply inv2; eauto].
      exfalso. eapply K; [apply par_kids, Hp|exact E].
    + intros y E. rewrite S in E. destruct (Nat.eqb_spec y x); [discriminate|]. eapply inv3; eauto.
  - constructor.
    + intros p c Hp E.
      destruct (S3 c) as [->|[D|Ec]].
      * (* c = x : p not changed, running *)
        exfalso. assert (E2 := inv2 _ I _ _ Hp A).
        destruct (S3 p) as [->|[D|Ep]].
        -- exact (anc_irrefl _ (anc_par _ _ _ Hp)).
        -- exact (anc_asym _ _ D (anc_par _ _ _ Hp)).
        -- rewrite Ep, E2 in E. destruct E; discriminate.
      * auto.
      * rewrite Ec. destruct (S3 p) as [->|[D|Ep]].
        -- rewrite <- Ec. apply S2. now apply anc_par.
        -- rewrite <- Ec. apply S2. eapply anc_up; eauto.
        -- rewrite Ep in E. eapply inv1; eauto.
    + intros p c Hp E.
      destruct (S3 c) as [->|[D|Ec]].
      * assert (E2 := inv2 _ I _ _ Hp A). destruct (S3 p) as [->|[D|Ep]].
        -- exfalso. exact (anc_irrefl _ (anc_par _ _ _ Hp)).
        -- exfalso. exact (anc_asym _ _ D (anc_par _ _ _ Hp)).
        -- congruence.
      * rewrite (S2 _ D) in E. destruct E; discriminate.
      * destruct (S3 p) as [->|[D|Ep]].
        -- exfalso. rewrite (S2 c (anc_par _ _ _ Hp)) in E. destruct E; discriminate.
        -- exfalso. rewrite (S2 c (anc_up _ _ _ _ Hp D)) in E. destruct E; discriminate.
        -- rewrite Ep. rewrite Ec in E. eapply inv2; eauto.
    + intros y E. destruct (S3 y) as [->|[D|Ey]]; [auto|rewrite (S2 _ D) in E; discriminate|].
      rewrite Ey in E. eapply inv3; eauto.
Qed.

Lemma begin_inv w x : Inv w -> st w x = INIT \/ st w x = STANDBY -> (forall p, par T x = Some p -> st w p = RUNNING) ->
  Inv (start_self T w x).
Proof.
  intros I S P.
  assert (NP : forall p c, par T c = Some p -> c <> p).
  { intros p c H E. subst. exact (anc_irrefl _ (anc_par _ _ _ H)). }
  destruct (start_self_st w x S) as [(E & Hs & St & _)|(E & St & _)]; constructor.
  - intros p c Hp Ep. rewrite St in *. destruct (Nat.eqb_spec p x) as [->|Np].
    + destruct (Nat.eqb_spec c x) as [->|Nc]; [exfalso; eapply NP; eauto|]. eapply inv1; eauto.
    + destruct (Nat.eqb_spec c x) as [->|Nc]; [|eapply inv1; eauto].
      rewrite (P _ Hp) in Ep. destruct Ep; discriminate.
  - intros p c Hp Ep. rewrite St in *. destruct (Nat.eqb_spec c x) as [->|Nc].
    + destruct (Nat.eqb_spec p x) as [->|Np]; [exfalso; eapply NP; eauto|]. auto.
    + destruct (Nat.eqb_spec p x) as [->|Np]; [|eapply inv2; eauto].
      assert (E2 := inv2 _ I _ _ Hp Ep). congruence.
  - intros y Ey. rewrite St in Ey. destruct (Nat.eqb_spec y x) as [Eyx|]; [rewrite Eyx; auto|]. eapply inv3; eauto.
  - intros p c Hp Ep. rewrite St in *. destruct (Nat.eqb_spec p x) as [->|Np].
    + destruct Ep; discriminate.
    + destruct (Nat.eqb_spec c x) as [->|Nc]; [|eapply inv1; eauto].
      rewrite (P _ Hp) in Ep. destruct Ep; discriminate.
  - intros p c Hp Ep. rewrite St in *. destruct (Nat.eqb_spec p x) as [->|Np]; [reflexivity|].
    destruct (Nat.eqb_spec c x) as [->|Nc]; [auto|eapply inv2; eauto].
  - intros y Ey. rewrite St in Ey. destruct (Nat.eqb_spec y x); [discriminate|]. eapply inv3; eauto.
Qed.

Lemma mstep_inv g U w w' : Inv w -> mstep g U w w' -> Inv w'.
Proof. intros I [v H|x Ux S P C]; [eapply estep_inv; eauto|apply begin_inv; auto]. Qed.
Lemma mstar_inv g U w w' : star (mstep g U) w w' -> Inv w -> Inv w'.
Proof. apply star_pres. intros; eapply mstep_inv; eauto. Qed.
Lemma estar_inv g w w' : star (estep (Gd g)) w w' -> Inv w -> Inv w'.
Proof. apply star_pres. intros; eapply estep_inv; eauto. Qed.

(** Locked elements: not complete, all ancestors running. *)
Definition Lock (w : world) (b : nat) : Prop :=
  ((st w b = INIT \/ st w b = STANDBY) \/ (ty T b = ACTION /\ st w b = RUNNING)) /\
  forall p, anc T p b -> st w p = RUNNING.

Lemma lock_estep g w w' b : Inv w -> estep (Gd g) w w' -> (forall p, anc T p b -> ~ g p) ->
  (st w b = INIT \/ ~ g b) -> Lock w b -> Lock w' b /\ st w' b = st w b.
Proof.
  intros I H Ga Gb [Lb La].
  destruct (estep_cases _ _ _ H) as (_ & x & A & [G K] & C).
  assert (Nb : x <> b).
  { intros ->. destruct Lb as [Lb|[Tb Lb]].
    - destruct G as [G|[G1 G2]].
      + destruct Gb as [Gb|Gb]; [rewrite Gb in A; destruct A; discriminate|auto].
      + destruct (kids T b) as [|c l] eqn:E; [congruence|].
        assert (Hc : In c (kids T b)) by (rewrite E; left; reflexivity).
        assert (E2 := G2 c (or_introl eq_refl)). rewrite (inv1 _ I b c (kids_par _ _ Hc) Lb) in E2. discriminate.
    - destruct G as [G|[G1 G2]].
      + destruct Gb as [Gb|Gb]; [congruence|auto].
      + apply G1, (wf_action_kids T W), Tb. }
  assert (Na : ~ anc T x b).
  { intros Hx. destruct G as [G|[G1 G2]]; [exact (Ga _ Hx G)|].
    destruct (anc_top _ _ Hx) as (c & Hc & Sc). apply par_kids in Hc. assert (E := G2 _ Hc).
    destruct Sc as [->|Sc].
    - destruct Lb as [[Lb|Lb]|[_ Lb]]; congruence.
    - rewrite (La _ Sc) in E. discriminate. }
  assert (Keep : forall y, y = b \/ anc T y b -> st w' y = st w y).
  { intros y Hy. destruct C as [S|(R & L & S1 & S2 & S3)].
    - rewrite S. destruct (Nat.eqb_spec y x) as [->|]; [|reflexivity]. destruct Hy; [congruence|contradiction].
    - destruct (S3 y) as [->|[D|E]]; [destruct Hy; [congruence|contradiction]| |exact E].
      exfalso. apply Na. destruct Hy as [->|Hy]; [exact D|eapply anc_trans; eauto]. }
  split; [split|].
  - rewrite (Keep b) by auto. exact Lb.
  - intros p Hp. rewrite Keep by auto. auto.
  - apply Keep. auto.
Qed.

Lemma lock_mstep g U w w' b : Inv w -> mstep g U w w' -> (forall p, anc T p b -> ~ g p) ->
  (st w b = INIT \/ ~ g b) -> ~ U b -> Lock w b -> Lock w' b /\ st w' b = st w b.
Proof.
  intros I [v H|x Ux S P C] Ga Gb Ub L; [eapply lock_estep; eauto|].
  assert (Keep : forall y, y = b \/ anc T y b -> st (start_self T w x) y = st w y).
  { intros y Hy. assert (Ny : y <> x).
    { intros ->. destruct Hy as [->|Hy]; [auto|]. rewrite (proj2 L _ Hy) in S. destruct S; discriminate. }
    apply Nat.eqb_neq in Ny.
    destruct (start_self_st w x S) as [(E & Hs & St & _)|(E & St & _)]; rewrite St, Ny; reflexivity. }
  split; [split|].
  - rewrite (Keep b) by auto. apply L.
  - intros p Hp. rewrite Keep by auto. now apply L.
  - apply Keep. auto.
Qed.

Lemma lock_mstar g U w w' b : Inv w -> star (mstep g U) w w' -> (forall p, anc T p b -> ~ g p) ->
  (st w b = INIT \/ ~ g b) -> ~ U b -> Lock w b -> Lock w' b /\ st w' b = st w b.
Proof.
  intros I H Ga Gb Ub. revert I Gb. induction H as [|x y z H1 H2 IH]; intros I Gb L; [auto|].
  destruct (lock_mstep g U x y b I H1 Ga Gb Ub L) as [L1 E1].
  destruct (IH (mstep_inv _ _ _ _ I H1)) as [L2 E2]; auto.
  - destruct Gb; [left; congruence|now right].
  - split; [exact L2|congruence].
Qed.
Lemma lock_estar g w w' b : Inv w -> star (estep (Gd g)) w w' -> (forall p, anc T p b -> ~ g p) ->
  (st w b = INIT \/ ~ g b) -> Lock w b -> Lock w' b /\ st w' b = st w b.
Proof.
  intros I H Ga Gb L. eapply (lock_mstar g (fun _ => False)); eauto. now apply estar_mstar.
Qed.

(* ------------------------------------------------------------------ *)
(** * Every operation is a sequence of guarded steps *)

Definition Pre (g : nat -> Prop) (w : world) (x : nat) : Prop :=
  (g x /\ ty T x = ACTION) \/ (g x /\ ty T x = EVENT /\ forall c, In c (kids T x) -> g c) \/ kids_done w x.

Lemma acc_done w p x : par T x = Some p -> all_children_complete T w p = true -> kids_done w p.
Proof.
  intros Hp H. unfold all_children_complete in H. rewrite forallb_forall in H. split.
  - intros E. apply par_kids in Hp. rewrite E in Hp. destruct Hp.
  - intros c Hc. specialize (H c Hc). destruct (state_eqb_spec (st w c) COMPLETE); congruence.
Qed.

Lemma propagate_guarded g f w x w' :
  (forall w x w', Inv w -> Pre g w x -> end_ f T w x = Some w' -> star (estep (Gd g)) w w') ->
  Inv w -> propagate_parent (end_ f T) T w x = Some w' -> star (estep (Gd g)) w w'.
Proof.
  intros HE I. unfold propagate_parent, propagate.
  destruct (par T x) as [p|] eqn:Ep; [|intros H; injection H as <-; constructor].
  destruct (negb (etype_eqb (ty T p) STORY_BOARD) && negb (state_eqb (st w p) COMPLETE)); [|intros H; injection H as <-; constructor].
  destruct (all_children_complete T w p) eqn:Ea; [|intros H; injection H as <-; constructor].
  intros H. eapply HE; eauto. right. right. eapply acc_done; eauto.
Qed.

Lemma action_not_standby w x : Inv w -> ty T x = ACTION -> st w x <> STANDBY.
Proof.
  intros I E H. destruct (inv3 _ I _ H) as [[R|R]|R]; try congruence.
  rewrite (wf_action_trig T W x E) in R. discriminate.
Qed.

Lemma end_guarded g : forall f w x w', Inv w -> Pre g w x -> end_ f T w x = Some w' -> star (estep (Gd g)) w w'.
Proof.
  induction f as [|f IH]; intros w x w' I P H; simpl in H; [discriminate|].
  destruct (state_eqb_spec (st w x) COMPLETE) as [E|N]; [injection H as <-; constructor|].
  match goal with H : match ?t with _ => _ end = Some _ |- _ => destruct t as [w1|] eqn:E1; [|discriminate H] end.
  assert (S1 : star (estep (Gd g)) w w1 /\ (forall c, In c (kids T x) -> ~ active (st w1 c)) /\ (g x \/ kids_done w1 x)).
  { destruct P as [[P1 P2]|[(P1 & P2 & P3)|P]].
    - rewrite (wf_action_kids T W x P2) in *. simpl in E1. injection E1 as <-.
      split; [constructor|]. split; [intros c []|auto].
    - (* event: end the running actions *)
      assert (TA : forall c, In c (kids T x) -> ty T c = ACTION) by (intros; eapply (wf_event_kids T W); eauto).
      revert E1. clear N H. revert w I. generalize dependent (kids T x). intros l P3 TA.
      assert (Gen : forall l0, (forall c, In c l0 -> g c) -> (forall c, In c l0 -> ty T c = ACTION) ->
        forall w, Inv w ->
        iter (fun w0 c => if state_eqb (st w0 c) RUNNING then end_ f T w0 c else Some w0) l0 w = Some w1 ->
        star (estep (Gd g)) w w1 /\ (forall c, In c l0 -> ~ active (st w1 c))).
      { induction l0 as [|c r IHl]; intros Q1 Q2 w I E1; simpl in E1.
        - injection E1 as <-. split; [constructor|intros c []].
        - destruct (state_eqb_spec (st w c) RUNNING) as [Er|Nr].
          + destruct (end_ f T w c) as [w0|] eqn:E0; [|discriminate].
            assert (S0 : star (estep (Gd g)) w w0).
            { eapply IH; [exact I| |exact E0]. left. split; [apply Q1|apply Q2]; simpl; auto. }
            destruct (IHl (fun c h => Q1 c (or_intror h)) (fun c h => Q2 c (or_intror h)) w0 (estar_inv _ _ _ S0 I) E1) as [A B].
            split; [eapply star_trans; eauto|].
            intros c' [<-|Hc']; [|auto]. eapply estar_inactive; [exact A|].
            intros [D|D].
            * eapply action_not_standby; [exact (estar_inv _ _ _ S0 I)| |exact D]. apply Q2. now left.
            * eapply end_not_running; eauto.
          + destruct (IHl (fun c h => Q1 c (or_intror h)) (fun c h => Q2 c (or_intror h)) w I E1) as [A B].
            split; [exact A|].
            intros c' [<-|Hc']; [|auto]. eapply estar_inactive; [exact A|].
            intros [D|D]; [|congruence]. eapply action_not_standby; [exact I| |exact D]. apply Q2. now left. }
      intros w I E1. destruct (Gen l P3 TA w I E1). auto.
    - (* all children complete: the loop does nothing *)
      assert (Gen : forall l0, (forall c, In c l0 -> st w c = COMPLETE) ->
        iter (fun w0 c => if state_eqb (st w0 c) RUNNING then end_ f T w0 c else Some w0) l0 w = Some w).
      { induction l0 as [|c r IHl]; intros Q; simpl; [reflexivity|].
        rewrite (Q c (or_introl eq_refl)); simpl. apply IHl. intros; apply Q; simpl; auto. }
      rewrite (Gen _ (proj2 P)) in E1. injection E1 as <-.
      split; [constructor|]. split; [|auto].
      intros c Hc. rewrite (proj2 P c Hc). intros []; discriminate. }
  destruct S1 as (S1 & K1 & G1). assert (I1 := estar_inv _ _ _ S1 I).
  eapply star_trans; [exact S1|].
  destruct (state_eqb_spec (st w1 x) COMPLETE) as [E|N1]; [injection H as <-; constructor|].
  destruct (end_self _ T w1 x) as [w2|] eqn:E2; [|discriminate].
  assert (S2 : star (estep (Gd g)) w1 w2).
  { destruct (end_self_cases _ _ _ _ E2) as [[-> _]|[_ S2]]; [constructor|apply star_one, S2; split; auto]. }
  eapply star_trans; [exact S2|].
  eapply propagate_guarded; [|exact (estar_inv _ _ _ S2 I1)|exact H]. exact IH.
Qed.

Lemma kids_done_mono (g : nat -> Prop) : (forall x, False -> g x). Proof. intros x []. Qed.

Lemma stop_guarded : forall f w x w', Inv w -> stop f T w x = Some w' -> star (estep (Gd (sub T x))) w w'.
Proof.
  induction f as [|f IH]; intros w x w' I H; simpl in H; [discriminate|].
  destruct (iter (stop f T) (kids T x) w) as [w1|] eqn:E1; [|discriminate].
  assert (S1 : star (estep (Gd (sub T x))) w w1 /\ (forall c, In c (kids T x) -> ~ active (st w1 c))).
  { assert (Q : forall c, In c (kids T x) -> In c (kids T x)) by auto. revert Q E1.
    generalize (kids T x) at 1 3 4. intros l. clear H. revert w I.
    induction l as [|c r IHl]; intros w I Q E1; simpl in E1.
    - injection E1 as <-. split; [constructor|intros c []].
    - destruct (stop f T w c) as [w0|] eqn:E0; [|discriminate].
      assert (S0 : star (estep (Gd (sub T x))) w w0).
      { eapply star_mono; [|eapply IH; [exact I|exact E0]]. intros a b. apply estep_mono. intros v y [[G|G] K]; split; auto.
        left. right. eapply sub_kid; [apply Q; left; reflexivity|exact G]. }
      destruct (IHl w0 (estar_inv _ _ _ S0 I) (fun c h => Q c (or_intror h)) E1) as [A B].
      split; [eapply star_trans; eauto|].
      intros c' [<-|Hc']; [|auto]. eapply estar_inactive; [exact A|].
      eapply stop_any; [exact E0|now left]. }
  destruct S1 as (S1 & K1). assert (I1 := estar_inv _ _ _ S1 I).
  eapply star_trans; [exact S1|].
  destruct (st w1 x) eqn:Ex; try (injection H as <-; constructor).
  all: assert (A : active (st w1 x)) by (unfold active; rewrite Ex; auto).
  all: assert (S2 : estep (Gd (sub T x)) w1 (set_state (set_transition w1 x STOP_TRANSITION) x COMPLETE))
        by (apply es_complete; [exact A|split; [left; now left|exact K1]|auto|discriminate]).
  all: eapply star_step; [exact S2|].
  all: eapply propagate_guarded; [|exact (estep_inv _ _ _ I1 S2)|exact H].
  all: intros; eapply end_guarded; eauto.
Qed.

(** Starting one action. *)
Lemma start_action_guarded f E w a w' : Inv w -> ty T a = ACTION -> st w a = INIT ->
  (forall p, par T a = Some p -> st w p = RUNNING) -> (par T a = None \/ noconf w a) ->
  start_action f T E w a = Some w' -> star (mstep (eq a) (eq a) ) w w'.
Proof.
  intros I Ta Sa P C H. unfold start_action in H.
  assert (B : mstep (eq a) (eq a) w (start_self T w a)) by (apply ms_begin; auto).
  assert (IB := mstep_inv _ _ _ _ I B).
  destruct (act_start E w a).
  - injection H as <-. constructor.
  - injection H as <-. now apply star_one.
  - eapply star_step; [exact B|]. apply estar_mstar. eapply end_guarded; [exact IB| |exact H]. left. auto.
  - eapply star_step; [exact B|]. eapply mstar_mono; [|intros x h; exact h|apply estar_mstar; eapply stop_guarded; [exact IB|exact H]].
    intros x [->|A]; [reflexivity|]. exfalso. exact (anc_not_action _ _ A Ta).
Qed.

(** Ending the conflicting actions. *)
Definition isaction (x : nat) : Prop := ty T x = ACTION.

Lemma iter_end_conflicts (cond : world -> nat -> bool) f l :
  (forall b, In b l -> ty T b = ACTION) ->
  (forall w w' b, st w b = RUNNING -> st w' b = RUNNING -> cond w b = cond w' b) ->
  forall w w', Inv w ->
  iter (fun w b => if cond w b then end_ f T w b else Some w) l w = Some w' ->
  star (estep (Gd (fun b => In b l /\ exists v, cond v b = true))) w w' /\
  forall b, In b l -> st w' b = RUNNING -> cond w' b = false.
Proof.
  intros HA HC. induction l as [|c r IHl]; intros w w' I H; simpl in H.
  - injection H as <-. split; [constructor|intros b []].
  - assert (Mono : forall a b : world, star (estep (Gd (fun b0 => In b0 r /\ exists v, cond v b0 = true))) a b ->
              star (estep (Gd (fun b0 => In b0 (c :: r) /\ exists v, cond v b0 = true))) a b).
    { intros a b. apply star_mono. intros u v. apply estep_mono. intros v0 x [[[G1 G2]|G] K]; split; auto.
      left. split; [right|]; auto. }
    destruct (cond w c) eqn:Ec.
    + destruct (end_ f T w c) as [w0|] eqn:E0; [|discriminate].
      assert (S0 : star (estep (Gd (fun b0 => In b0 (c :: r) /\ exists v, cond v b0 = true))) w w0).
      { eapply end_guarded; [exact I| |exact E0]. left. split; [|apply HA; now left].
        split; [now left|eauto]. }
      assert (I0 := estar_inv _ _ _ S0 I).
      destruct (IHl (fun b h => HA b (or_intror h)) w0 w' I0 H) as [A B].
      split; [eapply star_trans; [exact S0|now apply Mono]|].
      intros b [<-|Hb] Rb; [|auto]. exfalso.
      eapply end_not_running; [exact E0|]. eapply estar_running; eauto.
    + destruct (IHl (fun b h => HA b (or_intror h)) w w' I H) as [A B].
      split; [now apply Mono|].
      intros b [<-|Hb] Rb; [|auto]. rewrite <- Ec. symmetry. apply HC; [|exact Rb].
      eapply estar_running; eauto.
Qed.

Definition conf_target (a b : nat) : Prop :=
  a_private T a = true /\ a_private T b = true /\ must_end T a b = true /\ ty T b = ACTION /\
  exists o, a_obj T a = Some o /\ (In b (init_actions T o) \/ a_obj T b = Some o).

Lemma end_conflicts_guarded f w a w' : Inv w -> st w a <> RUNNING -> end_conflicts f T w a = Some w' ->
  star (estep (Gd (conf_target a))) w w' /\ noconf w' a.
Proof.
  intros I Na H. unfold end_conflicts in H.
  destruct (a_private T a) eqn:Pa.
  2:{ injection H as <-. split; [constructor|]. intros o b P. congruence. }
  destruct (a_obj T a) as [o|] eqn:Oa.
  2:{ injection H as <-. split; [constructor|]. intros o b _ _ O. congruence. }
  destruct (iter _ (init_actions T o) w) as [w1|] eqn:E1; [|discriminate].
  assert (HA1 : forall b, In b (init_actions T o) -> ty T b = ACTION) by (intros; eapply (wf_init_actions T W); eauto).
  assert (HA2 : forall b, In b (flat_map (kids T) (obj_events T o)) -> ty T b = ACTION).
  { intros b (e & He & Hb)%in_flat_map. eapply (wf_event_kids T W); [|exact Hb]. eapply (wf_obj_events T W); eauto. }
  assert (L1 := iter_end_conflicts (fun w b => a_private T b && state_eqb (st w b) RUNNING && must_end T a b) f _ HA1).
  destruct (L1 ltac:(intros u v b Eu Ev; cbv beta; rewrite Eu, Ev; reflexivity) w w1 I E1) as [S1 K1]. clear L1.
  assert (I1 := estar_inv _ _ _ S1 I).
  assert (L2 := iter_end_conflicts (fun w b => a_private T b && negb (Nat.eqb b a) &&
     match a_obj T b, a_obj T a with Some o, Some o' => Nat.eqb o o' | _, _ => false end &&
     state_eqb (st w b) RUNNING && must_end T a b) f _ HA2).
  destruct (L2 ltac:(intros u v b Eu Ev; cbv beta; rewrite Eu, Ev; reflexivity) w1 w' I1 H) as [S2 K2]. clear L2.
  split.
  - eapply star_trans.
    + eapply star_mono; [|exact S1]. intros u v. apply estep_mono. intros v0 x [[[G1 [v1 G2]]|G] K]; split; auto.
      left. apply andb_prop in G2 as [G2 G3]. apply andb_prop in G2 as [G2 G4]. repeat split; auto.
      exists o. split; [exact Oa|now left].
    + eapply star_mono; [|exact S2]. intros u v. apply estep_mono. intros v0 x [[[G1 [v1 G2]]|G] K]; split; auto.
      left. apply andb_prop in G2 as [G2 G3]. apply andb_prop in G2 as [G2 _]. apply andb_prop in G2 as [G2 G5].
      apply andb_prop in G2 as [G2 _]. repeat split; auto.
      exists o. split; [exact Oa|]. right. rewrite Oa in G5. destruct (a_obj T x) as [o1|]; [|discriminate].
      apply Nat.eqb_eq in G5. congruence.
  - intros o' b _ Pb Oa' Ob Rb Nb Sb. rewrite Oa in Oa'. injection Oa' as <-.
    destruct Rb as [Rb|(e & He & Rb)].
    + assert (Sb1 : st w1 b = RUNNING) by (eapply estar_running; eauto).
      specialize (K1 b Rb Sb1). simpl in K1. rewrite Pb, Sb1 in K1. simpl in K1. exact K1.
    + assert (Rb' : In b (flat_map (kids T) (obj_events T o))) by (apply in_flat_map; eauto).
      specialize (K2 b Rb' Sb). simpl in K2. rewrite Pb, Sb, Oa, Ob in K2.
      apply Nat.eqb_neq in Nb. rewrite Nb, Nat.eqb_refl in K2. simpl in K2. exact K2.
Qed.

Lemma start_event_action_guarded f E w a w' : Inv w -> ty T a = ACTION -> Lock w a -> st w a = INIT ->
  start_event_action f T E w a = Some w' ->
  star (mstep (fun b => a = b \/ conf_target a b) (eq a)) w w'.
Proof.
  intros I Ta La Sa H. unfold start_event_action in H.
  destruct (end_conflicts f T w a) as [w1|] eqn:E1; [|discriminate].
  destruct (end_conflicts_guarded f w a w1 I ltac:(congruence) E1) as [S1 C1].
  assert (I1 := estar_inv _ _ _ S1 I).
  assert (L1 : Lock w1 a /\ st w1 a = st w a).
  { eapply lock_estar; [exact I|exact S1| |now left|exact La].
    intros p Hp (_ & _ & _ & Tp & _). exact (anc_not_action _ _ Hp Tp). }
  destruct L1 as [L1 Sa1].
  eapply star_trans.
  - eapply mstar_mono; [| |apply estar_mstar with (U := fun _ => False); exact S1]; [|intros x []]. auto.
  - eapply mstar_mono; [| |eapply start_action_guarded; [exact I1|exact Ta|congruence| |right; exact C1|exact H]]; auto.
    intros p Hp. apply L1. now apply anc_par.
Qed.

Definition prest (w : world) (x : nat) : Prop :=
  (st w x = INIT \/ st w x = STANDBY) /\ forall p, anc T p x -> st w p = RUNNING.

Lemma prest_par w x p : prest w x -> par T x = Some p -> st w p = RUNNING.
Proof. intros [_ H] Hp. apply H. now apply anc_par. Qed.
Lemma prest_intro w x : Inv w -> st w x = INIT \/ st w x = STANDBY -> (forall p, par T x = Some p -> st w p = RUNNING) -> prest w x.
Proof.
  intros I S P. split; [exact S|]. intros p A. inversion A as [? ? H|? q ? H A']; subst; [auto|].
  eapply inv_anc; [exact I| |exact A']. right. auto.
Qed.

(** which elements the start of event x may end directly *)
Definition gx (x b : nat) : Prop :=
  (b = x /\ kids T x = []) \/ exists a, In a (kids T x) /\ (a = b \/ conf_target a b).
Definition gow (x b : nat) : Prop :=
  exists e, e <> x /\ par T e = par T x /\ (b = e \/ In b (kids T e)) /\ prio_of T x = OVERWRITE.

Lemma begin_kids w x : Inv w -> prest w x -> st (start_self T w x) x = RUNNING ->
  forall c, In c (kids T x) -> st (start_self T w x) c = INIT /\ Lock (start_self T w x) c.
Proof.
  intros I [S P] R c Hc. apply kids_par in Hc.
  assert (Ncx : c <> x) by (intros ->; exact (anc_irrefl _ (anc_par _ _ _ Hc))).
  assert (St : forall y, y <> x -> st (start_self T w x) y = st w y).
  { intros y Ny. apply Nat.eqb_neq in Ny.
    destruct (start_self_st w x S) as [(E & Hs & St & _)|(E & St & _)]; rewrite St, Ny; reflexivity. }
  assert (Ec : st (start_self T w x) c = INIT) by (rewrite St by exact Ncx; eapply inv1; eauto).
  split; [exact Ec|]. split; [auto|].
  intros p A. inversion A as [? ? H|? q ? H A']; subst.
  - rewrite Hc in H. injection H as <-. exact R.
  - rewrite Hc in H. injection H as <-. rewrite St; [auto|]. intros ->. exact (anc_irrefl _ A').
Qed.

Lemma iter_actions_guarded x f E l : (forall a, In a l -> In a (kids T x)) -> NoDup l ->
  forall w w', ty T x = EVENT -> Inv w -> (forall a, In a l -> st w a = INIT /\ Lock w a) ->
  iter (start_event_action f T E) l w = Some w' ->
  star (mstep (gx x) (anc T x)) w w'.
Proof.
  intros Hl Nd. induction l as [|a r IHl]; intros w w' Tx I HL H; simpl in H.
  - injection H as <-. constructor.
  - destruct (start_event_action f T E w a) as [w1|] eqn:E1; [|discriminate].
    inversion Nd as [|? ? Na Nr]; subst.
    destruct (HL a (or_introl eq_refl)) as [Sa La].
    assert (Ta : ty T a = ACTION) by (eapply (wf_event_kids T W); [exact Tx|apply Hl; now left]).
    assert (S1 := start_event_action_guarded f E w a w1 I Ta La Sa E1).
    eapply star_trans.
    + eapply mstar_mono; [| |exact S1].
      * intros b Hb. right. exists a. split; [apply Hl; now left|exact Hb].
      * intros b <-. apply anc_par, kids_par, Hl. now left.
    + apply IHl; auto.
      * intros b Hb. apply Hl. now right.
      * exact (mstar_inv _ _ _ _ S1 I).
      * intros b Hb. destruct (HL b (or_intror Hb)) as [Sb Lb].
        assert (K := lock_mstar _ _ _ _ b I S1). destruct K as [K1 K2]; auto.
        -- intros p Hp [<-|(_ & _ & _ & Tp & _)]; eapply anc_not_action; eauto.
        -- intros <-. contradiction.
        -- split; [congruence|exact K1].
Qed.

Lemma event_go_guarded f E w x w' : Inv w -> ty T x = EVENT -> prest w x ->
  event_go f T E w x = Some w' ->
  mstep (gx x) (sub T x) w (start_self T w x) /\ star (mstep (gx x) (anc T x)) (start_self T w x) w'.
Proof.
  intros I Tx P H.
  assert (B : mstep (gx x) (sub T x) w (start_self T w x)).
  { apply ms_begin; [now left|apply P|intros p Hp; eapply prest_par; eauto|congruence]. }
  split; [exact B|]. assert (IB := mstep_inv _ _ _ _ I B).
  unfold event_go in H. destruct (state_eqb_spec (st (start_self T w x) x) RUNNING) as [R|N]; simpl in H.
  2:{ injection H as <-. constructor. }
  destruct (kids T x) as [|a l] eqn:Ek.
  - apply estar_mstar. eapply end_guarded; [exact IB| |exact H]. right. left.
    split; [left; auto|]. split; [exact Tx|]. rewrite Ek. intros c [].
  - change (iter (start_event_action f T E) (a :: l) (start_self T w x) = Some w') in H.
    rewrite <- Ek in H. eapply iter_actions_guarded; [| |exact Tx|exact IB| |exact H]; auto.
    + apply (wf_nodup T W).
    + apply begin_kids; auto.
Qed.

Lemma overwrite_guarded f x m w w' : Inv w -> ty T x = EVENT -> par T x = Some m -> prio_of T x = OVERWRITE ->
  iter (overwrite_one f T x) (kids T m) w = Some w' ->
  star (estep (Gd (gow x))) w w' /\ (forall e, In e (kids T m) -> e <> x -> st w' e <> RUNNING).
Proof.
  intros I Tx Hm Po.
  assert (Q : forall e, In e (kids T m) -> In e (kids T m)) by auto. revert Q.
  generalize (kids T m) at 1 3 4. intros l. revert w I.
  induction l as [|e r IHl]; intros w I Q H; simpl in H.
  - injection H as <-. split; [constructor|intros e []].
  - destruct (overwrite_one f T x w e) as [w0|] eqn:E0; [|discriminate].
    assert (S0 : star (estep (Gd (gow x))) w w0 /\ (e <> x -> st w0 e <> RUNNING)).
    { unfold overwrite_one in E0. destruct (Nat.eqb_spec e x) as [->|Ne]; simpl in E0.
      - injection E0 as <-. split; [constructor|congruence].
      - destruct (state_eqb_spec (st w e) RUNNING) as [R|Nr].
        + split; [|intros _; eapply end_not_running; eauto].
          eapply end_guarded; [exact I| |exact E0]. right. left.
          assert (He := Q e (or_introl eq_refl)). assert (Hp := kids_par _ _ He).
          split; [exists e; repeat split; auto; congruence|].
          split; [eapply (wf_event_sib T W); eauto|].
          intros c Hc. exists e. repeat split; auto; congruence.
        + injection E0 as <-. split; [constructor|auto]. }
    destruct S0 as [S0 N0]. assert (I0 := estar_inv _ _ _ S0 I).
    destruct (IHl w0 I0 (fun e h => Q e (or_intror h)) H) as [A B].
    split; [eapply star_trans; eauto|]. intros e' [<-|He] Ne; [|auto].
    intros R. apply N0; [exact Ne|]. eapply estar_running; eauto.
Qed.

Lemma overwrite_lock f x m w w' : Inv w -> ty T x = EVENT -> par T x = Some m -> prio_of T x = OVERWRITE ->
  iter (overwrite_one f T x) (kids T m) w = Some w' -> prest w x ->
  prest w' x /\ st w' x = st w x.
Proof.
  intros I Tx Hm Po H [P1 P2].
  destruct (overwrite_guarded f x m w w' I Tx Hm Po H) as [S _].
  destruct (lock_estar _ _ _ x I S) as [[L1 L2] E].
  - intros p Hp (e & Ne & Pe & [->|Hb] & _).
    + rewrite Hm in Pe. exact (sibling_not_sub m e x Pe Hm Ne (or_intror Hp)).
    + apply (anc_not_action _ _ Hp). eapply (wf_event_kids T W); [|exact Hb].
      eapply (wf_event_sib T W); [exact Tx|exact Hm|apply par_kids; congruence].
  - right. intros (e & Ne & Pe & [->|Hb] & _); [congruence|].
    assert (Te : ty T e = EVENT) by (eapply (wf_event_sib T W); [exact Tx|exact Hm|apply par_kids; congruence]).
    assert (ty T x = ACTION) by (eapply (wf_event_kids T W); eauto). congruence.
  - split; [auto|exact P2].
  - split; [split; [rewrite E; exact P1|exact L2]|exact E].
Qed.

Definition gev (x b : nat) : Prop := gx x b \/ gow x b.

Lemma start_event_guarded f E w x w' : Inv w -> ty T x = EVENT -> prest w x ->
  start_event f T E w x = Some w' -> star (mstep (gev x) (sub T x)) w w'.
Proof.
  intros I Tx P H. unfold start_event in H.
  destruct (par T x) as [m|] eqn:Hm; [|discriminate].
  assert (Go : forall v, Inv v -> prest v x -> event_go f T E v x = Some w' -> star (mstep (gev x) (sub T x)) v w').
  { intros v Iv Pv Hv. destruct (event_go_guarded f E v x w' Iv Tx Pv Hv) as [A B].
    eapply mstar_mono; [|intros y h; exact h|econstructor; [exact A|]]; [intros b Hb; now left|].
    eapply mstar_mono; [intros y h; exact h| |exact B]. intros y Hy. now right. }
  destruct (prio_of T x) eqn:Ep.
  - destruct (state_eqb (st w x) RUNNING); [injection H as <-; constructor|].
    destruct (iter (overwrite_one f T x) (kids T m) w) as [w1|] eqn:E1; [|discriminate].
    destruct (overwrite_guarded f x m w w1 I Tx Hm Ep E1) as [S _].
    destruct (overwrite_lock f x m w w1 I Tx Hm Ep E1 P) as [P1 _].
    eapply star_trans; [|apply Go; [exact (estar_inv _ _ _ S I)|exact P1|exact H]].
    eapply mstar_mono; [| |apply estar_mstar with (U := fun _ => False); exact S]; [|intros y []].
    intros b Hb. now right.
  - destruct (any_child_running T w m); [injection H as <-; constructor|auto].
  - destruct (state_eqb (st w x) RUNNING); [injection H as <-; constructor|auto].
  - injection H as <-. constructor.
Qed.

Definition EA (b : nat) : Prop := ty T b = EVENT \/ ty T b = ACTION.

Lemma gev_EA x b : ty T x = EVENT -> gev x b -> EA b.
Proof.
  intros Tx [[[-> _]|(a & Ha & [<-|(_ & _ & _ & Tb & _)])]|(e & Ne & Pe & Hb & _)]; unfold EA; auto.
  - right. eapply (wf_event_kids T W); eauto.
  - destruct (wf_event_par T W x Tx) as [m Hm].
    assert (Te : ty T e = EVENT) by (eapply (wf_event_sib T W); [exact Tx|exact Hm|apply par_kids; congruence]).
    destruct Hb as [->|Hb]; [auto|right]. eapply (wf_event_kids T W); eauto.
Qed.

Lemma init_noanc a p : In a (sb_init T) -> ~ anc T p a.
Proof.
  intros Ha A. destruct (wf_init T W a Ha) as [_ Hp]. inversion A as [? ? H|? q ? H A']; subst; congruence.
Qed.

Lemma iter_init_guarded x f E l : ty T x = STORY_BOARD -> (forall a, In a l -> In a (sb_init T)) -> NoDup l ->
  forall w w', Inv w -> (forall a, In a l -> st w a = INIT) ->
  iter (start_action f T E) l w = Some w' ->
  star (mstep isaction (fun y => In y (sb_init T))) w w'.
Proof.
  intros Tx Hl Nd. induction l as [|a r IHl]; intros w w' I HL H; simpl in H.
  - injection H as <-. constructor.
  - destruct (start_action f T E w a) as [w1|] eqn:E1; [|discriminate].
    inversion Nd as [|? ? Na Nr]; subst.
    destruct (wf_init T W a (Hl a (or_introl eq_refl))) as [Ta Pa].
    assert (S1 : star (mstep (eq a) (eq a)) w w1).
    { eapply start_action_guarded; [exact I|exact Ta|apply HL; now left| |now left|exact E1]. congruence. }
    eapply star_trans.
    + eapply mstar_mono; [| |exact S1]; intros b <-; [exact Ta|apply Hl; now left].
    + apply IHl; auto.
      * intros b Hb. apply Hl. now right.
      * exact (mstar_inv _ _ _ _ S1 I).
      * intros b Hb. assert (Sb := HL b (or_intror Hb)).
        assert (K := lock_mstar _ _ _ _ b I S1). destruct K as [K1 K2]; auto.
        -- intros p Hp. exfalso. eapply init_noanc; [|exact Hp]. apply Hl. now right.
        -- intros <-. contradiction.
        -- split; [auto|]. intros p Hp. exfalso. eapply init_noanc; [|exact Hp]. apply Hl. now right.
        -- congruence.
Qed.

Lemma start_guarded : forall f E w x w', Inv w -> ty T x <> ACTION -> prest w x ->
  (ty T x = STORY_BOARD -> forall a, In a (sb_init T) -> st w a = INIT) ->
  start f T E w x = Some w' ->
  exists w0, (ty T x = STORY_BOARD -> star (mstep isaction (fun y => In y (sb_init T))) w w0) /\
             (ty T x <> STORY_BOARD -> w0 = w) /\ star (mstep EA (sub T x)) w0 w'.
Proof.
  induction f as [|f IH]; intros E w x w' I Tx P Hi H; [discriminate|].
  destruct (etype_eqb_spec (ty T x) EVENT) as [Te|Ne].
  { cbn [start] in H. rewrite Te in H. exists w. split; [congruence|]. split; [reflexivity|].
    eapply mstar_mono; [| |eapply start_event_guarded; eauto]; [intros b; apply gev_EA, Te|auto]. }
  assert (H' : match (if etype_eqb (ty T x) STORY_BOARD then iter (start_action f T E) (sb_init T) w else Some w) with
      | None => None
      | Some w0 =>
        let w1 := start_self T w0 x in
        if state_eqb (st w1 x) RUNNING then iter (start f T E) (kids T x) w1 else Some w1
      end = Some w').
  { cbn [start] in H. destruct (ty T x); try congruence; exact H. }
  clear H. rename H' into H.
  match type of H with match ?t with _ => _ end = _ => destruct t as [w0|] eqn:E0; [|discriminate] end.
  assert (S0 : Inv w0 /\ (ty T x = STORY_BOARD -> star (mstep isaction (fun y => In y (sb_init T))) w w0) /\
             (ty T x <> STORY_BOARD -> w0 = w) /\ prest w0 x).
  { destruct (etype_eqb_spec (ty T x) STORY_BOARD) as [Ts|Ns].
    - assert (S0 := iter_init_guarded x f E (sb_init T) Ts (fun a h => h) (wf_init_nodup T W) w w0 I (Hi Ts) E0).
      split; [exact (mstar_inv _ _ _ _ S0 I)|]. split; [auto|]. split; [contradiction|].
      + destruct (lock_mstar _ _ _ _ x I S0) as [L Ex].
        * intros p Hp. apply (wf_sb_par T W) in Ts. exfalso. inversion Hp; subst; congruence.
        * right. exact Tx.
        * intros Hx. apply (wf_init T W) in Hx. destruct Hx. contradiction.
        * split; [left; apply P|]. apply P.
        * split; [rewrite Ex; apply P|]. apply L.
    - injection E0 as <-. split; [exact I|]. split; [contradiction|auto]. }
  destruct S0 as (I0 & S0 & S0' & P0). exists w0. split; [exact S0|]. split; [exact S0'|]. clear S0 S0'. cbv zeta in H.
  assert (B : mstep EA (sub T x) w0 (start_self T w0 x)).
  { apply ms_begin; [now left|apply P0|intros p Hp; eapply prest_par; eauto|congruence]. }
  eapply star_step; [exact B|]. assert (IB := mstep_inv _ _ _ _ I0 B).
  destruct (state_eqb_spec (st (start_self T w0 x) x) RUNNING) as [R|N]; [|injection H as <-; constructor].
  assert (BK := begin_kids w0 x I0 P0 R).
  revert H BK IB. generalize (start_self T w0 x). clear - IH W Tx Ne. intros w H BK I.
  assert (Q : forall e, In e (kids T x) -> In e (kids T x)) by auto.
  assert (Nd := wf_nodup T W x).
  revert w H BK I Q Nd. generalize (kids T x) at 1 2 3 5. intros l.
  induction l as [|a r IHl]; intros w H HL I Q Nd; simpl in H; [injection H as <-; constructor|].
  destruct (start f T E w a) as [w1|] eqn:E1; [|discriminate].
  inversion Nd as [|? ? Na Nr]; subst.
  destruct (HL a (or_introl eq_refl)) as [Sa La].
  assert (Ha := kids_par _ _ (Q a (or_introl eq_refl))).
  assert (Ta : ty T a <> ACTION) by (intros Ta; apply Ne; eapply (wf_action_par T W); eauto).
  assert (Tb : ty T a <> STORY_BOARD) by (intros Tb; apply (wf_sb_par T W) in Tb; congruence).
  assert (S1 : star (mstep EA (sub T a)) w w1).
  { destruct (IH E w a w1 I Ta) as (v & _ & Ev & S); [split; [auto|apply La]|congruence|exact E1|].
    rewrite (Ev Tb) in S. exact S. }
  eapply star_trans.
  - eapply mstar_mono; [intros b h; exact h| |exact S1].
    intros y Sy. right. eapply sub_kid; [apply Q; now left|exact Sy].
  - apply IHl; auto.
    + intros b Hb. destruct (HL b (or_intror Hb)) as [Sb Lb].
      assert (Pb := kids_par _ _ (Q b (or_intror Hb))).
      destruct (lock_mstar _ _ _ _ b I S1) as [K1 K2]; auto.
      * intros p Hp [Gp|Gp]; [|eapply anc_not_action; eauto].
        eapply (anc_not_event p b); eauto. intros Tb'. apply Ne. eapply (wf_action_par T W); eauto.
      * intros Sy. eapply (sibling_not_sub x a b); eauto. intros ->. contradiction.
      * split; [congruence|exact K1].
    + exact (mstar_inv _ _ _ _ S1 I).
    + intros e He. apply Q. now right.
Qed.

Definition allg : nat -> Prop := fun _ => True.

Lemma iter_guarded (R : world -> world -> Prop) (F : world -> nat -> option world) l :
  (forall a b, Inv a -> R a b -> Inv b) ->
  (forall c w w', In c l -> Inv w -> F w c = Some w' -> star R w w') ->
  forall w w', Inv w -> iter F l w = Some w' -> star R w w'.
Proof.
  intros HI. induction l as [|c r IH]; intros HF w w' I H; simpl in H.
  - injection H as <-. constructor.
  - destruct (F w c) as [w1|] eqn:E; [|discriminate].
    assert (S : star R w w1) by (eapply HF; [left; reflexivity|exact I|exact E]).
    eapply star_trans; [exact S|]. apply IH; [| |exact H].
    + intros. eapply HF; [right| |]; eauto.
    + eapply star_pres; [|exact S|exact I]. exact HI.
Qed.

Lemma eval_triggers_guarded : forall f E w x w', Inv w -> eval_triggers f T E w x = Some w' ->
  star (mstep allg (sub T x)) w w'.
Proof.
  induction f as [|f IH]; intros E w x w' I H; simpl in H; [discriminate|].
  destruct (eval_stop f T E w x) as [w1|] eqn:E1; [|discriminate].
  destruct (eval_start f T E w1 x) as [w2|] eqn:E2; [|discriminate].
  assert (S1 : star (mstep allg (sub T x)) w w1).
  { unfold eval_stop in E1. destruct (state_eqb (st w x) RUNNING && has_stop T x && fire_stop E w x); [|injection E1 as <-; constructor].
    destruct (stop f T w x) as [w3|] eqn:E3; [|discriminate].
    assert (S3 := stop_guarded _ _ _ _ I E3).
    eapply star_trans; [eapply mstar_mono; [| |apply estar_mstar with (U := fun _ => False); exact S3]|].
    - intros y _. exact Logic.I.
    - intros y [].
    - destruct (etype_eqb (ty T x) STORY_BOARD); [|injection E1 as <-; constructor].
      assert (S4 := stop_guarded _ _ _ _ (estar_inv _ _ _ S3 I) E1).
      eapply mstar_mono; [| |apply estar_mstar with (U := fun _ => False); exact S4]; [intros y _; exact Logic.I|intros y []]. }
  assert (I1 := mstar_inv _ _ _ _ S1 I).
  assert (S2 : star (mstep allg (sub T x)) w1 w2).
  { unfold eval_start in E2. destruct (state_eqb_spec (st w1 x) STANDBY) as [Sx|Nx]; simpl in E2; [|injection E2 as <-; constructor].
    destruct (negb (has_start T x) || fire_start E w1 x); [|injection E2 as <-; constructor].
    assert (Nsb : ty T x <> STORY_BOARD).
    { intros Ts. destruct (inv3 _ I1 _ Sx) as [[R|R]|R]; try congruence.
      rewrite (wf_sb_trig T W x Ts) in R. discriminate. }
    destruct (start_guarded f E w1 x w2 I1) as (v & _ & Ev & S); [| |contradiction|exact E2|].
    - intros Ta. eapply action_not_standby; eauto.
    - split; [auto|]. intros p Hp. eapply inv_anc; eauto. now left.
    - rewrite (Ev Nsb) in S. eapply mstar_mono; [| |exact S]; [intros y _; exact Logic.I|auto]. }
  eapply star_trans; [exact S1|]. eapply star_trans; [exact S2|].
  assert (I2 := mstar_inv _ _ _ _ S2 I1).
  destruct (state_eqb (st w2 x) RUNNING); [|injection H as <-; constructor].
  eapply iter_guarded; [| |exact I2|exact H].
  - intros a b. apply mstep_inv.
  - intros c v v' Hc Iv Hv. eapply mstar_mono; [intros y h; exact h| |eapply IH; [exact Iv|exact Hv]].
    intros y Hy. right. eapply sub_kid; eauto.
Qed.

Lemma step_action_guarded f E w a w' : Inv w -> ty T a = ACTION -> step_action f T E w a = Some w' ->
  star (mstep allg (fun _ => False)) w w'.
Proof.
  intros I Ta H. unfold step_action in H.
  destruct (state_eqb (st w a) RUNNING && negb (skip_action E w a)); [|injection H as <-; constructor].
  destruct (act_step E w a).
  - injection H as <-. constructor.
  - apply estar_mstar. eapply end_guarded; [exact I| |exact H]. left. split; [exact Logic.I|exact Ta].
  - eapply mstar_mono; [| |apply estar_mstar with (U := fun _ => False); eapply stop_guarded; [exact I|exact H]]; auto.
    intros y _. exact Logic.I.
Qed.

Lemma step_el_guarded : forall f E w x w', Inv w -> step_el f T E w x = Some w' ->
  star (mstep allg (fun _ => False)) w w'.
Proof.
  induction f as [|f IH]; intros E w x w' I H; cbn [step_el] in H; [discriminate|].
  assert (It : forall w0 w1, Inv w0 -> iter (step_el f T E) (kids T x) w0 = Some w1 -> star (mstep allg (fun _ => False)) w0 w1).
  { intros w0 w1 I0. apply iter_guarded; [|intros; eapply IH; eauto|exact I0]. intros a b. apply mstep_inv. }
  destruct (ty T x) eqn:Tx.
  1-5: destruct (state_eqb (st w x) RUNNING); [auto|injection H as <-; constructor].
  - eapply iter_guarded; [| |exact I|exact H].
    + intros a b. apply mstep_inv.
    + intros c v v' Hc Iv Hv. eapply step_action_guarded; [exact Iv| |exact Hv].
      eapply (wf_event_kids T W); eauto.
  - injection H as <-. constructor.
Qed.

Lemma sb_step_guarded f E r w w' : Inv w -> sb_step f T E r w = Some w' -> star (mstep allg (sub T r)) w w'.
Proof.
  intros I H. unfold sb_step in H.
  destruct (eval_triggers f T E w r) as [w1|] eqn:E1; [|discriminate].
  destruct (iter (step_action f T E) (sb_init T) w1) as [w2|] eqn:E2; [|discriminate].
  assert (S1 := eval_triggers_guarded _ _ _ _ _ I E1). assert (I1 := mstar_inv _ _ _ _ S1 I).
  assert (S2 : star (mstep allg (fun _ => False)) w1 w2).
  { eapply iter_guarded; [| |exact I1|exact E2]; [intros a b; apply mstep_inv|].
    intros c v v' Hc Iv Hv. eapply step_action_guarded; [exact Iv| |exact Hv]. eapply (wf_init T W); eauto. }
  assert (I2 := mstar_inv _ _ _ _ S2 I1).
  eapply star_trans; [exact S1|]. eapply star_trans.
  - eapply mstar_mono; [intros y h; exact h| |exact S2]. intros y [].
  - eapply mstar_mono; [intros y h; exact h| |eapply step_el_guarded; [exact I2|exact H]]. intros y [].
Qed.

Lemma run_steps_guarded f r : forall Es w w', Inv w -> run_steps f T r Es w = Some w' -> star (mstep allg (sub T r)) w w'.
Proof.
  induction Es as [|E Es IH]; intros w w' I H; simpl in H; [injection H as <-; constructor|].
  destruct (sb_step f T E r w) as [w1|] eqn:E1; [|discriminate].
  assert (S1 := sb_step_guarded _ _ _ _ _ I E1).
  eapply star_trans; [exact S1|]. apply IH; [exact (mstar_inv _ _ _ _ S1 I)|exact H].
Qed.

Lemma inv_world0 : Inv world0.
Proof. constructor; simpl; intros; auto; try discriminate. destruct H0; discriminate. Qed.

Lemma run_start_guarded f E0 r w : ty T r = STORY_BOARD -> start f T E0 world0 r = Some w ->
  exists w0, star (mstep isaction (fun y => In y (sb_init T))) world0 w0 /\ star (mstep allg (sub T r)) w0 w.
Proof.
  intros Tr H.
  destruct (start_guarded f E0 world0 r w inv_world0) as (v & S0 & _ & S); [congruence| |auto|exact H|].
  - split; [now left|]. intros p Hp. apply (wf_sb_par T W) in Tr. exfalso. inversion Hp; subst; congruence.
  - exists v. split; [auto|]. eapply mstar_mono; [| |exact S]; [intros y _; exact Logic.I|auto].
Qed.

Lemma run_guarded f r E0 Es w : ty T r = STORY_BOARD -> run f T r E0 Es = Some w ->
  exists w0, star (mstep isaction (fun y => In y (sb_init T))) world0 w0 /\ star (mstep allg (sub T r)) w0 w.
Proof.
  intros Tr H. unfold run in H. destruct (start f T E0 world0 r) as [w1|] eqn:E1; [|discriminate].
  destruct (run_start_guarded _ _ _ _ Tr E1) as (w0 & S0 & S1).
  exists w0. split; [exact S0|]. eapply star_trans; [exact S1|].
  eapply run_steps_guarded; [|exact H]. eapply mstar_inv; [exact S1|]. eapply mstar_inv; [exact S0|]. apply inv_world0.
Qed.
End Tree.
