(** Specification and proofs for the triggering-entities loops (C10). *)
From Verif Require Import QAux CondModel EntCondModel.
Local Open Scope nat_scope.

(** specification: [act] selects the entities that count, [out] is the outcome for an entity *)
Definition any_spec {A} (act out : A -> bool) (l : list A) : Prop :=
  exists e, In e l /\ act e = true /\ out e = true.
Definition all_spec {A} (act out : A -> bool) (l : list A) : Prop :=
  (exists e, In e l /\ act e = true) /\ forall e, In e l -> act e = true -> out e = true.

Lemma any_cons {A} (act out : A -> bool) a l :
  any_spec act out (a :: l) <-> (act a = true /\ out a = true) \/ any_spec act out l.
Proof.
  unfold any_spec. split.
  - intros (e & [<-|I] & H1 & H2); auto. right. exists e; auto.
  - intros [[H1 H2]|(e & I & H)]; [exists a | exists e]; cbn; auto.
Qed.

Lemma fresh_any l : forall res, fresh_loop ANY l res = true <->
  any_spec e_active e_out l \/ (res = true /\ forall e, In e l -> e_active e = false).
Proof.
  induction l as [|e l IH]; intro res; cbn [fresh_loop].
  - split; [intro; right; split; auto; intros ? []|]. intros [(e & [] & _)|[]]; auto.
  - rewrite any_cons. destruct (e_active e) eqn:A; cbn [eval_done].
    + destruct (e_out e) eqn:O.
      * split; auto.
      * rewrite IH. split.
        -- intros [H|[H _]]; auto; discriminate.
        -- intros [[[_ H]|H]|[_ H]]; auto; try discriminate. specialize (H e (or_introl eq_refl)). congruence.
    + rewrite IH. split.
      * intros [H|[H1 H2]]; auto. right. split; auto. intros e' [<-|I]; auto.
      * intros [[[H _]|H]|[H1 H2]]; auto; try discriminate. right. split; auto. intros; apply H2; right; auto.
Qed.
Lemma fresh_all l : forall res, fresh_loop ALL l res = true <->
  all_spec e_active e_out l \/ (res = true /\ forall e, In e l -> e_active e = false).
Proof.
  induction l as [|e l IH]; intro res; cbn [fresh_loop].
  - split; [intro; right; split; auto; intros ? []|]. intros [[(e & [] & _) _]|[]]; auto.
  - destruct (e_active e) eqn:A; cbn [eval_done].
    + destruct (e_out e) eqn:O; cbn [negb].
      * rewrite IH. split.
        -- intros [[_ H]|[_ H]]; left; (split; [exists e; cbn; auto|]); intros e' [<-|I]; auto.
           intro. rewrite (H _ I) in *. discriminate.
        -- intros [[_ H]|[_ H]]; [|specialize (H e (or_introl eq_refl)); congruence].
           assert (D : (exists e', In e' l /\ e_active e' = true) \/ forall e', In e' l -> e_active e' = false).
           { clear. induction l as [|a l [(x & I & H)|H]].
             - right; intros ? [].
             - left. exists x. cbn; auto.
             - destruct (e_active a) eqn:E; [left; exists a; cbn; auto|right; intros e' [<-|I]; auto]. }
           destruct D as [D|D]; [left; split; auto; intros; apply H; cbn; auto|right; auto].
      * split; [discriminate|]. intros [[_ H]|[_ H]].
        -- rewrite (H e (or_introl eq_refl) A) in O. discriminate.
        -- specialize (H e (or_introl eq_refl)). congruence.
    + rewrite IH. split.
      * intros [[(e' & I & Ae) H]|[H1 H2]].
        -- left. split; [exists e'; cbn; auto|]. intros e2 [<-|I2] A2; [congruence|auto].
        -- right. split; auto. intros e' [<-|I]; auto.
      * intros [[(e' & [<-|I] & Ae) H]|[H1 H2]].
        -- congruence.
        -- left. split; [exists e'; auto|]. intros; apply H; cbn; auto.
        -- right. split; auto. intros; apply H2; cbn; auto.
Qed.
Lemma check_fresh_any l : check_fresh ANY l = true <-> any_spec e_active e_out l.
Proof. unfold check_fresh. rewrite fresh_any. split; auto. intros [|[]]; auto; discriminate. Qed.
Lemma check_fresh_all l : check_fresh ALL l = true <-> all_spec e_active e_out l.
Proof. unfold check_fresh. rewrite fresh_all. split; auto. intros [|[]]; auto; discriminate. Qed.

(** headway / time to collision *)
Lemma defined_any l : forall res, defined_loop ANY l res = true <-> any_spec e_active e_out l \/ (l = [] /\ res = true).
Proof.
  induction l as [|e l IH]; intro res; cbn [defined_loop].
  - split; auto. intros [(e & [] & _)|[]]; auto.
  - rewrite any_cons. destruct (e_active e) eqn:A; cbn [eval_done].
    + destruct (e_out e) eqn:O.
      * split; auto.
      * rewrite IH. split; [intros [H|[_ H]]; auto; discriminate|].
        intros [[[_ H]|H]|[H _]]; auto; discriminate.
    + rewrite IH. split; [intros [H|[_ H]]; auto; discriminate|].
      intros [[[H _]|H]|[H _]]; auto; discriminate.
Qed.
Lemma check_defined_any l : check_defined ANY l = true <-> any_spec e_active e_out l.
Proof. unfold check_defined. rewrite defined_any. split; auto. intros [|[]]; auto; discriminate. Qed.
Lemma defined_all_snoc l e : forall res, defined_loop ALL (l ++ [e]) res = true <->
  e_active e = true /\ e_out e = true /\ forall e', In e' l -> e_active e' = true -> e_out e' = true.
Proof.
  induction l as [|a l IH]; intro res; cbn [app defined_loop].
  - destruct (e_active e); cbn [eval_done]; [|cbn; intuition discriminate].
    destruct (e_out e); cbn; intuition (try discriminate); contradiction.
  - destruct (e_active a) eqn:A; cbn [eval_done].
    + destruct (e_out a) eqn:O; cbn [negb].
      * rewrite IH. split; intros (H1 & H2 & H3); split; auto; split; auto.
        -- intros e' [<-|I]; auto.
        -- intros; apply H3; cbn; auto.
      * split; [discriminate|]. intros (_ & _ & H). rewrite (H a (or_introl eq_refl) A) in O. discriminate.
    + rewrite IH. split; intros (H1 & H2 & H3); split; auto; split; auto.
      -- intros e' [<-|I]; auto; congruence.
      -- intros; apply H3; cbn; auto.
Qed.

(** sticky result *)
Lemma sticky_any l : forall res, res = false -> (sticky_loop ANY l res = true <-> any_spec e_active e_out l).
Proof.
  induction l as [|e l IH]; intros res R; cbn [sticky_loop].
  - subst. split; [discriminate|]. intros (e & [] & _).
  - rewrite any_cons. destruct (e_active e) eqn:A; cbn [eval_done].
    + destruct (e_out e) eqn:O.
      * split; auto.
      * subst res. rewrite (IH _ eq_refl). split; auto. intros [[_ H]|H]; auto; discriminate.
    + rewrite (IH _ R). split; auto. intros [[H _]|H]; auto; discriminate.
Qed.
Lemma sticky_all_true l : sticky_loop ALL l true = true.
Proof. induction l as [|e l IH]; cbn; auto. destruct (e_active e), (e_out e); auto. Qed.
(** rule all: the outcome of the first active entity decides *)
Lemma sticky_all l : check_sticky ALL l = true <->
  exists l1 e l2, l = l1 ++ e :: l2 /\ (forall x, In x l1 -> e_active x = false) /\ e_active e = true /\ e_out e = true.
Proof.
  unfold check_sticky. induction l as [|e l IH]; cbn [sticky_loop].
  - split; [discriminate|]. intros ([|] & ? & ? & H & _); discriminate.
  - destruct (e_active e) eqn:A; cbn [eval_done].
    + destruct (e_out e) eqn:O; cbn [negb].
      * rewrite sticky_all_true. split; auto. intros _. exists [], e, l. cbn; intuition.
      * split; [discriminate|]. intros (l1 & x & l2 & H & Hl & Hx & Ho).
        destruct l1 as [|a l1]; injection H; intros; subst; [congruence|].
        specialize (Hl a (or_introl eq_refl)). congruence.
    + rewrite IH. split; intros (l1 & x & l2 & H & Hl & Hx).
      * exists (e :: l1), x, l2. subst. split; auto. split; auto. intros y [<-|I]; auto.
      * destruct l1 as [|a l1]; injection H; intros; subst; [destruct Hx; congruence|].
        exists l1, x, l2. split; auto. split; auto. intros; apply Hl; cbn; auto.
Qed.

(** reach position *)
Definition rp_ok (co : bool) (e : rp_ent) : bool := rp_near e && (negb co || rp_orient e).
Lemma reach_any co l : forall res, res = false -> (reach_loop co ANY l res = true <-> any_spec rp_active (rp_ok co) l).
Proof.
  induction l as [|e l IH]; intros res R; cbn [reach_loop].
  - subst. split; [discriminate|]. intros (e & [] & _).
  - rewrite any_cons. subst res. destruct (rp_active e) eqn:A; cbn [eval_done].
    + unfold rp_ok at 1. destruct (rp_near e) eqn:Nr.
      * destruct co; cbn.
        -- destruct (rp_orient e) eqn:O; [split; auto|]. rewrite (IH _ eq_refl). intuition discriminate.
        -- split; auto.
      * rewrite (IH _ eq_refl). cbn. intuition discriminate.
    + rewrite (IH _ eq_refl). intuition discriminate.
Qed.

(** durations *)
Definition du_ok (duration now : Q) (e : du_ent) : bool :=
  match du_since e with Some ts => Qltb duration (now - ts) | None => false end.
Lemma duration_any d now l : forall cur res, (cur <= d)%Q -> res = false ->
  (duration_loop ANY d now l cur res = true <-> any_spec du_active (du_ok d now) l).
Proof.
  induction l as [|e l IH]; intros cur res C R; cbn [duration_loop].
  - subst. split; [discriminate|]. intros (e & [] & _).
  - rewrite any_cons. unfold du_ok at 1. destruct (du_active e) eqn:A; cbn [eval_done].
    + destruct (du_since e) as [ts|].
      * destruct (Qltb_spec d (now - ts)).
        -- split; auto.
        -- rewrite (IH (now - ts)%Q false ltac:(lra) eq_refl). intuition discriminate.
      * destruct (Qltb_spec d cur); [exfalso; lra|]. rewrite (IH _ _ C eq_refl). intuition discriminate.
    + rewrite (IH _ _ C R). intuition discriminate.
Qed.

(** clearance *)
Definition cl_free (e : cl_ent) : bool := forallb (fun r => match r with Some true => false | _ => true end) (cl_refs e).
Definition cl_ok (e : cl_ent) : bool := cl_free e && cl_lane e.
Definition cl_checked (e : cl_ent) : bool := existsb (fun r => match r with Some _ => true | None => false end) (cl_refs e).
Lemma clear_inner_false refs : clear_inner refs false = negb (forallb (fun r => match r with Some true => false | _ => true end) refs).
Proof. induction refs as [|[[]|] l IH]; cbn; auto. Qed.
Lemma clear_inner_checked refs b : existsb (fun r => match r with Some _ => true | None => false end) refs = true ->
  clear_inner refs b = negb (forallb (fun r => match r with Some true => false | _ => true end) refs).
Proof.
  revert b. induction refs as [|[[]|] l IH]; intros b H; cbn in *; auto; try discriminate. apply clear_inner_false.
Qed.
Lemma clear_all l : forall res found, found = false -> l <> [] ->
  (clear_loop ALL l found res = true <-> forall e, In e l -> cl_ok e = true).
Proof.
  induction l as [|e l IH]; intros res found F N; [congruence|]. cbn [clear_loop]. subst found.
  rewrite clear_inner_false. fold (cl_free e).
  destruct (cl_ok e) eqn:K; unfold cl_ok in K.
  - apply andb_true_iff in K. destruct K as [K1 K2]. rewrite K1, K2. cbn.
    destruct l as [|a l]; [cbn; split; auto; intros _ x [<-|[]]; unfold cl_ok; rewrite K1; auto|].
    rewrite (IH true false eq_refl ltac:(discriminate)). split.
    + intros H x [<-|I]; auto. unfold cl_ok. rewrite K1; auto.
    + intros H x I. apply H; right; auto.
  - assert (R : (if negb (cl_free e) then false else cl_lane e) = false).
    { destruct (cl_free e); cbn in *; auto. }
    rewrite R. cbn. split; [discriminate|]. intro H. specialize (H e (or_introl eq_refl)). unfold cl_ok in H. congruence.
Qed.
Lemma clear_any l : forall res found, res = false -> (forall e, In e l -> cl_checked e = true) ->
  (clear_loop ANY l found res = true <-> exists e, In e l /\ cl_ok e = true).
Proof.
  induction l as [|e l IH]; intros res found R C; cbn [clear_loop].
  - subst. split; [discriminate|]. intros (e & [] & _).
  - rewrite (clear_inner_checked _ found (C e (or_introl eq_refl))). fold (cl_free e).
    assert (E : (if negb (cl_free e) then false else cl_lane e) = cl_ok e) by (unfold cl_ok; destruct (cl_free e); auto).
    rewrite E. cbn [eval_done]. destruct (cl_ok e) eqn:K.
    + split; auto. intros _. exists e. cbn; auto.
    + rewrite IH; auto; [|intros; apply C; cbn; auto]. split.
      * intros (x & I & H). exists x; cbn; auto.
      * intros (x & [<-|I] & H); [congruence|]. exists x; auto.
Qed.
