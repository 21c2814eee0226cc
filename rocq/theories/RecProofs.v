(** Lemmas about the recorder and the rebuilt time lines. *)
From Coq Require Import ZArith QArith List Bool Ascii Lia Permutation PeanoNat.
From Verif Require Import QAux DatModel DatProofs ReplayModel ReplayProofs RecModel.
Import ListNotations.
Open Scope Z_scope.

(** ** Writer: what one call appends *)

Definition ts_packet (s : wst) : packet := mkP TIMESTAMP (w_time s).

(** [s'] is [s] with the packets [B] appended, preceded by the time stamp if it was not written yet. *)
Definition emits (s s' : wst) (B : list packet) : Prop :=
  w_out s' = w_out s ++ (match B with [] => [] | _ => (if w_ts s then [] else [ts_packet s]) ++ B end) /\
  w_ts s' = (match B with [] => w_ts s | _ => true end) /\ w_time s' = w_time s.

Lemma emits_nil s : emits s s [].
Proof. repeat split. rewrite app_nil_r. reflexivity. Qed.

Lemma emits_app s s1 s2 B1 B2 : emits s s1 B1 -> emits s1 s2 B2 -> emits s s2 (B1 ++ B2).
Proof.
  intros (O1 & T1 & M1) (O2 & T2 & M2). unfold emits, ts_packet in *.
  destruct B1 as [|b B1]; simpl in *.
  - rewrite app_nil_r in O1. rewrite O2, T2, O1, T1, M2, M1. auto.
  - rewrite O2, T2, O1, T1, M2, M1. destruct B2 as [|b2 B2].
    + rewrite !app_nil_r. auto.
    + simpl. rewrite <- !app_assoc. simpl. auto.
Qed.

(** The parts of the state a write leaves alone. *)
Definition same_rest (s s' : wst) : Prop :=
  w_cache s' = w_cache s /\ w_cur s' = w_cur s /\ w_prev s' = w_prev s /\ w_ids s' = w_ids s.

Lemma write_global_ok s pid d :
  should_write_obj_id pid = false -> pid <> END_OF_SCENARIO ->
  exists s', dwrite s pid d = Some s' /\ emits s s' [mkP pid d] /\ same_rest s s' /\ w_oid s' = w_oid s.
Proof.
  intros Hs He. unfold dwrite. cbn [write]. rewrite Hs, andb_false_r.
  apply Z.eqb_neq in He. rewrite He. change (should_write_obj_id TIMESTAMP) with false.
  change (TIMESTAMP =? END_OF_SCENARIO) with false.
  destruct s as [out ca cu ts oid tm pr ids]. unfold emits, same_rest, ts_packet.
  destruct ts, oid; simpl; (eexists; split; [reflexivity|]); simpl; repeat split; rewrite <- ?app_assoc; reflexivity.
Qed.

Lemma write_object_packet_ok s pid d :
  should_write_obj_id pid = true ->
  exists s', dwrite s pid d = Some s' /\
    emits s s' ((if w_oid s then [] else [mkP OBJ_ID (enc32 (w_cur s))]) ++ [mkP pid d]) /\
    same_rest s s' /\ w_oid s' = true.
Proof.
  intros Hs. assert (He : (pid =? END_OF_SCENARIO) = false).
  { destruct (pid =? END_OF_SCENARIO) eqn:E; auto. apply Z.eqb_eq in E. subst. discriminate. }
  unfold dwrite. cbn [write]. rewrite Hs, He.
  change (should_write_obj_id TIMESTAMP) with false. change (should_write_obj_id OBJ_ID) with true.
  change (TIMESTAMP =? END_OF_SCENARIO) with false. change (OBJ_ID =? END_OF_SCENARIO) with false.
  destruct s as [out ca cu ts oid tm pr ids]. unfold emits, same_rest, ts_packet.
  destruct ts, oid; cbn -[enc32]; (eexists; split; [reflexivity|]); cbn -[enc32]; repeat split; rewrite <- ?app_assoc; reflexivity.
Qed.

Lemma write_end_ok s d : exists s', dwrite s END_OF_SCENARIO d = Some s' /\ w_out s' = w_out s ++ [mkP END_OF_SCENARIO d].
Proof.
  unfold dwrite. cbn [write]. change (should_write_obj_id END_OF_SCENARIO) with false.
  rewrite andb_false_r. rewrite Z.eqb_refl. simpl negb. rewrite andb_false_r.
  eexists; split; reflexivity.
Qed.

(** ** Fields *)

Lemma fid_eqb_eq a b : fid_eqb a b = true <-> a = b.
Proof.
  destruct a as [a1 a2], b as [b1 b2]. unfold fid_eqb. simpl. rewrite andb_true_iff, Z.eqb_eq, Nat.eqb_eq.
  split; [intros [-> ->]; auto|inversion 1; auto].
Qed.
Lemma fid_eqb_refl a : fid_eqb a a = true.
Proof. apply fid_eqb_eq. reflexivity. Qed.
Lemma fid_eqb_neq a b : fid_eqb a b = false <-> a <> b.
Proof. split; intros H; [intros E; apply fid_eqb_eq in E; congruence|destruct (fid_eqb a b) eqn:E; auto; apply fid_eqb_eq in E; contradiction]. Qed.

Fixpoint nodupb (l : list fid) : bool :=
  match l with [] => true | a :: r => negb (existsb (fid_eqb a) r) && nodupb r end.
Lemma nodupb_ok l : nodupb l = true -> NoDup l.
Proof.
  induction l as [|a r IH]; intros H; constructor; simpl in H; apply andb_true_iff in H; destruct H as [H1 H2]; auto.
  intros Hin. apply negb_true_iff in H1. assert (existsb (fid_eqb a) r = true); [|congruence].
  apply existsb_exists. exists a. split; auto. apply fid_eqb_refl.
Qed.
Lemma fields_nodup : NoDup fields.
Proof. apply nodupb_ok. reflexivity. Qed.

Lemma fields_kind f : In f fields -> exists k, kind_of (fst f) = Some k /\ should_write_obj_id (fst f) = true.
Proof.
  intros H.
  assert (Hb : forallb (fun f => match kind_of (fst f) with Some _ => should_write_obj_id (fst f) | None => false end) fields = true)
    by reflexivity.
  rewrite forallb_forall in Hb. specialize (Hb f H).
  destruct (kind_of (fst f)) as [k|]; [|discriminate]. eauto.
Qed.

#[local] Opaque fields.

(** Which fields of an object are written, given its cached values. *)
Definition is_changed (D : dops) (o : obj) (c : fid -> bytes) (f : fid) : bool :=
  considered o f && match kind_of (fst f) with Some k => changed D k (c f) (o_val o f) | None => false end.
Definition chg (D : dops) (o : obj) (c : fid -> bytes) : list fid := filter (is_changed D o c) fields.
Definition field_packet (o : obj) (f : fid) : packet :=
  mkP (fst f) (match kind_of (fst f) with Some k => payload k (o_val o f) | None => [] end).

Definition id_packet (i : Z) : packet := mkP OBJ_ID (enc32 i).

Lemma fold_fields D o : forall l s c,
  NoDup l -> (forall f, In f l -> In f fields) -> w_cache s (w_cur s) = Some c ->
  let ch := filter (is_changed D o c) l in
  exists s' c', fold_left (write_field D o) l (Some s) = Some s' /\
    emits s s' (match ch with [] => [] | _ => (if w_oid s then [] else [id_packet (w_cur s)]) ++ map (field_packet o) ch end) /\
    w_oid s' = (match ch with [] => w_oid s | _ => true end) /\
    w_cur s' = w_cur s /\ w_prev s' = w_prev s /\ w_ids s' = w_ids s /\
    w_cache s' (w_cur s) = Some c' /\
    (forall f, c' f = if is_changed D o c f && existsb (fid_eqb f) l then o_val o f else c f) /\
    (forall j, j <> w_cur s -> w_cache s' j = w_cache s j).
Proof.
  induction l as [|f l IH]; intros s c Hnd Hin Hc ch.
  - exists s, c. subst ch. simpl. split; auto. split; [apply emits_nil|]. repeat split; auto.
    intros f. rewrite andb_false_r. reflexivity.
  - inversion Hnd as [|? ? Hnf Hnd']; subst.
    destruct (fields_kind f (Hin f (or_introl eq_refl))) as (k & Ek & Hw).
    assert (Hin' : forall g, In g l -> In g fields) by (intros g Hg; apply Hin; right; auto).
    cbn [fold_left]. unfold write_field at 2. rewrite Ek, Hc.
    assert (Eic : is_changed D o c f = considered o f && changed D k (c f) (o_val o f)).
    { unfold is_changed. rewrite Ek. reflexivity. }
    rewrite <- Eic. subst ch. cbn [filter].
    destruct (is_changed D o c f) eqn:Ech.
    + set (s1 := w_set_cache s (updz (w_cache s) (w_cur s) (Some (upd c f (o_val o f))))).
      destruct (write_object_packet_ok s1 (fst f) (payload k (o_val o f)) Hw) as (s2 & E2 & Em & (R1 & R2 & R3 & R4) & Ro).
      rewrite E2.
      assert (Hc2 : w_cache s2 (w_cur s2) = Some (upd c f (o_val o f))).
      { rewrite R1, R2. unfold s1. simpl. unfold updz. rewrite Z.eqb_refl. reflexivity. }
      destruct (IH s2 _ Hnd' Hin' Hc2) as (s3 & c3 & E3 & Em3 & O3 & C3 & P3 & I3 & Hc3 & Hf3 & Hj3).
      exists s3, c3. split; auto.
      assert (Efil : filter (is_changed D o (upd c f (o_val o f))) l = filter (is_changed D o c) l).
      { apply filter_ext_in. intros g Hg. unfold is_changed, upd.
        destruct (fid_eqb g f) eqn:Eg; auto. apply fid_eqb_eq in Eg. subst. contradiction. }
      rewrite Efil in *.
      split; [|split; [|split; [|split; [|split; [|split; [|split]]]]]].
      * assert (Em' : emits s s2 ((if w_oid s then [] else [id_packet (w_cur s)]) ++ [field_packet o f])).
        { unfold field_packet, id_packet. rewrite Ek. exact Em. }
        pose proof (emits_app _ _ _ _ _ Em' Em3) as H. rewrite Ro in H.
        destruct (filter (is_changed D o c) l) as [|g r]; simpl in *.
        -- rewrite app_nil_r in H. exact H.
        -- rewrite <- app_assoc in H. exact H.
      * destruct (filter (is_changed D o c) l); auto. congruence.
      * rewrite C3. exact R2.
      * rewrite P3. exact R3.
      * rewrite I3. exact R4.
      * rewrite R2 in Hc3. exact Hc3.
      * intros g. rewrite Hf3. unfold upd at 2. cbn [existsb].
        destruct (fid_eqb g f) eqn:Eg.
        -- apply fid_eqb_eq in Eg. subst g. rewrite Ech. cbn [orb andb].
           match goal with |- (if ?b then _ else _) = _ => destruct b; auto end.
        -- cbn [orb]. unfold is_changed, upd. rewrite Eg. reflexivity.
      * intros j Hj. rewrite Hj3 by (rewrite R2; auto). rewrite R1. unfold s1. simpl. unfold updz.
        destruct (j =? w_cur s) eqn:E; auto. apply Z.eqb_eq in E. contradiction.
    + destruct (IH s c Hnd' Hin' Hc) as (s3 & c3 & E3 & Em3 & O3 & C3 & P3 & I3 & Hc3 & Hf3 & Hj3).
      exists s3, c3. repeat (split; auto).
      intros g. rewrite Hf3. cbn [existsb]. destruct (fid_eqb g f) eqn:Eg; auto.
      apply fid_eqb_eq in Eg. subst g. rewrite Ech. reflexivity.
Qed.

(** The cached values an object is compared with. *)
Definition base (D : dops) (s : wst) (i : Z) : fid -> bytes :=
  match w_cache s i with Some c => c | None => fresh D end.

Definition obj_block (D : dops) (o : obj) (c : fid -> bytes) : list packet :=
  match chg D o c with [] => [] | _ => id_packet (o_id o) :: map (field_packet o) (chg D o c) end.

Lemma existsb_In f l : existsb (fid_eqb f) l = true <-> In f l.
Proof.
  rewrite existsb_exists. split; [intros (x & Hx & E); apply fid_eqb_eq in E; subst; auto|intros H; exists f; split; auto; apply fid_eqb_refl].
Qed.

Lemma write_object_ok D o s : w_oid s = false ->
  exists s' c', write_object D (Some s) o = Some s' /\
    emits s s' (obj_block D o (base D s (o_id o))) /\
    w_oid s' = false /\ w_prev s' = w_prev s /\ w_ids s' = set_insert (o_id o) (w_ids s) /\
    w_cache s' (o_id o) = Some c' /\
    (forall f, In f fields -> c' f = if is_changed D o (base D s (o_id o)) f then o_val o f else base D s (o_id o) f) /\
    (forall j, j <> o_id o -> w_cache s' j = w_cache s j).
Proof.
  intros Ho. unfold write_object.
  set (s1 := w_set_ids (w_set_cur s (o_id o)) (w_prev s) (set_insert (o_id o) (w_ids s))).
  set (s2 := match w_cache s1 (o_id o) with Some _ => s1 | None => _ end).
  assert (H2 : w_cache s2 (w_cur s2) = Some (base D s (o_id o)) /\ w_cur s2 = o_id o /\ w_oid s2 = false /\
               w_ts s2 = w_ts s /\ w_time s2 = w_time s /\ w_out s2 = w_out s /\
               w_prev s2 = w_prev s /\ w_ids s2 = set_insert (o_id o) (w_ids s) /\
               (forall j, j <> o_id o -> w_cache s2 j = w_cache s j)).
  { unfold s2, base. change (w_cache s1 (o_id o)) with (w_cache s (o_id o)).
    destruct (w_cache s (o_id o)) as [c|] eqn:E; simpl; repeat split; auto.
    - unfold updz. rewrite Z.eqb_refl. reflexivity.
    - intros j Hj. unfold updz. apply Z.eqb_neq in Hj. rewrite Hj. reflexivity. }
  destruct H2 as (Hc & Hcur & Hoid & Hts & Htm & Hout & Hpr & Hid & Hoth).
  destruct (fold_fields D o fields s2 _ fields_nodup (fun f H => H) Hc) as
    (s3 & c3 & E3 & Em3 & O3 & C3 & P3 & I3 & Hc3 & Hf3 & Hj3).
  rewrite E3. exists (w_set_oid s3 false), c3. split; [reflexivity|].
  split.
  - destruct Em3 as (A & B & C). unfold emits, ts_packet, obj_block, chg in *. simpl.
    rewrite Hout, Hts, Htm, Hoid, Hcur in A. rewrite Hts, Hoid in B. rewrite Htm in C.
    destruct (filter (is_changed D o (base D s (o_id o))) fields); simpl in *; auto.
  - rewrite Hcur in Hc3. simpl. repeat split; auto; try congruence.
    + intros f Hf. rewrite Hf3. apply existsb_In in Hf. rewrite Hf, andb_true_r. reflexivity.
    + intros j Hj. rewrite Hj3 by congruence. auto.
Qed.

(** Objects of one step with different ids: all are compared with the cache at the start of the step. *)
Lemma write_objects_ok D : forall objs s, w_oid s = false -> NoDup (map o_id objs) ->
  exists s', fold_left (write_object D) objs (Some s) = Some s' /\
    emits s s' (concat (map (fun o => obj_block D o (base D s (o_id o))) objs)) /\
    w_oid s' = false /\ w_prev s' = w_prev s /\
    (forall i, In i (w_ids s') <-> In i (w_ids s) \/ In i (map o_id objs)) /\
    (forall o, In o objs -> exists c', w_cache s' (o_id o) = Some c' /\
        forall f, In f fields -> c' f = if is_changed D o (base D s (o_id o)) f then o_val o f else base D s (o_id o) f) /\
    (forall j, ~ In j (map o_id objs) -> w_cache s' j = w_cache s j).
Proof.
  induction objs as [|o objs IH]; intros s Ho Hnd.
  - exists s. simpl. split; auto. split; [apply emits_nil|]. repeat split; auto; try tauto.
  - simpl in Hnd. inversion Hnd as [|? ? Hni Hnd']; subst.
    destruct (write_object_ok D o s Ho) as (s1 & c1 & E1 & Em1 & O1 & P1 & I1 & C1 & F1 & J1).
    cbn [fold_left]. rewrite E1.
    destruct (IH s1 O1 Hnd') as (s2 & E2 & Em2 & O2 & P2 & I2 & C2 & J2).
    assert (Hb : forall o', In o' objs -> base D s1 (o_id o') = base D s (o_id o')).
    { intros o' Hin. unfold base. rewrite J1; auto. intros E. apply Hni. rewrite <- E. apply in_map; auto. }
    exists s2. split; auto. split; [|split; [|split; [|split; [|split]]]]; auto.
    + cbn [map concat].
      rewrite (map_ext_in _ (fun o0 => obj_block D o0 (base D s (o_id o0)))) in Em2.
      * eapply emits_app; eauto.
      * intros o' Hin. rewrite Hb by auto. reflexivity.
    + congruence.
    + intros i. rewrite I2, I1. unfold set_insert. simpl.
      destruct (existsb (Z.eqb (o_id o)) (w_ids s)) eqn:Ex.
      * apply existsb_exists in Ex. destruct Ex as (x & Hx & E). apply Z.eqb_eq in E. subst x.
        split; [tauto|]. intros [H|[H|H]]; [tauto|subst; tauto|tauto].
      * rewrite in_app_iff. simpl. tauto.
    + intros o' [<-|Hin].
      * exists c1. split; auto. rewrite J2; auto.
      * destruct (C2 o' Hin) as (c' & E & F). exists c'. split; auto.
        intros f Hf. rewrite F by auto. rewrite Hb by auto. reflexivity.
    + intros j Hj. simpl in Hj. rewrite J2 by tauto. apply J1. intros E. apply Hj. left. auto.
Qed.

Definition del_block (i : Z) : list packet := [id_packet i; mkP OBJ_DELETED []].

Lemma memz_In i l : existsb (Z.eqb i) l = true <-> In i l.
Proof.
  rewrite existsb_exists. split; [intros (x & Hx & E); apply Z.eqb_eq in E; subst; auto|intros H; exists i; split; auto; apply Z.eqb_refl].
Qed.

Definition gone (ids : list Z) (i : Z) : bool := negb (existsb (Z.eqb i) ids).

Lemma check_deleted_ok : forall l s, w_oid s = false ->
  exists s', fold_left check_deleted l (Some s) = Some s' /\
    emits s s' (concat (map del_block (filter (gone (w_ids s)) l))) /\
    w_oid s' = false /\ w_prev s' = w_prev s /\ w_ids s' = w_ids s /\
    (forall j, w_cache s' j = if existsb (Z.eqb j) l && gone (w_ids s) j then None else w_cache s j).
Proof.
  induction l as [|i l IH]; intros s Ho.
  - exists s. simpl. split; auto. split; [apply emits_nil|]. repeat split; auto.
  - cbn [fold_left check_deleted filter]. unfold gone at 1.
    destruct (existsb (Z.eqb i) (w_ids s)) eqn:Ex; cbn [negb].
    + destruct (IH s Ho) as (s' & E & Em & O1 & P1 & I1 & C1). exists s'. split; auto. split; auto. repeat split; auto.
      intros j. rewrite C1. cbn [existsb]. destruct (j =? i) eqn:Ej; cbn [orb]; auto.
      apply Z.eqb_eq in Ej. subst. unfold gone. rewrite Ex. simpl. rewrite andb_false_r. reflexivity.
    + destruct (write_object_packet_ok (w_set_cur s i) OBJ_DELETED [] eq_refl) as (s1 & E1 & Em1 & (R1 & R2 & R3 & R4) & Ro).
      rewrite E1.
      set (s2 := w_set_oid (w_set_cache s1 (updz (w_cache s1) i None)) false).
      destruct (IH s2 eq_refl) as (s' & E & Em & O1 & P1 & I1 & C1). exists s'. split; auto.
      assert (Ei : w_ids s2 = w_ids s) by (unfold s2; simpl; rewrite R4; reflexivity).
      split; [|split; [|split; [|split]]]; auto.
      * cbn [map concat]. eapply emits_app; [|rewrite Ei in Em; exact Em].
        unfold emits, ts_packet in *. simpl in *. rewrite Ho in Em1. exact Em1.
      * rewrite P1. unfold s2. simpl. rewrite R3. reflexivity.
      * rewrite I1. auto.
      * intros j. rewrite C1, Ei. unfold s2. cbn [w_cache w_set_oid w_set_cache]. rewrite R1. simpl.
        unfold updz. cbn [existsb]. destruct (j =? i) eqn:Ej; cbn [orb andb].
        -- apply Z.eqb_eq in Ej. subst. unfold gone. rewrite Ex. simpl. destruct (existsb (Z.eqb i) l); reflexivity.
        -- reflexivity.
Qed.

Lemma globals_ok : forall gs s, 
  exists s', fold_left write_global gs (Some s) = Some s' /\ emits s s' (map gpk_packet gs) /\ same_rest s s' /\ w_oid s' = w_oid s.
Proof.
  induction gs as [|g gs IH]; intros s.
  - exists s. simpl. split; auto. split; [apply emits_nil|]. repeat split.
  - cbn [fold_left write_global].
    destruct (write_global_ok s (p_id (gpk_packet g)) (p_data (gpk_packet g))) as (s1 & E1 & Em1 & (R1 & R2 & R3 & R4) & Ro);
      [destruct g; reflexivity|destruct g; discriminate|].
    rewrite E1. destruct (IH s1) as (s2 & E2 & Em2 & (Q1 & Q2 & Q3 & Q4) & Qo). exists s2. split; auto. split; [|split].
    + assert (Eg : gpk_packet g = mkP (p_id (gpk_packet g)) (p_data (gpk_packet g))) by (destruct g; reflexivity).
      rewrite <- Eg in Em1. apply (emits_app s s1 s2 [gpk_packet g] (map gpk_packet gs)); auto.
    + repeat split; congruence.
    + congruence.
Qed.

(** ** Writer: one step and the whole recording *)

Definition winv (s : wst) : Prop :=
  w_oid s = false /\ w_ts s = false /\ NoDup (w_prev s) /\ (forall i, In i (w_prev s) <-> w_cache s i <> None).

Lemma winv0 : winv wst0.
Proof. repeat split; auto; simpl; try constructor; try tauto; intros H; congruence. Qed.

Lemma set_insert_nodup i l : NoDup l -> NoDup (set_insert i l).
Proof.
  intros H. unfold set_insert. destruct (existsb (Z.eqb i) l) eqn:E; auto.
  apply NoDup_rev in H. rewrite <- (rev_involutive (l ++ [i])). apply NoDup_rev. rewrite rev_app_distr. simpl.
  constructor; auto. rewrite <- in_rev. intros Hin. apply memz_In in Hin. congruence.
Qed.

Lemma objects_ids_nodup D : forall objs s s', fold_left (write_object D) objs (Some s) = Some s' ->
  w_oid s = false -> NoDup (w_ids s) -> NoDup (w_ids s').
Proof.
  induction objs as [|o objs IH]; intros s s' E Ho Hn; cbn [fold_left] in E.
  - injection E as <-. auto.
  - destruct (write_object_ok D o s Ho) as (s1 & c1 & E1 & _ & O1 & _ & I1 & _).
    rewrite E1 in E. eapply IH; eauto. rewrite I1. apply set_insert_nodup; auto.
Qed.

Definition step_body (D : dops) (s : wst) (st : step) : list packet :=
  map gpk_packet (s_glob st)
  ++ concat (map (fun o => obj_block D o (base D s (o_id o))) (s_objs st))
  ++ concat (map del_block (filter (gone (map o_id (s_objs st))) (ord D (w_prev s)))).
Definition step_packets (D : dops) (s : wst) (st : step) : list packet :=
  match step_body D s st with [] => [] | B => mkP TIMESTAMP (s_time st) :: B end.

Lemma gone_ext l m : (forall i, In i l <-> In i m) -> forall i, gone l i = gone m i.
Proof.
  intros H i. unfold gone. f_equal. apply eq_true_iff_eq. rewrite !memz_In. auto.
Qed.

Definition perm_ord (D : dops) : Prop := forall l, Permutation (ord D l) l.

Lemma write_step_ok D s st : perm_ord D -> winv s -> NoDup (map o_id (s_objs st)) ->
  exists s', write_step D (Some s) st = Some s' /\ winv s' /\ w_time s' = s_time st /\
    w_out s' = w_out s ++ step_packets D s st /\
    (forall i, w_cache s' i <> None <-> In i (map o_id (s_objs st))) /\
    (forall o, In o (s_objs st) -> exists c', w_cache s' (o_id o) = Some c' /\
        forall f, In f fields -> c' f = if is_changed D o (base D s (o_id o)) f then o_val o f else base D s (o_id o) f).
Proof.
  intros HP (Io & It & In_ & Ip) Hnd. unfold write_step.
  destruct (globals_ok (s_glob st) (w_set_time s (s_time st))) as (s1 & E1 & Em1 & (R1 & R2 & R3 & R4) & Ro).
  rewrite E1. unfold write_objects.
  set (s1' := w_set_ids s1 (w_prev s1) []).
  assert (Ho1 : w_oid s1' = false) by (unfold s1'; simpl; rewrite Ro; simpl; auto).
  destruct (write_objects_ok D (s_objs st) s1' Ho1 Hnd) as (s2 & E2 & Em2 & O2 & P2 & I2 & C2 & J2).
  assert (Hnd2 : NoDup (w_ids s2)) by (eapply objects_ids_nodup; eauto; simpl; constructor).
  rewrite E2.
  destruct (check_deleted_ok (ord D (w_prev s2)) s2 O2) as (s3 & E3 & Em3 & O3 & P3 & I3 & C3).
  rewrite E3. eexists. split; [reflexivity|].
  assert (Hb : forall i, base D s1' i = base D s i) by (intros i; unfold base, s1'; simpl; rewrite R1; reflexivity).
  assert (Hids : forall i, In i (w_ids s2) <-> In i (map o_id (s_objs st))).
  { intros i. rewrite I2. unfold s1'. simpl. tauto. }
  assert (Hp2 : w_prev s2 = w_prev s) by (rewrite P2; unfold s1'; simpl; rewrite R3; reflexivity).
  assert (Hcache : forall i, w_cache s3 i <> None <-> In i (map o_id (s_objs st))).
  { intros i. rewrite C3. destruct (in_dec Z.eq_dec i (map o_id (s_objs st))) as [Hin|Hnin].
    - assert (G : gone (w_ids s2) i = false).
      { unfold gone. apply negb_false_iff. apply memz_In. apply Hids. auto. }
      rewrite G, andb_false_r. apply in_map_iff in Hin. destruct Hin as (o & <- & Hin).
      destruct (C2 o Hin) as (c' & -> & _). split; [intros _; apply in_map; auto|congruence].
    - assert (G : gone (w_ids s2) i = true).
      { unfold gone. apply negb_true_iff. destruct (existsb (Z.eqb i) (w_ids s2)) eqn:E; auto.
        apply memz_In in E. apply Hids in E. contradiction. }
      rewrite G, andb_true_r. split; [|contradiction]. intros H. exfalso.
      destruct (existsb (Z.eqb i) (ord D (w_prev s2))) eqn:E; [congruence|].
      rewrite J2 in H by auto. unfold s1' in H. simpl in H. rewrite R1 in H. simpl in H.
      apply Ip in H. assert (existsb (Z.eqb i) (ord D (w_prev s2)) = true); [|congruence].
      apply memz_In. rewrite Hp2. eapply Permutation_in; [apply Permutation_sym, HP|]. auto. }
  split; [|split; [|split; [|split]]].
  - split; [|split; [|split]]; simpl; auto.
    + rewrite I3. exact Hnd2.
    + intros i. rewrite Hcache, I3. apply Hids.
  - simpl. destruct Em1 as (_ & _ & T1), Em2 as (_ & _ & T2), Em3 as (_ & _ & T3).
    rewrite T3, T2. unfold s1'. simpl. rewrite T1. reflexivity.
  - assert (Em1' : emits (w_set_time s (s_time st)) s1' (map gpk_packet (s_glob st))) by exact Em1.
    pose proof (emits_app _ _ _ _ _ Em1' (emits_app _ _ _ _ _ Em2 Em3)) as (Em & _ & _).
    cbn [w_out w_set_ts w_set_ids]. rewrite Em. f_equal. unfold step_packets.
    assert (Eb : map gpk_packet (s_glob st) ++
       concat (map (fun o => obj_block D o (base D s1' (o_id o))) (s_objs st)) ++
       concat (map del_block (filter (gone (w_ids s2)) (ord D (w_prev s2)))) = step_body D s st).
    { unfold step_body. rewrite Hp2.
      rewrite (filter_ext _ _ (gone_ext _ _ Hids)).
      rewrite (map_ext _ (fun o => obj_block D o (base D s (o_id o)))); [reflexivity|].
      intros o. rewrite Hb. reflexivity. }
    rewrite Eb. destruct (step_body D s st); auto. simpl. rewrite It. reflexivity.
  - intros i. simpl. apply Hcache.
  - intros o Hin. destruct (C2 o Hin) as (c' & E & F). exists c'. simpl. split.
    + rewrite C3. assert (G : gone (w_ids s2) (o_id o) = false).
      { unfold gone. apply negb_false_iff. apply memz_In. apply Hids. apply in_map. auto. }
      rewrite G, andb_false_r. exact E.
    + intros f Hf. rewrite F by auto. rewrite Hb. reflexivity.
Qed.

(** The same without assuming different ids: the shape of the packets. *)
Definition block_of (o : obj) (fs : list fid) : list packet :=
  match fs with [] => [] | _ => id_packet (o_id o) :: map (field_packet o) fs end.

Lemma write_objects_shape D : forall objs s, w_oid s = false ->
  exists s' fss, fold_left (write_object D) objs (Some s) = Some s' /\ List.length fss = List.length objs /\
    (forall fs f, In fs fss -> In f fs -> In f fields) /\
    emits s s' (concat (map (fun p => block_of (fst p) (snd p)) (combine objs fss))) /\
    w_oid s' = false /\ w_prev s' = w_prev s /\
    (forall i, In i (map o_id objs) -> In i (w_ids s')) /\ (forall i, In i (w_ids s) -> In i (w_ids s')).
Proof.
  induction objs as [|o objs IH]; intros s Ho.
  - exists s, []. simpl. split; auto. split; auto. split; [intros ? ? []|]. split; [apply emits_nil|]. repeat split; auto. intros i [].
  - destruct (write_object_ok D o s Ho) as (s1 & c1 & E1 & Em1 & O1 & P1 & I1 & _ & _ & _).
    destruct (IH s1 O1) as (s2 & fss & E2 & L2 & F2 & Em2 & O2 & P2 & I2 & K2).
    assert (Hin1 : forall i, i = o_id o \/ In i (w_ids s) -> In i (w_ids s1)).
    { intros i Hi. rewrite I1. unfold set_insert. destruct (existsb (Z.eqb (o_id o)) (w_ids s)) eqn:Ex.
      - destruct Hi as [->|Hi]; auto. apply memz_In. auto.
      - rewrite in_app_iff. simpl. destruct Hi as [->|Hi]; auto. }
    exists s2, (chg D o (base D s (o_id o)) :: fss). cbn [fold_left]. rewrite E1. split; auto.
    split; [simpl; congruence|]. split.
    + intros fs f [<-|Hin] Hf; [|eauto]. unfold chg in Hf. apply filter_In in Hf. tauto.
    + split; [|split; [|split; [|split]]]; auto.
      * cbn [combine map concat fst snd]. eapply emits_app; eauto.
      * congruence.
      * intros i [<-|Hi]; auto.
Qed.

(** Shape of what one step writes. *)
Definition step_shape (st : step) (b : list packet) : Prop :=
  exists fss dels, List.length fss = List.length (s_objs st) /\
    (forall fs f, In fs fss -> In f fs -> In f fields) /\
    (forall i, In i dels -> ~ In i (map o_id (s_objs st))) /\
    b = match map gpk_packet (s_glob st)
              ++ concat (map (fun p => block_of (fst p) (snd p)) (combine (s_objs st) fss))
              ++ concat (map del_block dels) with
        | [] => []
        | B => mkP TIMESTAMP (s_time st) :: B
        end.

Lemma write_step_shape D s st : w_oid s = false -> w_ts s = false ->
  exists s' b, write_step D (Some s) st = Some s' /\ w_oid s' = false /\ w_ts s' = false /\ w_time s' = s_time st /\
    step_shape st b /\ w_out s' = w_out s ++ b.
Proof.
  intros Io It. unfold write_step.
  destruct (globals_ok (s_glob st) (w_set_time s (s_time st))) as (s1 & E1 & Em1 & (R1 & R2 & R3 & R4) & Ro).
  rewrite E1. unfold write_objects.
  set (s1' := w_set_ids s1 (w_prev s1) []).
  assert (Ho1 : w_oid s1' = false) by (unfold s1'; simpl; rewrite Ro; simpl; auto).
  destruct (write_objects_shape D (s_objs st) s1' Ho1) as (s2 & fss & E2 & L2 & F2 & Em2 & O2 & P2 & I2 & K2).
  rewrite E2.
  destruct (check_deleted_ok (ord D (w_prev s2)) s2 O2) as (s3 & E3 & Em3 & O3 & P3 & I3 & C3).
  rewrite E3. eexists. eexists. split; [reflexivity|]. split; [simpl; auto|]. split; [reflexivity|]. split.
  { simpl. destruct Em1 as (_ & _ & T1), Em2 as (_ & _ & T2), Em3 as (_ & _ & T3).
    rewrite T3, T2. unfold s1'. simpl. rewrite T1. reflexivity. }
  split.
  - exists fss, (filter (gone (w_ids s2)) (ord D (w_prev s2))). split; auto. split; auto. split; [|reflexivity].
    intros i Hi Hin. apply filter_In in Hi. destruct Hi as [_ Hg]. unfold gone in Hg.
    apply negb_true_iff in Hg. apply I2, memz_In in Hin. congruence.
  - assert (Em1' : emits (w_set_time s (s_time st)) s1' (map gpk_packet (s_glob st))) by exact Em1.
    pose proof (emits_app _ _ _ _ _ Em1' (emits_app _ _ _ _ _ Em2 Em3)) as (Em & _ & _).
    cbn [w_out w_set_ts w_set_ids]. rewrite Em.
    cbn [w_out w_set_time w_ts ts_packet w_time]. unfold ts_packet. rewrite It.
    match goal with |- context [match ?B with [] => _ | _ => _ end] => destruct B end; reflexivity.
Qed.

Lemma steps_shape D : forall h s, w_oid s = false -> w_ts s = false ->
  exists s' bs, fold_left (write_step D) h (Some s) = Some s' /\ w_oid s' = false /\ w_ts s' = false /\
    Forall2 step_shape h bs /\ w_out s' = w_out s ++ concat bs /\
    w_time s' = last (map s_time h) (w_time s).
Proof.
  induction h as [|st h IH]; intros s Io It.
  - exists s, []. simpl. rewrite app_nil_r. repeat split; auto.
  - destruct (write_step_shape D s st Io It) as (s1 & b & E1 & O1 & T1 & M1 & S1 & W1).
    destruct (IH s1 O1 T1) as (s2 & bs & E2 & O2 & T2 & S2 & W2 & M2).
    exists s2, (b :: bs). cbn [fold_left]. rewrite E1. repeat split; auto.
    + rewrite W2, W1. cbn [concat]. rewrite app_assoc. reflexivity.
    + rewrite M2, M1. cbn [map]. destruct h as [|st' h']; [reflexivity|].
      change (last (s_time st :: map s_time (st' :: h')) (w_time s)) with (last (map s_time (st' :: h')) (w_time s)).
      assert (HL : forall (l : list bytes) x d e, last (x :: l) d = last (x :: l) e).
      { induction l as [|y l IHl]; intros x d e; auto. change (last (y :: l) d = last (y :: l) e). apply IHl. }
      apply HL.
Qed.

Lemma record_shape D h : exists ps bs, record D h = Some ps /\ Forall2 step_shape h bs /\
  ps = concat bs ++ [mkP END_OF_SCENARIO (last (map s_time h) (repeat zero_byte 8))].
Proof.
  destruct (steps_shape D h wst0 eq_refl eq_refl) as (s & bs & E & _ & _ & S & W & M).
  unfold record. rewrite E. destruct (write_end_ok s (w_time s)) as (s' & -> & ->).
  exists (w_out s ++ [mkP END_OF_SCENARIO (w_time s)]), bs. rewrite W, M. auto.
Qed.

(** ** The context of an object packet *)

Definition is_object_packet (p : packet) : Prop := p_id p = OBJ_DELETED \/ kind_of (p_id p) <> None.
Definition no_id (l : list packet) (i : Z) : Prop := Forall (fun p => p_id p <> i) l.

Lemma split_app {A} (l1 l2 pre : list A) p post : l1 ++ l2 = pre ++ p :: post ->
  (exists post', l1 = pre ++ p :: post') \/ (exists pre', pre = l1 ++ pre' /\ l2 = pre' ++ p :: post).
Proof.
  revert pre. induction l1 as [|a l1 IH]; intros pre E.
  - right. exists pre. auto.
  - destruct pre as [|b pre]; simpl in E.
    + injection E as -> _. left. exists l1. reflexivity.
    + injection E as <- E. destruct (IH _ E) as [(post' & ->)|(pre' & -> & ->)].
      * left. exists post'. reflexivity.
      * right. exists pre'. auto.
Qed.

Lemma split_concat {A} : forall (ls : list (list A)) pre p post, concat ls = pre ++ p :: post ->
  exists ls1 l ls2 pre' post', ls = ls1 ++ l :: ls2 /\ l = pre' ++ p :: post' /\ pre = concat ls1 ++ pre'.
Proof.
  induction ls as [|l ls IH]; intros pre p post E.
  - destruct pre; discriminate.
  - cbn [concat] in E. destruct (split_app _ _ _ _ _ E) as [(post' & ->)|(pre' & -> & E2)].
    + exists [], (pre ++ p :: post'), ls, pre, post'. auto.
    + destruct (IH _ _ _ E2) as (ls1 & l' & ls2 & pre2 & post2 & -> & -> & ->).
      exists (l :: ls1), (pre2 ++ p :: post2), ls2, pre2, post2. simpl. rewrite app_assoc. auto.
Qed.

Lemma Forall2_mid {A B} (R : A -> B -> Prop) h b1 b b2 : Forall2 R h (b1 ++ b :: b2) ->
  exists h1 a h2, h = h1 ++ a :: h2 /\ R a b.
Proof.
  intros H. apply Forall2_app_inv_r in H. destruct H as (h1 & h2 & _ & H2 & ->).
  inversion H2 as [|a ? h2' ? Hab _]; subst. eauto.
Qed.

Lemma field_packet_id o f : p_id (field_packet o f) = fst f.
Proof. reflexivity. Qed.

Lemma fields_ids f : In f fields -> fst f <> TIMESTAMP /\ fst f <> OBJ_ID /\ fst f <> OBJ_DELETED.
Proof.
  intros H.
  assert (Hb : forallb (fun f => negb (fst f =? TIMESTAMP) && negb (fst f =? OBJ_ID) && negb (fst f =? OBJ_DELETED)) fields = true)
    by reflexivity.
  rewrite forallb_forall in Hb. specialize (Hb f H). rewrite !andb_true_iff, !negb_true_iff, !Z.eqb_neq in Hb. tauto.
Qed.

Lemma no_ts_globs gs : no_id (map gpk_packet gs) TIMESTAMP.
Proof. apply Forall_forall. intros p Hp. apply in_map_iff in Hp. destruct Hp as (g & <- & _). destruct g; discriminate. Qed.

Lemma no_ts_block o fs : (forall f, In f fs -> In f fields) -> no_id (block_of o fs) TIMESTAMP.
Proof.
  intros H. unfold block_of. destruct fs as [|f fs]; [constructor|].
  constructor; [discriminate|]. apply Forall_forall. intros p Hp. apply in_map_iff in Hp.
  destruct Hp as (g & <- & Hg). rewrite field_packet_id. apply fields_ids. auto.
Qed.

Lemma no_id_concat ls i : Forall (fun l => no_id l i) ls -> no_id (concat ls) i.
Proof. induction 1; simpl; [constructor|]. apply Forall_app. auto. Qed.

Lemma no_ts_dels ds : no_id (concat (map del_block ds)) TIMESTAMP.
Proof. apply no_id_concat. apply Forall_forall. intros l Hl. apply in_map_iff in Hl. destruct Hl as (i & <- & _). repeat constructor; discriminate. Qed.

Lemma no_ts_blocks objs fss : (forall fs f, In fs fss -> In f fs -> In f fields) ->
  no_id (concat (map (fun p => block_of (fst p) (snd p)) (combine objs fss))) TIMESTAMP.
Proof.
  intros H. apply no_id_concat. apply Forall_forall. intros l Hl. apply in_map_iff in Hl.
  destruct Hl as ([o fs] & <- & Hin). apply no_ts_block. intros f Hf. apply (H fs); auto. eapply in_combine_r; eauto.
Qed.

(** The packets before an object packet, in one step. *)
Lemma shape_context st b pre p post : step_shape st b -> b = pre ++ p :: post -> is_object_packet p ->
  exists mid1 i mid2, pre = mkP TIMESTAMP (s_time st) :: mid1 ++ id_packet i :: mid2 /\
    no_id mid1 TIMESTAMP /\ no_id mid2 TIMESTAMP /\ no_id mid2 OBJ_ID /\
    ((exists o f, In o (s_objs st) /\ o_id o = i /\ In f fields /\ p = field_packet o f) \/
     (p = mkP OBJ_DELETED [] /\ ~ In i (map o_id (s_objs st)))).
Proof.
  intros (fss & dels & L & F & Hd & ->) E Hp.
  destruct (_ ++ _ ++ _) as [|b0 B] eqn:EB in E; [destruct pre; discriminate|]. rewrite <- EB in E. clear EB b0 B.
  destruct pre as [|p0 pre]; [injection E as <- _; destruct Hp as [Hp|Hp]; [discriminate|simpl in Hp; congruence]|].
  injection E as <- E.
  destruct (split_app _ _ _ _ _ E) as [(post' & E1)|(pre1 & -> & E1)].
  { exfalso. assert (Hin : In p (map gpk_packet (s_glob st))) by (rewrite E1; apply in_or_app; right; left; auto).
    apply in_map_iff in Hin. destruct Hin as (g & <- & _). destruct Hp as [Hp|Hp]; destruct g; simpl in Hp; try discriminate; congruence. }
  destruct (split_app _ _ _ _ _ E1) as [(post' & E2)|(pre2 & -> & E2)].
  - destruct (split_concat _ _ _ _ E2) as (ls1 & l & ls2 & pre' & post'' & El & El' & ->).
    assert (Hin : In l (map (fun p => block_of (fst p) (snd p)) (combine (s_objs st) fss))).
    { rewrite El. apply in_or_app. right. left. auto. }
    apply in_map_iff in Hin. destruct Hin as ([o fs] & Hl & Hin). simpl in Hl.
    assert (Hfs : forall f, In f fs -> In f fields) by (intros f Hf; apply (F fs); auto; eapply in_combine_r; eauto).
    unfold block_of in Hl. destruct fs as [|f0 fs]; [subst l; destruct pre'; discriminate|].
    rewrite <- Hl in El'. destruct pre' as [|q pre'].
    { injection El' as <- _. destruct Hp as [Hp|Hp]; [discriminate|simpl in Hp; congruence]. }
    injection El' as <- Ef.
    assert (Hpre : forall q, In q pre' \/ q = p -> exists f, In f fields /\ q = field_packet o f).
    { intros q Hq. assert (Hq' : In q (map (field_packet o) (f0 :: fs))).
      { cbn [map]. rewrite Ef. apply in_or_app. destruct Hq as [Hq|<-]; [left; auto|right; left; auto]. }
      apply in_map_iff in Hq'. destruct Hq' as (f & <- & Hf). exists f. auto. }
    exists (map gpk_packet (s_glob st) ++ concat ls1), (o_id o), pre'. split; [|split; [|split; [|split]]].
    + rewrite <- app_assoc. reflexivity.
    + apply Forall_app. split; [apply no_ts_globs|].
      pose proof (no_ts_blocks (s_objs st) fss F) as Hn. rewrite El, concat_app in Hn. apply Forall_app in Hn. tauto.
    + apply Forall_forall. intros q Hq. destruct (Hpre q (or_introl Hq)) as (f & Hf & ->). rewrite field_packet_id. apply fields_ids; auto.
    + apply Forall_forall. intros q Hq. destruct (Hpre q (or_introl Hq)) as (f & Hf & ->). rewrite field_packet_id. apply fields_ids; auto.
    + left. destruct (Hpre p (or_intror eq_refl)) as (f & Hf & ->). exists o, f. repeat split; auto.
      eapply in_combine_l; eauto.
  - destruct (split_concat _ _ _ _ E2) as (ls1 & l & ls2 & pre' & post'' & El & El' & ->).
    assert (Hin : In l (map del_block dels)) by (rewrite El; apply in_or_app; right; left; auto).
    apply in_map_iff in Hin. destruct Hin as (i & Hl & Hin). rewrite <- Hl in El'. unfold del_block in El'.
    destruct pre' as [|q pre'].
    { injection El' as <- _. destruct Hp as [Hp|Hp]; [discriminate|simpl in Hp; congruence]. }
    injection El' as <- Ep. destruct pre' as [|q' pre']; [|injection Ep as _ Ep; destruct pre'; discriminate].
    injection Ep as <- _.
    exists (map gpk_packet (s_glob st) ++ concat (map (fun p => block_of (fst p) (snd p)) (combine (s_objs st) fss)) ++ concat ls1), i, [].
    split; [|split; [|split; [|split]]].
    + rewrite <- !app_assoc. reflexivity.
    + apply Forall_app. split; [apply no_ts_globs|]. apply Forall_app. split; [apply no_ts_blocks; auto|].
      pose proof (no_ts_dels dels) as Hn. rewrite El, concat_app in Hn. apply Forall_app in Hn. tauto.
    + constructor.
    + constructor.
    + right. auto.
Qed.

Lemma record_context D h ps pre p post : record D h = Some ps -> ps = pre ++ p :: post -> is_object_packet p ->
  exists pre0 st mid1 i mid2, In st h /\ pre = pre0 ++ mkP TIMESTAMP (s_time st) :: mid1 ++ id_packet i :: mid2 /\
    no_id mid1 TIMESTAMP /\ no_id mid2 TIMESTAMP /\ no_id mid2 OBJ_ID /\
    ((exists o f, In o (s_objs st) /\ o_id o = i /\ In f fields /\ p = field_packet o f) \/
     (p = mkP OBJ_DELETED [] /\ ~ In i (map o_id (s_objs st)))).
Proof.
  intros HR E Hp. destruct (record_shape D h) as (ps' & bs & HR' & HS & E').
  rewrite HR in HR'. injection HR' as <-. rewrite E' in E. clear E'.
  destruct (split_app _ _ _ _ _ E) as [(post' & E1)|(pre' & -> & E1)].
  - destruct (split_concat _ _ _ _ E1) as (ls1 & l & ls2 & pre' & post2 & -> & El & ->).
    destruct (Forall2_mid _ _ _ _ _ HS) as (h1 & st & h2 & -> & Hst).
    destruct (shape_context _ _ _ _ _ Hst El Hp) as (m1 & i & m2 & -> & H).
    exists (concat ls1), st, m1, i, m2. split; [apply in_or_app; right; left; auto|]. split; auto.
  - exfalso. destruct pre' as [|q pre']; [|injection E1 as _ E1; destruct pre'; discriminate].
    injection E1 as <- _. destruct Hp as [Hp|Hp]; [discriminate|simpl in Hp; congruence].
Qed.

(** At most one time stamp per step, and it comes first. *)
Lemma shape_times st b : step_shape st b -> b = [] \/ exists r, b = mkP TIMESTAMP (s_time st) :: r /\ no_id r TIMESTAMP.
Proof.
  intros (fss & dels & L & F & Hd & ->).
  match goal with |- context [match ?B with [] => _ | _ => _ end] => destruct B eqn:EB end; [left; auto|].
  right. rewrite <- EB. eexists. split; [reflexivity|].
  apply Forall_app. split; [apply no_ts_globs|]. apply Forall_app. split; [apply no_ts_blocks; auto|apply no_ts_dels].
Qed.
