(** Properties C16 (packet level), C17 and C18: the delta compressed recording. *)
From Coq Require Import ZArith QArith List Bool Ascii Lia Permutation PeanoNat.
From Verif Require Import QAux DatModel DatProofs ReplayModel ReplayProofs RecModel RecProofs Rec2Proofs.
Import ListNotations.
Open Scope Z_scope.

(** ** A concrete instance used by the examples *)

Definition nan0 : bytes := repeat (z2b 255) 8.
Definition eq0 (a b : bytes) : bool := negb (bytes_eqb a nan0) && bytes_eqb a b.
Definition D0 : dops := mkOps eq0 eq0 (fun b => inject_Z (dec32 (firstn 4 b))) nan0 (fun l => l).
Definition d8 (z : Z) : bytes := enc32 z ++ enc32 0.
Definition val0 (f : fid) : bytes :=
  match kind_of (fst f) with
  | Some KNear => d8 3
  | Some KExact => concat (repeat (d8 4) 6)
  | Some (KInt _) => enc32 9
  | Some KName | Some KStr => [z2b 97]
  | Some KOnceVec => repeat (z2b 1) 16
  | Some KOnceStr => [z2b 98]
  | Some KLight => enc32 (Z.of_nat (snd f)) ++ enc32 1 ++ concat (repeat (d8 5) 6)
  | None => []
  end.
Definition obj0 (i : Z) : obj := mkO i val0 true.
Definition obj_with (i : Z) (f : fid) (v : bytes) : obj := mkO i (fun g => if fid_eqb g f then v else val0 g) true.
Definition st (t : Z) (dt : list gpk) (os : list obj) : step := mkStep (d8 t) dt os.

Lemma D0_ok : ops_ok D0.
Proof.
  split; [|split].
  - intros l. apply Permutation_refl.
  - split; intros v; reflexivity.
  - reflexivity.
Qed.

(** What replay shows, computed. *)
Definition shown (h : list step) (i : Z) (f : fid) : option (list (Q * bool) * list (Q * bytes)) :=
  match record D0 h with
  | Some ps => match load_replay D0 [] ps with
               | LOk _ r => match r_obj r i with Some t => Some (t_active t, t_field t f) | None => None end
               | _ => None
               end
  | None => None
  end.

Lemma shown_one h f k s o a q v :
  (forall D env0 h ps ts r, ops_ok D -> history_ok D h -> record D h = Some ps -> load_replay D env0 ps = LOk ts r ->
       forall k s, nth_error h k = Some s -> forall o, In o (s_objs s) -> shows_field D r o f (tq D (s_time s))) ->
  history_ok D0 h -> nth_error h k = Some s -> In o (s_objs s) -> shown h (o_id o) f = Some (a, [(q, v)]) -> sim D0 f v (o_val o f).
Proof.
  intros H HH Hk Ho E. destruct (record_load D0 [] h D0_ok HH) as (ps & ts & r & HR & HL & _).
  destruct (H D0 [] h ps ts r D0_ok HH HR HL k s Hk o Ho) as (t & w & Et & (i & ti & En & _) & Hs).
  unfold shown in E. rewrite HR, HL, Et in E. injection E as _ Ef. rewrite Ef in En.
  destruct i as [|[|i]]; [|discriminate En|discriminate En]. injection En as _ <-. exact Hs.
Qed.

(** An object that changes speed, vanishes and comes back, next to one that stays. *)
Definition h0 : list step :=
  [ st 0 [GDt (d8 1)] [obj0 1; obj0 2];
    st 1 [GDt (d8 1)] [obj_with 1 (7, O) (d8 8); obj0 2];
    st 2 [GDt (d8 1)] [obj0 2];
    st 3 [] [obj0 2; obj0 1] ].
Lemma h0_ok : history_ok D0 h0.
Proof. apply (history_check D0 h0 (st 0 [GDt (d8 1)] [obj0 1; obj0 2]) (d8 1)); try reflexivity; simpl; auto. Qed.

(** ** C18 *)

(** Every object property or deletion packet is preceded by the object id packet of its object, with no other object id
    in between, and by the time stamp packet of its step, with no other time stamp in between; all for arbitrary
    histories, also with repeated object ids. *)
Theorem C18_context : forall D h ps pre p post, record D h = Some ps -> ps = pre ++ p :: post -> is_object_packet p ->
  exists pre0 st mid1 i mid2, In st h /\ pre = pre0 ++ mkP TIMESTAMP (s_time st) :: mid1 ++ id_packet i :: mid2 /\
    no_id mid1 TIMESTAMP /\ no_id mid2 TIMESTAMP /\ no_id mid2 OBJ_ID /\
    ((exists o f, In o (s_objs st) /\ o_id o = i /\ In f fields /\ p = field_packet o f) \/
     (p = mkP OBJ_DELETED [] /\ ~ In i (map o_id (s_objs st)))).
Proof. exact record_context. Qed.
Example C18_context_ex :
  match record D0 h0 with
  | Some ps => existsb (fun p => p_id p =? 7) ps && existsb (fun p => p_id p =? OBJ_DELETED) ps
  | None => false
  end = true.
Proof. vm_compute. reflexivity. Qed.

(** The recording is one block per step and the end packet; a block is empty or starts with its time stamp and
    contains no other.  The recorder never runs into undefined behaviour. *)
Theorem C18_blocks : forall D h, exists ps bs, record D h = Some ps /\
  ps = concat bs ++ [mkP END_OF_SCENARIO (last (map s_time h) (repeat zero_byte 8))] /\
  Forall2 (fun st b => b = [] \/ exists r, b = mkP TIMESTAMP (s_time st) :: r /\ no_id r TIMESTAMP) h bs.
Proof.
  intros D h. destruct (record_shape D h) as (ps & bs & E & HS & Hp). exists ps, bs. split; auto. split; auto.
  clear E Hp. induction HS; constructor; auto. apply shape_times. auto.
Qed.
Example C18_blocks_ex :
  match record D0 (h0 ++ [st 4 [] [obj0 2; obj0 1]]) with
  | Some ps => map p_data (filter (fun p => p_id p =? TIMESTAMP) ps) = [d8 0; d8 1; d8 2; d8 3]
  | None => False
  end.
Proof. vm_compute. reflexivity. Qed.

(** An object none of whose values changed writes nothing: only the objects with a change appear in a step. *)
Theorem C18_only_changes : forall D s o, w_oid s = false -> chg D o (base D s (o_id o)) = [] ->
  exists s', write_object D (Some s) o = Some s' /\ w_out s' = w_out s.
Proof.
  intros D s o Ho Hc. destruct (write_object_ok D o s Ho) as (s' & c' & E & (Em & _) & _). exists s'. split; auto.
  rewrite Em. unfold obj_block. rewrite Hc. apply app_nil_r.
Qed.
Example C18_only_changes_ex :
  match fold_left (write_step D0) [st 0 [] [obj0 1]] (Some wst0) with
  | Some s => chg D0 (obj0 1) (base D0 s 1) = [] /\ w_oid s = false
  | None => False
  end.
Proof. vm_compute. auto. Qed.

(** ** C17 *)

(** Recording and loading succeed; at the time of every step exactly the objects alive then are active, and every field
    the recorder can follow ([tracked]) shows the value of the object or one that counts as equal to it. *)
Theorem C17_replay : forall D env0 h, ops_ok D -> history_ok D h ->
  exists ps ts r, record D h = Some ps /\ load_replay D env0 ps = LOk ts r /\
    (forall j t, r_obj r j = Some t -> t_active t <> [] /\ separated (t_active t) /\ forall f, separated (t_field t f)) /\
    forall k st, nth_error h k = Some st -> let Tk := tq D (s_time st) in
      (forall j, In j (map o_id (s_objs st)) -> shows_active r j Tk) /\
      (forall j, ~ In j (map o_id (s_objs st)) -> shows_absent r j Tk) /\
      (forall f, In f fields -> tracked D f [] h -> forall o, In o (s_objs st) -> shows_field D r o f Tk).
Proof. exact record_load. Qed.
Example C17_replay_ex : ops_ok D0 /\ history_ok D0 h0 /\
  shown h0 1 (7, O) = Some ([(0%Q, true); (inject_Z 2, false); (inject_Z 3, true)],
                            [(0%Q, d8 3); (inject_Z 1, d8 8); (inject_Z 3, d8 3)]).
Proof. split; [apply D0_ok|]. split; [apply h0_ok|]. vm_compute. reflexivity. Qed.

(** Lights, colour and road of the example can be followed. *)
Example C17_tracked_ex : tracked D0 (31, 3%nat) [] h0 /\ tracked D0 (30, O) [] h0 /\ tracked D0 (14, O) [] h0.
Proof.
  unfold h0, tracked, track_ok, st. cbn [s_objs fst kind_of].
  repeat match goal with
  | |- _ /\ _ => split
  | |- forall _, _ => intro
  | H : In _ (_ :: _) |- _ => destruct H as [<-|H]
  | H : In _ [] |- _ => destruct H
  | |- True => exact I
  | |- _ \/ _ => left
  | |- changed _ _ _ _ = true => vm_compute; reflexivity
  | |- o_dirty _ = true => reflexivity
  | |- _ <> _ => vm_compute; discriminate
  | |- _ = _ => vm_compute; reflexivity
  end.
Qed.

(** All plain fields (everything but integers, lights, outline and colour) can always be followed. *)
Theorem C17_tracked_plain : forall D f h prev,
  match kind_of (fst f) with Some KNear | Some KExact | Some KName | Some KStr => True | _ => False end -> tracked D f prev h.
Proof.
  intros D f h. induction h as [|s h IH]; intros prev H; simpl; auto. split; auto.
  intros o _. unfold track_ok. destruct (kind_of (fst f)) as [[]|]; auto; destruct H.
Qed.
Example C17_tracked_plain_ex : kind_of 13 = Some KExact /\ In (13, O) fields.
Proof. split; [reflexivity|]. right. left. reflexivity. Qed.

(** Fields compared exactly are replayed exactly when == of doubles means equal bytes. *)
Theorem C17_sim_int : forall D f i w v, kind_of (fst f) = Some (KInt i) -> sim D f w v -> w = v.
Proof.
  intros D f i w v Ek [H|(_ & k & E & H)]; auto. rewrite Ek in E. injection E as <-. cbn [changed] in H.
  apply negb_false_iff, bytes_eqb_eq in H. auto.
Qed.
Theorem C17_sim_string : forall D f w v, kind_of (fst f) = Some KStr -> sim D f w v -> w = v.
Proof.
  intros D f w v Ek [H|(_ & k & E & H)]; auto. rewrite Ek in E. injection E as <-. cbn [changed] in H.
  apply negb_false_iff, bytes_eqb_eq in H. auto.
Qed.
Theorem C17_sim_near : forall D f w v, kind_of (fst f) = Some KNear -> sim D f w v -> w = v \/ near D w v = true.
Proof.
  intros D f w v Ek [H|(_ & k & E & H)]; auto. right. rewrite Ek in E. injection E as <-. cbn [changed] in H.
  apply negb_false_iff in H. auto.
Qed.
Example C17_sim_ex : sim D0 (7, O) (d8 3) (d8 3) /\ ~ sim D0 (7, O) (d8 3) (d8 4).
Proof.
  split; [left; reflexivity|]. intros H. apply C17_sim_near in H; [|reflexivity]. destruct H as [H|H]; vm_compute in H; congruence.
Qed.

(** What the player shows when it asks for the fields at any sequence of times that contains step times
    (with the lookup of C19): the value of the step. *)
Theorem C17_queries : forall D env0 h ps ts r, ops_ok D -> history_ok D h ->
  record D h = Some ps -> load_replay D env0 ps = LOk ts r ->
  forall f, In f fields -> tracked D f [] h -> forall i t, r_obj r i = Some t -> forall qs,
  Forall (fun q => (q <= LARGE - SMALL)%Q) qs -> t_field t f <> [] ->
  exists vs, queries (t_field t f) cursor0 qs = Some (map Some vs) /\
    Forall2 (fun q w => forall k s o, nth_error h k = Some s -> In o (s_objs s) -> o_id o = i -> q = tq D (s_time s) ->
               sim D f w (o_val o f)) qs vs.
Proof.
  intros D env0 h ps ts r HD HH HR HL f Hf Htr i t Ei qs Hqs Hne.
  destruct (record_load D env0 h HD HH) as (ps' & ts' & r' & HR' & HL' & Hsep & Hst).
  rewrite HR in HR'. injection HR' as <-. rewrite HL in HL'. injection HL' as <- <-.
  destruct (Hsep i t Ei) as (_ & _ & Hs).
  destruct (queries_ok (t_field t f) (Hs f) Hne qs cursor0 (cursor0_ok _) Hqs) as (vs & E & HF).
  exists vs. split; auto. clear E Hqs. induction HF as [|q v qs' vs' Hlat HF' IH]; constructor; auto.
  intros k s o Ek Ho Eo Eq. destruct (Hst k s Ek) as (_ & _ & H3). destruct (H3 f Hf Htr o Ho) as (t' & w & Et & Hl & Hs').
  rewrite Eo, Ei in Et. injection Et as <-. subst q.
  rewrite (latest_unique _ _ _ _ (separated_ordered _ (Hs f)) Hlat Hl). exact Hs'.
Qed.
Example C17_queries_ex :
  match shown h0 1 (7, O) with
  | Some (_, l) => queries l cursor0 [inject_Z 3; inject_Z 0; inject_Z 1; inject_Z 2] = Some [Some (d8 3); Some (d8 3); Some (d8 8); Some (d8 8)]
  | None => False
  end.
Proof. vm_compute. reflexivity. Qed.

(** Down to the bytes of the file: header, packets, reading back, loading. *)
Theorem C17_file : forall D env0 h odr model git, ops_ok D -> history_ok D h -> Forall step_small h ->
  zlen odr + zlen model + zlen git + 12 < 4294967296 ->
  exists ps, record D h = Some ps /\
  exists hd rest ts r,
    fill_header (init_bytes odr model git ++ concat (map write_packet ps)) = Some (hd, rest) /\
    h_odr hd = odr /\ h_model hd = model /\
    load_replay D env0 (read_all rest) = LOk ts r /\
    forall k st, nth_error h k = Some st -> let Tk := tq D (s_time st) in
      (forall j, In j (map o_id (s_objs st)) -> shows_active r j Tk) /\
      (forall j, ~ In j (map o_id (s_objs st)) -> shows_absent r j Tk) /\
      (forall f, In f fields -> tracked D f [] h -> forall o, In o (s_objs st) -> shows_field D r o f Tk).
Proof.
  intros D env0 h odr model git HD HH HSm Hz.
  destruct (record_load D env0 h HD HH) as (ps & ts & r & HR & HL & _ & Hst). exists ps. split; auto.
  destruct (file_roundtrip odr model git ps Hz (record_fits D h ps HR HSm)) as (hd & rest & E1 & -> & E2).
  exists (mkH version_major version_minor odr model git), rest, ts, r. rewrite E2. repeat split; auto; apply (Hst k st0); auto.
Qed.
Example C17_file_ex :
  match record D0 h0 with
  | Some ps => match fill_header (init_bytes [z2b 1] [z2b 2] [] ++ concat (map write_packet ps)) with
               | Some (_, rest) => List.length (read_all rest) = List.length ps
               | None => False
               end
  | None => False
  end.
Proof. vm_compute. reflexivity. Qed.

(** Active exactly when alive: the two notions exclude each other. *)
Theorem C17_active_iff_alive : forall D env0 h ps ts r, ops_ok D -> history_ok D h ->
  record D h = Some ps -> load_replay D env0 ps = LOk ts r ->
  forall k s j, nth_error h k = Some s -> (shows_active r j (tq D (s_time s)) <-> In j (map o_id (s_objs s))).
Proof.
  intros D env0 h ps ts r HD HH HR HL k s j Ek.
  destruct (record_load D env0 h HD HH) as (ps' & ts' & r' & HR' & HL' & Hsep & Hst).
  rewrite HR in HR'. injection HR' as <-. rewrite HL in HL'. injection HL' as <- <-.
  destruct (Hst k s Ek) as (H1 & H2 & _). split; auto.
  intros (t & Et & Ht). destruct (in_dec Z.eq_dec j (map o_id (s_objs s))) as [|Hn]; auto. exfalso.
  destruct (H2 j Hn) as [H|(t' & Et' & Hf)]; [congruence|]. rewrite Et in Et'. injection Et' as <-.
  destruct (Hsep j t Et) as (_ & Hs & _). pose proof (latest_unique _ _ _ _ (separated_ordered _ Hs) Ht Hf). discriminate.
Qed.
Example C17_active_iff_alive_ex : nth_error h0 2 = Some (st 2 [GDt (d8 1)] [obj0 2]).
Proof. reflexivity. Qed.

Definition h1 : list step := [st 0 [GDt (d8 1)] [obj0 1]; st 1 [] [obj_with 1 (30, O) [z2b 99]]].
Lemma h1_ok : history_ok D0 h1.
Proof. apply (history_check D0 h1 (st 0 [GDt (d8 1)] [obj0 1]) (d8 1)); try reflexivity; simpl; auto. Qed.
Lemma h1_shown : shown h1 1 (30, O) = Some ([(0%Q, true)], [(0%Q, [z2b 98])]).
Proof. vm_compute. reflexivity. Qed.
Definition h2 : list step := [st 0 [GDt (d8 1)] [obj0 1]; st 1 [] []; st 2 [] [obj_with 1 (14, O) (enc32 4294967295)]].
Lemma h2_ok : history_ok D0 h2.
Proof. apply (history_check D0 h2 (st 0 [GDt (d8 1)] [obj0 1]) (d8 1)); try reflexivity; simpl; auto. Qed.
Lemma h2_shown : shown h2 1 (14, O) = Some ([(0%Q, true); (inject_Z 1, false); (inject_Z 2, true)], [(0%Q, enc32 9)]).
Proof. vm_compute. reflexivity. Qed.

(** Without the conditions of [tracked] the statement is false: a colour that changes is not recorded again. *)
Theorem C17_colour_change_refuted :
  ~ (forall D env0 h ps ts r, ops_ok D -> history_ok D h -> record D h = Some ps -> load_replay D env0 ps = LOk ts r ->
       forall k s, nth_error h k = Some s -> forall o, In o (s_objs s) -> shows_field D r o (30, O) (tq D (s_time s))).
Proof.
  intros H. pose proof (shown_one h1 (30, O) 1 _ _ _ _ _ H h1_ok eq_refl (or_introl eq_refl) h1_shown) as Hs.
  destruct Hs as [Hs|[Hs _]]; vm_compute in Hs; discriminate Hs.
Qed.

(** An object that comes back with a value equal to the initial value of the cache (here: no road) shows the value of
    its previous life. *)
Theorem C17_stale_value_refuted :
  ~ (forall D env0 h ps ts r, ops_ok D -> history_ok D h -> record D h = Some ps -> load_replay D env0 ps = LOk ts r ->
       forall k s, nth_error h k = Some s -> forall o, In o (s_objs s) -> shows_field D r o (14, O) (tq D (s_time s))).
Proof.
  intros H. pose proof (shown_one h2 (14, O) 2 _ _ _ _ _ H h2_ok eq_refl (or_introl eq_refl) h2_shown) as Hs.
  apply (C17_sim_int D0 (14, O) 4294967295) in Hs; [|reflexivity]. vm_compute in Hs. discriminate Hs.
Qed.

(** A name that becomes empty makes the whole recording unreadable. *)
Theorem C17_empty_name_refuted : exists h ps, record D0 h = Some ps /\ load_replay D0 [] ps = LFail /\
  forall s o f, In s h -> In o (s_objs s) -> f <> (6, O) -> o_val o f = val0 f.
Proof.
  exists [st 0 [GDt (d8 1)] [obj0 1]; st 1 [] [obj_with 1 (6, O) []]]. eexists. split; [vm_compute; reflexivity|].
  split; [vm_compute; reflexivity|].
  intros s o f [<-|[<-|[]]] [<-|[]] Hf; simpl; auto. apply fid_eqb_neq in Hf. rewrite Hf. reflexivity.
Qed.

(** A recording without any non-zero time step is refused by the reader, whatever it contains. *)
Theorem C17_no_dt_refuted : exists h ps, record D0 h = Some ps /\ load_replay D0 [] ps = LFail /\
  Forall step_ok h /\ times_ok D0 (- (2 * SMALL)) h.
Proof.
  exists [st 0 [GDt (d8 0)] [obj0 1]]. eexists. split; [vm_compute; reflexivity|]. split; [vm_compute; reflexivity|]. split.
  - constructor; [|constructor]. apply step_okb_ok. reflexivity.
  - apply times_okb_ok. reflexivity.
Qed.

(** A recording closed before the first step makes the reader use an empty list of time stamps. *)
Theorem C17_empty_refuted : forall D env0, exists ps, record D [] = Some ps /\ load_replay D env0 ps = LUB.
Proof. intros. eexists. split; reflexivity. Qed.

(** ** C16, packet level *)

(** Packets of unknown id anywhere after the first time stamp change nothing of what is loaded. *)
Theorem C16_unknown_packets : forall D env0 pre a b, Exists (fun p => p_id p = TIMESTAMP) pre -> insert_unknown a b ->
  load_replay D env0 (pre ++ b) = load_replay D env0 (pre ++ a).
Proof. exact unknown_skipped. Qed.
Example C16_unknown_packets_ex :
  unknown (mkP 77 (d8 1)) /\
  match record D0 h0 with
  | Some (p :: ps) => p_id p = TIMESTAMP /\
      match load_replay D0 [] (p :: mkP 77 (d8 1) :: ps) with LOk _ _ => True | _ => False end
  | _ => False
  end.
Proof.
  split; [split; [reflexivity|simpl; unfold OBJ_ID, TIMESTAMP, OBJ_DELETED, DT, END_OF_SCENARIO, TRAFFIC_LIGHT, ELEM_STATE_CHANGE, ENVIRONMENT; intuition discriminate]|].
  vm_compute. auto.
Qed.

(** Before the first time stamp an unknown packet is undefined behaviour (no slice to put it in). *)
Theorem C16_unknown_first_refuted : forall D env0 p ps, unknown p -> load_replay D env0 (p :: ps) = LUB.
Proof.
  intros D env0 p ps [Hk Hn]. unfold load_replay, extract. cbn [fold_left].
  assert (E : extract_one D (Some xst0) p = None).
  { unfold extract_one.
    assert (E1 : (p_id p =? TIMESTAMP) = false) by (apply Z.eqb_neq; intros E; apply Hn; rewrite E; simpl; tauto).
    assert (E2 : (p_id p =? DT) = false) by (apply Z.eqb_neq; intros E; apply Hn; rewrite E; simpl; tauto).
    assert (E3 : (p_id p =? END_OF_SCENARIO) = false) by (apply Z.eqb_neq; intros E; apply Hn; rewrite E; simpl; tauto).
    rewrite E1, E2, E3. reflexivity. }
  rewrite E, extract_none. reflexivity.
Qed.

Print Assumptions C18_context.
Print Assumptions C18_blocks.
Print Assumptions C18_only_changes.
Print Assumptions C17_replay.
Print Assumptions C17_tracked_plain.
Print Assumptions C17_sim_int.
Print Assumptions C17_sim_string.
Print Assumptions C17_sim_near.
Print Assumptions C17_queries.
Print Assumptions C17_file.
Print Assumptions C17_active_iff_alive.
Print Assumptions C17_colour_change_refuted.
Print Assumptions C17_stale_value_refuted.
Print Assumptions C17_empty_name_refuted.
Print Assumptions C17_no_dt_refuted.
Print Assumptions C17_empty_refuted.
Print Assumptions C16_unknown_packets.
Print Assumptions C16_unknown_first_refuted.
