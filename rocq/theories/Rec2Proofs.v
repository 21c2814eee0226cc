(** The reader applied to what the recorder wrote. *)
From Coq Require Import ZArith QArith Qabs List Bool Ascii Lia Permutation PeanoNat Lqa.
From Verif Require Import QAux DatModel DatProofs ReplayModel ReplayProofs RecModel RecProofs.
Import ListNotations.
Open Scope Z_scope.

(** ** What the reader does to one object *)

(** An OBJ_ID packet at time [now]. *)
Definition touch (now : Q) (x : option otl) : otl :=
  match x with
  | None => mkT (if Qltb 0 now then [(0%Q, false); (now, true)] else [(now, true)]) (fun _ => [])
  | Some t => if last_active (t_active t) then t else mkT (t_active t ++ [(now, true)]) (t_field t)
  end.
Definition app_field (now : Q) (t : otl) (f : fid) (v : bytes) : otl :=
  mkT (t_active t) (fun g => if fid_eqb g f then t_field t g ++ [(now, v)] else t_field t g).
Definition deactivate (now : Q) (t : otl) : otl := mkT (t_active t ++ [(now, false)]) (t_field t).

(** Values the format can hold. *)
Definition wf_val (f : fid) (v : bytes) : Prop :=
  match kind_of (fst f) with
  | Some KNear => List.length v = 8%nat
  | Some KExact => List.length v = 48%nat
  | Some (KInt _) => List.length v = 4%nat
  | Some KName | Some KStr => v <> [] /\ zlen v < 4294967296
  | Some KOnceStr => zlen v < 4294967296
  | Some KOnceVec => (List.length v mod 16 = 0)%nat
  | Some KLight => List.length v = 56%nat /\ int_of (firstn 4 v) = Z.of_nat (snd f)
  | None => True
  end.
Definition id_ok (i : Z) : Prop := 0 <= i < 2147483648.

Lemma read_scalars1 n v : List.length v = n -> read_scalars [n] v = v.
Proof.
  intros <-. unfold read_scalars. cbn [read_fields combine map snd concat]. rewrite Nat.leb_refl. simpl.
  rewrite firstn_all. apply app_nil_r.
Qed.

Lemma split_n (A : Type) (l : list A) n m : List.length l = (n + m)%nat ->
  exists a b, l = a ++ b /\ List.length a = n /\ List.length b = m.
Proof.
  intros H. exists (firstn n l), (skipn n l). rewrite firstn_skipn, firstn_length, skipn_length. split; auto. lia.
Qed.

Lemma read_scalars6 v : List.length v = 48%nat -> read_scalars (repeat 8%nat 6) v = v.
Proof.
  intros H.
  destruct (split_n _ v 8 40 H) as (a & r1 & -> & La & L1).
  destruct (split_n _ r1 8 32 L1) as (b & r2 & -> & Lb & L2).
  destruct (split_n _ r2 8 24 L2) as (c & r3 & -> & Lc & L3).
  destruct (split_n _ r3 8 16 L3) as (d & r4 & -> & Ld & L4).
  destruct (split_n _ r4 8 8 L4) as (e & f & -> & Le & Lf).
  unfold read_scalars.
  pose proof (read_fields_ok [a; b; c; d; e; f] []) as HF.
  assert (Em : map (@List.length byte) [a; b; c; d; e; f] = repeat 8%nat 6).
  { cbn [map repeat]. rewrite La, Lb, Lc, Ld, Le, Lf. reflexivity. }
  rewrite Em in HF. cbn [concat] in HF. rewrite !app_nil_r in HF.
  rewrite HF. cbn [repeat combine map snd concat]. rewrite app_nil_r. reflexivity.
Qed.

Lemma chunks_concat n : forall k d, List.length d = (k * n)%nat -> concat (chunks k n d) = d.
Proof.
  induction k as [|k IH]; intros d H; simpl.
  - destruct d; [auto|discriminate].
  - rewrite IH by (rewrite skipn_length; lia). apply firstn_skipn.
Qed.

Lemma int_of_enc32 i : id_ok i -> int_of (enc32 i) = i.
Proof.
  intros [H1 H2]. unfold int_of. rewrite dec_enc32, u32_small by lia.
  replace (i <? 2147483648) with true by (symmetry; apply Z.ltb_lt; lia). reflexivity.
Qed.

Definition set_obj (s : rst) (i : Z) (t : otl) : rst :=
  mkR (r_time s) (r_cur s) (updz (r_obj s) i (Some t)) (r_env s) (r_lamp s) (r_esc s).

Lemma parse_id D front env0 s i : id_ok i ->
  parse_packet D front env0 s (id_packet i) =
  POk (mkR (r_time s) (Some i) (updz (r_obj s) i (Some (touch (tq D (r_time s)) (r_obj s i)))) (r_env s) (r_lamp s) (r_esc s)).
Proof.
  intros Hi. unfold parse_packet, id_packet. cbn [p_id p_data].
  change (OBJ_ID =? TIMESTAMP) with false. change (OBJ_ID =? OBJ_ID) with true. cbv iota.
  rewrite (read_scalars1 4) by reflexivity. rewrite int_of_enc32 by auto. reflexivity.
Qed.

Lemma parse_ts D front env0 s t : List.length t = 8%nat ->
  parse_packet D front env0 s (mkP TIMESTAMP t) = POk (r_set_time s t).
Proof. intros H. unfold parse_packet. cbn [p_id p_data]. change (TIMESTAMP =? TIMESTAMP) with true. cbv iota. rewrite read_scalars1; auto. Qed.

Lemma fields_snd f k : In f fields -> kind_of (fst f) = Some k ->
  match k with KLight => fst f = LIGHT_STATE /\ (snd f < n_lights)%nat | _ => snd f = O end.
Proof.
  intros H E.
  assert (Hb : forallb (fun f => match kind_of (fst f) with
     | Some KLight => (fst f =? LIGHT_STATE) && Nat.ltb (snd f) n_lights | _ => Nat.eqb (snd f) 0 end) fields = true) by reflexivity.
  rewrite forallb_forall in Hb. specialize (Hb f H). rewrite E in Hb.
  destruct k; try (apply Nat.eqb_eq; exact Hb).
  apply andb_true_iff in Hb. rewrite Z.eqb_eq, Nat.ltb_lt in Hb. auto.
Qed.

#[local] Opaque fields.

Lemma special_ids pid k : kind_of pid = Some k ->
  (pid =? TIMESTAMP) = false /\ (pid =? OBJ_ID) = false /\ (pid =? OBJ_DELETED) = false /\ (pid =? TRAFFIC_LIGHT) = false /\
  (pid =? ELEM_STATE_CHANGE) = false /\ (pid =? ENVIRONMENT) = false.
Proof.
  intros H. repeat split; apply Z.eqb_neq; intros ->; discriminate.
Qed.

Lemma append_ok D s f v i t : r_cur s = Some i -> r_obj s i = Some t ->
  r_append D s f v = POk (set_obj s i (app_field (tq D (r_time s)) t f v)).
Proof. intros Ec Et. unfold r_append. rewrite Ec, Et. unfold set_obj. rewrite Ec. reflexivity. Qed.

Lemma parse_field D front env0 s i t o f :
  In f fields -> wf_val f (o_val o f) ->
  (match kind_of (fst f) with Some KOnceStr => o_val o f <> [] | _ => True end) ->
  id_ok i -> r_cur s = Some i -> r_obj s i = Some t ->
  parse_packet D front env0 s (field_packet o f) = POk (set_obj s i (app_field (tq D (r_time s)) t f (o_val o f))).
Proof.
  intros Hf Hw Hne Hi Ec Et. destruct (fields_kind f Hf) as (k & Ek & _).
  pose proof (fields_snd f k Hf Ek) as Hs.
  destruct (special_ids _ _ Ek) as (E1 & E2 & E3 & E4 & E5 & E6).
  unfold parse_packet, field_packet. rewrite Ek. cbn [p_id p_data]. rewrite E1, E2, E3, E4, E5, E6, Ek.
  unfold wf_val in Hw. rewrite Ek in Hw, Hne.
  assert (Ef : forall n, snd f = n -> (fst f, n) = f) by (intros n <-; destruct f; reflexivity).
  set (v := o_val o f) in *.
  destruct k; cbn [r_field payload]; rewrite ?(Ef _ Hs).
  - rewrite read_scalars1 by auto. apply append_ok; auto.
  - rewrite read_scalars6 by auto. apply append_ok; auto.
  - rewrite read_scalars1 by auto. apply append_ok; auto.
  - destruct Hw as [Hn Hz]. rewrite <- (app_nil_r v) at 2. rewrite read_string_app by exact Hz.
    destruct v; [congruence|]. apply append_ok; auto.
  - destruct Hw as [Hn Hz]. rewrite <- (app_nil_r v) at 2. rewrite read_string_app by exact Hz.
    destruct v; [congruence|]. apply append_ok; auto.
  - unfold read_vector. rewrite Hw. cbn [Nat.eqb].
    assert (Hlen : List.length v = (List.length v / 16 * 16)%nat).
    { pose proof (Nat.div_mod (List.length v) 16 ltac:(discriminate)). lia. }
    rewrite (chunks_concat 16 _ v Hlen). apply append_ok; auto.
  - rewrite <- (app_nil_r v) at 2. rewrite read_string_app by exact Hw.
    destruct v; [congruence|]. apply append_ok; auto.
  - destruct Hw as [Hl Ht]. destruct Hs as [Hp Hs].
    assert (Er : read_fields [56%nat] v = [Some v]).
    { unfold read_fields. rewrite Hl. change (56 <=? 56)%nat with true. cbv iota. rewrite <- Hl, firstn_all. reflexivity. }
    rewrite Er, Ht.
    replace (Z.of_nat (snd f) <? 0) with false by (symmetry; apply Z.ltb_ge; lia).
    replace (Z.of_nat n_lights <=? Z.of_nat (snd f)) with false by (symmetry; apply Z.leb_gt; lia).
    cbn [orb]. rewrite Ec. destruct Hi as [Hi1 Hi2].
    replace (i <? 0) with false by (symmetry; apply Z.ltb_ge; lia).
    rewrite Nat2Z.id, (Ef _ eq_refl). apply append_ok; auto.
Qed.

Lemma parse_app D front env0 : forall ps qs s, parse D front env0 s (ps ++ qs) =
  match parse D front env0 s ps with POk s' => parse D front env0 s' qs | PErr => PErr | PUB => PUB end.
Proof.
  induction ps as [|p ps IH]; intros qs s; cbn [app parse]; auto.
  destruct (parse_packet D front env0 s p); auto.
Qed.

(** [s'] is [s] with the time lines of each object changed by [g]. *)
Definition reff (s s' : rst) (g : Z -> option otl -> option otl) : Prop :=
  r_time s' = r_time s /\ forall j, r_obj s' j = g j (r_obj s j).

Definition fields_fold (now : Q) (o : obj) (fs : list fid) (t : otl) : otl :=
  fold_left (fun t f => app_field now t f (o_val o f)) fs t.

Lemma parse_fields D front env0 o i : id_ok i -> forall fs s t,
  (forall f, In f fs -> In f fields /\ wf_val f (o_val o f) /\
     match kind_of (fst f) with Some KOnceStr => o_val o f <> [] | _ => True end) ->
  r_cur s = Some i -> r_obj s i = Some t ->
  exists s', parse D front env0 s (map (field_packet o) fs) = POk s' /\ r_time s' = r_time s /\
    r_obj s' i = Some (fields_fold (tq D (r_time s)) o fs t) /\ forall j, j <> i -> r_obj s' j = r_obj s j.
Proof.
  intros Hi. induction fs as [|f fs IH]; intros s t HF Ec Et; cbn [map parse].
  - exists s. auto.
  - destruct (HF f (or_introl eq_refl)) as (A & B & C).
    rewrite (parse_field D front env0 s i t o f A B C Hi Ec Et).
    destruct (IH (set_obj s i (app_field (tq D (r_time s)) t f (o_val o f))) (app_field (tq D (r_time s)) t f (o_val o f)))
      as (s' & E & T & I & J).
    + intros g Hg. apply HF. right; auto.
    + exact Ec.
    + simpl. unfold updz. rewrite Z.eqb_refl. reflexivity.
    + exists s'. split; auto. split; auto. split; auto. intros j Hj. rewrite J by auto. simpl. unfold updz.
      apply Z.eqb_neq in Hj. rewrite Hj. reflexivity.
Qed.

(** Values of one object fit the format. *)
Definition obj_ok (o : obj) : Prop := id_ok (o_id o) /\ forall f, In f fields -> wf_val f (o_val o f).

Definition obj_event (D : dops) (now : Q) (o : obj) (c : fid -> bytes) (x : option otl) : option otl :=
  match chg D o c with [] => x | fs => Some (fields_fold now o fs (touch now x)) end.

Lemma chg_In D o c f : In f (chg D o c) <-> In f fields /\ is_changed D o c f = true.
Proof. exact (filter_In (is_changed D o c) f fields). Qed.

Lemma chg_ok D o c f : obj_ok o -> In f (chg D o c) -> In f fields /\ wf_val f (o_val o f) /\
     match kind_of (fst f) with Some KOnceStr => o_val o f <> [] | _ => True end.
Proof.
  intros [_ Hw] Hin. apply chg_In in Hin. destruct Hin as [Hf Hc]. split; auto. split; auto.
  unfold is_changed in Hc. apply andb_true_iff in Hc. destruct Hc as [_ Hc].
  destruct (kind_of (fst f)) as [[]|]; auto. cbn [changed] in Hc. destruct (c f); [|discriminate]. destruct (o_val o f); [discriminate|]. discriminate.
Qed.

Lemma parse_obj_block D front env0 s o c : obj_ok o ->
  exists s', parse D front env0 s (obj_block D o c) = POk s' /\
    reff s s' (fun j x => if j =? o_id o then obj_event D (tq D (r_time s)) o c x else x).
Proof.
  intros Ho. unfold obj_block, obj_event, reff. pose proof (fun f => chg_ok D o c f Ho) as Hc.
  destruct Ho as [Hi _]. destruct (chg D o c) as [|f fs] eqn:E.
  - exists s. cbn [parse]. split; auto. split; auto. intros j. destruct (j =? o_id o); auto.
  - cbn [parse]. rewrite (parse_id D front env0 s (o_id o) Hi).
    set (s1 := mkR _ _ _ _ _ _).
    destruct (parse_fields D front env0 o (o_id o) Hi (f :: fs) s1 (touch (tq D (r_time s)) (r_obj s (o_id o)))) as (s' & E' & T & I & J); auto.
    + unfold s1. simpl. unfold updz. rewrite Z.eqb_refl. reflexivity.
    + exists s'. split; [exact E'|]. split; [rewrite T; reflexivity|].
      intros j. destruct (j =? o_id o) eqn:Ej.
      * apply Z.eqb_eq in Ej. subst j. rewrite I. reflexivity.
      * rewrite J by (apply Z.eqb_neq; auto). unfold s1. simpl. unfold updz. rewrite Ej. reflexivity.
Qed.

(** Objects of one step. *)
Definition objs_event (D : dops) (now : Q) (cs : Z -> fid -> bytes) (objs : list obj) (j : Z) (x : option otl) : option otl :=
  match find (fun o => o_id o =? j) objs with Some o => obj_event D now o (cs j) x | None => x end.

Lemma find_none_id objs j : ~ In j (map o_id objs) -> find (fun o => o_id o =? j) objs = None.
Proof.
  induction objs as [|o objs IH]; intros H; simpl; auto. destruct (o_id o =? j) eqn:E.
  - apply Z.eqb_eq in E. exfalso. apply H. left; auto.
  - apply IH. intros Hin. apply H. right; auto.
Qed.

Lemma find_some_id objs o : NoDup (map o_id objs) -> In o objs -> find (fun p => o_id p =? o_id o) objs = Some o.
Proof.
  induction objs as [|p objs IH]; intros Hn Hin; [destruct Hin|]. simpl in *. inversion Hn as [|? ? Hni Hn']; subst.
  destruct Hin as [->|Hin]; [rewrite Z.eqb_refl; auto|].
  destruct (o_id p =? o_id o) eqn:E; auto. apply Z.eqb_eq in E. exfalso. apply Hni. rewrite E. apply in_map; auto.
Qed.

Lemma parse_objs D front env0 (cs : Z -> fid -> bytes) : forall objs s, NoDup (map o_id objs) -> Forall obj_ok objs ->
  exists s', parse D front env0 s (concat (map (fun o => obj_block D o (cs (o_id o))) objs)) = POk s' /\
    reff s s' (objs_event D (tq D (r_time s)) cs objs).
Proof.
  induction objs as [|o objs IH]; intros s Hn Ho.
  - exists s. split; auto. split; auto.
  - cbn [map concat]. rewrite parse_app. simpl in Hn. inversion Hn as [|? ? Hni Hn']; subst. inversion Ho as [|? ? H1 H2]; subst.
    destruct (parse_obj_block D front env0 s o (cs (o_id o)) H1) as (s1 & -> & T1 & J1).
    destruct (IH s1 Hn' H2) as (s2 & E2 & T2 & J2). exists s2. split; [exact E2|]. split; [congruence|].
    intros j. rewrite J2, J1, T1. unfold objs_event. cbn [find].
    destruct (o_id o =? j) eqn:E.
    + apply Z.eqb_eq in E. subst j. rewrite Z.eqb_refl, find_none_id by auto. reflexivity.
    + rewrite Z.eqb_sym in E. rewrite E. reflexivity.
Qed.

Definition dels_event (now : Q) (ds : list Z) (j : Z) (x : option otl) : option otl :=
  if existsb (Z.eqb j) ds then Some (deactivate now (touch now x)) else x.

Lemma parse_dels D front env0 : forall ds s, NoDup ds -> Forall id_ok ds ->
  exists s', parse D front env0 s (concat (map del_block ds)) = POk s' /\ reff s s' (dels_event (tq D (r_time s)) ds).
Proof.
  induction ds as [|i ds IH]; intros s Hn Hi.
  - exists s. split; auto. split; auto.
  - inversion Hn as [|? ? Hni Hn']; subst. inversion Hi as [|? ? H1 H2]; subst.
    cbn [map concat]. unfold del_block. cbn [app parse].
    rewrite (parse_id D front env0 s i H1).
    set (s1 := mkR _ _ _ _ _ _).
    assert (Ed : parse_packet D front env0 s1 (mkP OBJ_DELETED []) =
                 POk (set_obj s1 i (deactivate (tq D (r_time s)) (touch (tq D (r_time s)) (r_obj s i))))).
    { unfold parse_packet. cbn [p_id p_data]. change (OBJ_DELETED =? TIMESTAMP) with false.
      change (OBJ_DELETED =? OBJ_ID) with false. change (OBJ_DELETED =? OBJ_DELETED) with true. cbv iota.
      unfold r_deleted. cbn [r_cur s1]. unfold s1 at 1. cbn [r_cur]. unfold s1 at 1. cbn [r_obj]. unfold updz at 1. rewrite Z.eqb_refl. reflexivity. }
    rewrite Ed.
    destruct (IH (set_obj s1 i (deactivate (tq D (r_time s)) (touch (tq D (r_time s)) (r_obj s i)))) Hn' H2) as (s2 & E2 & T2 & J2).
    exists s2. split; [exact E2|]. split; [rewrite T2; reflexivity|].
    intros j. rewrite J2. simpl. unfold updz, dels_event. cbn [existsb].
    destruct (j =? i) eqn:Ej; cbn [orb]; auto.
    apply Z.eqb_eq in Ej. subst j. destruct (existsb (Z.eqb i) ds) eqn:Ex; auto.
    apply memz_In in Ex. contradiction.
Qed.

(** Packets without an object. *)
Definition glob_ok (g : gpk) : Prop :=
  match g with GDt b => List.length b = 8%nat | GEsc c s => zlen (c :: s) < 4294967296 | _ => True end.

Lemma read_string_whole v : zlen v < 4294967296 -> read_string (enc32 (u32 (zlen v)) ++ v) = Some v.
Proof. intros H. pose proof (read_string_app v [] H) as E. rewrite app_nil_r in E. exact E. Qed.

Lemma parse_globs D front env0 : forall gs s, Forall glob_ok gs ->
  exists s', parse D front env0 s (map gpk_packet gs) = POk s' /\ reff s s' (fun _ x => x).
Proof.
  induction gs as [|g gs IH]; intros s HG; cbn [map parse].
  - exists s. split; auto. split; auto.
  - inversion HG as [|? ? Hg HG']; subst.
    assert (Hp : exists s1, parse_packet D front env0 s (gpk_packet g) = POk s1 /\ reff s s1 (fun _ x => x)).
    { destruct g as [b|b|b|c b]; unfold parse_packet; cbn [gpk_packet p_id p_data].
      - eexists. split; [reflexivity|]. split; auto.
      - eexists. split; [reflexivity|]. split; auto.
      - eexists. split; [reflexivity|]. split; auto.
      - change (ELEM_STATE_CHANGE =? TIMESTAMP) with false. change (ELEM_STATE_CHANGE =? OBJ_ID) with false.
        change (ELEM_STATE_CHANGE =? OBJ_DELETED) with false. change (ELEM_STATE_CHANGE =? TRAFFIC_LIGHT) with false.
        change (ELEM_STATE_CHANGE =? ELEM_STATE_CHANGE) with true. cbv iota.
        rewrite (read_string_whole (c :: b) Hg). eexists. split; [reflexivity|]. split; auto. }
    destruct Hp as (s1 & -> & T1 & J1). destruct (IH s1 HG') as (s2 & E2 & T2 & J2).
    exists s2. split; auto. split; [congruence|]. intros j. rewrite J2. auto.
Qed.

(** ** One step *)

Definition step_ok (st : step) : Prop :=
  NoDup (map o_id (s_objs st)) /\ Forall obj_ok (s_objs st) /\ Forall glob_ok (s_glob st) /\ List.length (s_time st) = 8%nat.

(** What one step does to the time lines of object [j]. *)
Definition step_event (D : dops) (w : wst) (st : step) (j : Z) (x : option otl) : option otl :=
  let now := tq D (s_time st) in
  match find (fun o => o_id o =? j) (s_objs st) with
  | Some o => obj_event D now o (base D w j) x
  | None => match w_cache w j with Some _ => Some (deactivate now (touch now x)) | None => x end
  end.

Lemma perm_nodup D w : perm_ord D -> winv w -> NoDup (ord D (w_prev w)).
Proof. intros HP (_ & _ & H & _). eapply Permutation_NoDup; [apply Permutation_sym, HP|auto]. Qed.

Lemma parse_step D front env0 w st s : perm_ord D -> winv w -> step_ok st ->
  (forall i, w_cache w i <> None -> id_ok i) ->
  exists s', parse D front env0 s (step_packets D w st) = POk s' /\
    (forall j, r_obj s' j = step_event D w st j (r_obj s j)).
Proof.
  intros HP HW (Hn & Ho & Hg & Ht) Hids.
  assert (HB : forall s, tq D (r_time s) = tq D (s_time st) -> exists s', parse D front env0 s (step_body D w st) = POk s' /\
     forall j, r_obj s' j = step_event D w st j (r_obj s j)).
  { intros s0 Et. unfold step_body. rewrite parse_app.
    destruct (parse_globs D front env0 (s_glob st) s0 Hg) as (s1 & -> & T1 & J1).
    rewrite parse_app.
    destruct (parse_objs D front env0 (base D w) (s_objs st) s1 Hn Ho) as (s2 & -> & T2 & J2).
    destruct (parse_dels D front env0 (filter (gone (map o_id (s_objs st))) (ord D (w_prev w))) s2) as (s3 & E3 & T3 & J3).
    - apply NoDup_filter. apply perm_nodup; auto.
    - apply Forall_forall. intros i Hi. apply filter_In in Hi. destruct Hi as [Hi _]. apply Hids.
      destruct HW as (_ & _ & _ & HW). apply HW. eapply Permutation_in; [apply HP|auto].
    - exists s3. split; [exact E3|]. intros j. rewrite J3, J2, J1, T2, T1, Et. unfold dels_event, objs_event, step_event.
      destruct (in_dec Z.eq_dec j (map o_id (s_objs st))) as [Hin|Hnin].
      + assert (Ex : existsb (Z.eqb j) (filter (gone (map o_id (s_objs st))) (ord D (w_prev w))) = false).
        { destruct (existsb _ _) eqn:E; auto. apply memz_In in E. apply filter_In in E. destruct E as [_ E].
          unfold gone in E. apply negb_true_iff in E. apply memz_In in Hin. congruence. }
        rewrite Ex. apply in_map_iff in Hin. destruct Hin as (o & <- & Hin). rewrite (find_some_id _ _ Hn Hin). reflexivity.
      + rewrite (find_none_id _ _ Hnin).
        assert (Ex : existsb (Z.eqb j) (filter (gone (map o_id (s_objs st))) (ord D (w_prev w))) =
                     match w_cache w j with Some _ => true | None => false end).
        { destruct HW as (_ & _ & _ & HW). specialize (HW j). apply eq_true_iff_eq. rewrite memz_In, filter_In.
          assert (Hg' : gone (map o_id (s_objs st)) j = true).
          { unfold gone. apply negb_true_iff. destruct (existsb _ _) eqn:E; auto. apply memz_In in E. contradiction. }
          assert (Hio : In j (ord D (w_prev w)) <-> In j (w_prev w)).
          { split; apply Permutation_in; [apply HP|apply Permutation_sym, HP]. }
          rewrite Hio, HW. destruct (w_cache w j); split; intros H; try tauto; try discriminate.
          split; [congruence|auto]. }
        rewrite Ex. destruct (w_cache w j); reflexivity. }
  unfold step_packets. destruct (step_body D w st) as [|b B] eqn:EB.
  - destruct (HB (r_set_time s (s_time st)) eq_refl) as (s' & E & J). cbn [parse] in *. exists s. split; auto.
    injection E as <-. exact J.
  - cbn [parse]. rewrite (parse_ts D front env0 s (s_time st) Ht).
    destruct (HB (r_set_time s (s_time st)) eq_refl) as (s' & E & J). exists s'. split; auto.
Qed.

(** ** Time lines of one object over a whole history *)

Definition last_entry {A} (l : list (Q * A)) (v : A) : Prop := exists l' q, l = l' ++ [(q, v)].
Definition times_le {A} (l : list (Q * A)) (T : Q) : Prop := Forall (fun e => (fst e <= T)%Q) l.
Definition times_ge {A} (l : list (Q * A)) (T : Q) : Prop := Forall (fun e => (T + 2 * SMALL <= fst e)%Q) l.

Definition tl_ok (T : Q) (t : otl) : Prop :=
  separated (t_active t) /\ times_le (t_active t) T /\ forall f, separated (t_field t f) /\ times_le (t_field t f) T.

Lemma small_pos : (0 < SMALL)%Q.
Proof. reflexivity. Qed.

Lemma separated_app {A} (l : list (Q * A)) m T : separated l -> times_le l T -> separated m -> times_ge m T -> separated (l ++ m).
Proof.
  intros Sl Tl Sm Tm i j a b Hij Ha Hb.
  destruct (Nat.lt_ge_cases j (List.length l)) as [Hj|Hj].
  - rewrite nth_error_app1 in Ha, Hb by lia. exact (Sl i j a b Hij Ha Hb).
  - rewrite nth_error_app2 in Hb by lia.
    destruct (Nat.lt_ge_cases i (List.length l)) as [Hi|Hi].
    + rewrite nth_error_app1 in Ha by lia. apply nth_error_In in Ha, Hb.
      unfold times_le, times_ge in *. rewrite Forall_forall in *. specialize (Tl _ Ha). specialize (Tm _ Hb). simpl in *. lra.
    + rewrite nth_error_app2 in Ha by lia. apply (Sm (i - List.length l)%nat (j - List.length l)%nat a b); auto. lia.
Qed.

Lemma separated_one {A} (x : Q * A) : separated [x].
Proof. intros i j a b Hij Ha Hb. destruct i, j as [|[|j]]; try lia; simpl in *; discriminate. Qed.

Lemma times_le_mono {A} (l : list (Q * A)) T T' : (T <= T')%Q -> times_le l T -> times_le l T'.
Proof. intros H. apply Forall_impl. intros e He. lra. Qed.

Lemma last_active_app l q b : last_active (l ++ [(q, b)]) = b.
Proof. unfold last_active. rewrite map_app. simpl. apply last_last. Qed.

(** What is appended at time [T'] after time [T]. *)
Lemma app_one_ok {A} (l : list (Q * A)) T T' v : (T + 2 * SMALL <= T')%Q -> separated l -> times_le l T ->
  separated (l ++ [(T', v)]) /\ times_le (l ++ [(T', v)]) T'.
Proof.
  intros HT Hs Hl. pose proof small_pos. split.
  - eapply separated_app; eauto using separated_one. constructor; [simpl; lra|constructor].
  - apply Forall_app. split; [apply (times_le_mono l T); auto; lra|]. constructor; [simpl; lra|constructor].
Qed.

(** Fields appended in one step. *)
Lemma fields_fold_active now o : forall fs t, t_active (fields_fold now o fs t) = t_active t.
Proof. induction fs as [|f fs IH]; intros t; simpl; auto. rewrite IH. reflexivity. Qed.

Lemma fields_fold_field now o : forall fs t f, NoDup fs ->
  t_field (fields_fold now o fs t) f = if existsb (fid_eqb f) fs then t_field t f ++ [(now, o_val o f)] else t_field t f.
Proof.
  induction fs as [|g fs IH]; intros t f Hn; cbn [existsb fields_fold fold_left]; auto.
  inversion Hn as [|? ? Hni Hn']; subst. fold (fields_fold now o fs (app_field now t g (o_val o g))).
  rewrite IH by auto. unfold app_field. cbn [t_field]. destruct (fid_eqb f g) eqn:E; cbn [orb].
  - apply fid_eqb_eq in E. subst g.
    destruct (existsb (fid_eqb f) fs) eqn:Ex; auto. apply existsb_In in Ex. contradiction.
  - reflexivity.
Qed.

Lemma chg_nodup D o c : NoDup (chg D o c).
Proof. apply NoDup_filter, fields_nodup. Qed.

(** Later states of the time lines. *)
Definition extends (T : Q) (x x' : option otl) : Prop :=
  match x, x' with
  | Some t, Some t' => (exists a, t_active t' = t_active t ++ a /\ times_ge a T) /\
                       forall f, exists a, t_field t' f = t_field t f ++ a /\ times_ge a T
  | Some _, None => False
  | None, None => True
  | None, Some t' => exists a, t_active t' = (0%Q, false) :: a /\ times_ge a T
  end.

Lemma extends_refl T x : extends T x x.
Proof.
  destruct x as [t|]; simpl; auto. split; [exists []; rewrite app_nil_r; split; auto; constructor|].
  intros f. exists []. rewrite app_nil_r. split; auto. constructor.
Qed.

Lemma times_ge_mono {A} (l : list (Q * A)) T T' : (T <= T')%Q -> times_ge l T' -> times_ge l T.
Proof. intros H. apply Forall_impl. intros e He. lra. Qed.

Lemma extends_trans T T' x y z : (T <= T')%Q -> extends T x y -> extends T' y z -> extends T x z.
Proof.
  intros HT Hxy Hyz. destruct x as [x|], y as [y|], z as [z|]; simpl in *; try contradiction; auto.
  - destruct Hxy as [(a & Ea & Ta) Hf], Hyz as [(b & Eb & Tb) Hg]. split.
    + exists (a ++ b). rewrite Eb, Ea, app_assoc. split; auto. apply Forall_app. split; auto. eapply times_ge_mono; eauto.
    + intros f. destruct (Hf f) as (p & Ep & Tp), (Hg f) as (q & Eq & Tq). exists (p ++ q). rewrite Eq, Ep, app_assoc. split; auto.
      apply Forall_app. split; auto. eapply times_ge_mono; eauto.
  - destruct Hxy as (a & Ea & Ta), Hyz as [(b & Eb & Tb) Hg]. exists (a ++ b). rewrite Eb, Ea. split; auto.
    apply Forall_app. split; auto. eapply times_ge_mono; eauto.
  - destruct Hyz as (b & Eb & Tb). exists b. split; auto. eapply times_ge_mono; eauto.
Qed.

Definition touched_ok (T T' : Q) (t : otl) : Prop :=
  separated (t_active t) /\ times_le (t_active t) T' /\ last_active (t_active t) = true /\
  forall f, separated (t_field t f) /\ times_le (t_field t f) T.

(** Touching at [T'] an object unknown or known (well formed up to [T]). *)
Lemma touch_ok T T' x : (T + 2 * SMALL <= T')%Q -> (T' == 0 \/ 2 * SMALL <= T')%Q ->
  match x with None => True | Some t => tl_ok T t end ->
  touched_ok T T' (touch T' x) /\ ((0 <= T)%Q -> extends T x (Some (touch T' x))).
Proof.
  intros HT H0 Hx. pose proof small_pos. destruct x as [t|]; simpl.
  - destruct Hx as (Sa & Ta & Hf). destruct (last_active (t_active t)) eqn:El.
    + split; [|intros _; exact (extends_refl T (Some t))]. split; auto. split; [apply (times_le_mono _ T); auto; lra|]. split; auto.
    + destruct (app_one_ok _ _ _ true HT Sa Ta) as [S1 T1]. split.
      * split; auto. split; auto. simpl. split; [apply last_active_app|]. exact Hf.
      * intros _. split; [exists [(T', true)]; split; auto; constructor; [simpl; lra|constructor]|].
        intros f. exists []. rewrite app_nil_r. split; auto. constructor.
  - destruct (Qltb 0 T') eqn:E.
    + apply Qltb_lt in E. assert (Hge : (2 * SMALL <= T')%Q) by (destruct H0 as [H0|H0]; auto; lra). split.
      * split; [|split; [|split]].
        -- apply (app_one_ok [(0%Q, false)] 0 T' true); [lra|apply separated_one|constructor; [simpl; lra|constructor]].
        -- repeat constructor; simpl; lra.
        -- reflexivity.
        -- intros f. split; [intros i j a b Hij Ha; destruct i; discriminate|constructor].
      * intros _. exists [(T', true)]. split; auto. constructor; [simpl; lra|constructor].
    + apply Qltb_ge in E. split.
      * split; [apply separated_one|]. split; [repeat constructor; simpl; lra|]. split; [reflexivity|].
        intros f. split; [intros i j a b Hij Ha; destruct i; discriminate|constructor].
      * intros HT0. lra.
Qed.

(** ** The invariant *)

Definition once (f : fid) : bool := match kind_of (fst f) with Some KOnceVec | Some KOnceStr => true | _ => false end.

(** The replayed value [w] stands for the recorded value [v]. *)
Definition sim (D : dops) (f : fid) (w v : bytes) : Prop :=
  w = v \/ (once f = false /\ exists k, kind_of (fst f) = Some k /\ changed D k w v = false).

Definition J (D : dops) (T : Q) (w : wst) (r : rst) : Prop :=
  forall j, match w_cache w j with
  | Some c => exists t, r_obj r j = Some t /\ tl_ok T t /\ last_active (t_active t) = true /\
                forall f, In f fields -> c f = fresh D f \/ last_entry (t_field t f) (c f)
  | None => match r_obj r j with None => True | Some t => tl_ok T t /\ last_active (t_active t) = false end
  end.

(** A new object always has something to write. *)
Definition nan_ok (D : dops) : Prop := (forall v, near D (nan8 D) v = false) /\ (forall v, deq D (nan8 D) v = false).

Lemma speed_in : In (7, O) fields.
Proof. Transparent fields. left. reflexivity. Opaque fields. Qed.

Lemma chg_fresh D o : nan_ok D -> chg D o (fresh D) <> [].
Proof.
  intros [Hn _] E. assert (Hin : In (7, O) (chg D o (fresh D))).
  { apply chg_In. split; [apply speed_in|]. unfold is_changed, considered, fresh. simpl. rewrite Hn. reflexivity. }
  rewrite E in Hin. destruct Hin.
Qed.

Lemma last_entry_app {A} (l : list (Q * A)) q v : last_entry (l ++ [(q, v)]) v.
Proof. exists l, q. reflexivity. Qed.

Lemma step_J D w st w' r r' T : perm_ord D -> nan_ok D -> winv w -> step_ok st ->
  let T' := tq D (s_time st) in
  (T + 2 * SMALL <= T')%Q -> (T' == 0 \/ 2 * SMALL <= T')%Q ->
  J D T w r ->
  write_step D (Some w) st = Some w' -> (forall j, r_obj r' j = step_event D w st j (r_obj r j)) ->
  J D T' w' r' /\ ((0 <= T)%Q -> forall j, extends T (r_obj r j) (r_obj r' j)) /\
  (forall o, In o (s_objs st) -> forall f, In f fields -> exists t', r_obj r' (o_id o) = Some t' /\
     if is_changed D o (base D w (o_id o)) f then last_entry (t_field t' f) (o_val o f)
     else match r_obj r (o_id o) with Some t => t_field t' f = t_field t f | None => t_field t' f = [] end).
Proof.
  intros HP HN HW HS T' HT H0 HJ EW HR. pose proof small_pos.
  destruct HS as (Hnd & Hok & Hg & Hlen).
  destruct (write_step_ok D w st HP HW Hnd) as (w2 & E2 & HW2 & Ht2 & _ & Hdom & Hval).
  rewrite EW in E2. injection E2 as <-.
  assert (Hobj : forall o, In o (s_objs st) ->
     exists t', r_obj r' (o_id o) = Some t' /\ tl_ok T' t' /\ last_active (t_active t') = true /\
       ((0 <= T)%Q -> extends T (r_obj r (o_id o)) (Some t')) /\
       (forall f, In f fields -> t_field t' f = (match r_obj r (o_id o) with Some t => t_field t f | None => [] end)
           ++ if is_changed D o (base D w (o_id o)) f then [(T', o_val o f)] else [])).
  { intros o Hin. rewrite HR. unfold step_event. rewrite (find_some_id _ _ Hnd Hin). fold T'. unfold obj_event.
    specialize (HJ (o_id o)). unfold base.
    destruct (w_cache w (o_id o)) as [c|] eqn:Ec.
    - destruct HJ as (t & Et & Htl & Hla & Hf). rewrite Et.
      destruct (chg D o c) as [|g gs] eqn:Eg.
      + exists t. split; auto. destruct Htl as (Sa & Ta & Hff). split; [|split; [|split]]; auto.
        * split; auto. split; [apply (times_le_mono _ T); auto; lra|]. intros f. destruct (Hff f) as [S F]. split; auto.
          apply (times_le_mono _ T); auto; lra.
        * intros _. apply (extends_refl T (Some t)).
        * intros f Hff'. destruct (is_changed D o c f) eqn:Eic; [|rewrite app_nil_r; auto].
          assert (Hi : In f (chg D o c)) by (apply chg_In; auto). rewrite Eg in Hi. destruct Hi.
      + rewrite <- Eg. clear g gs Eg. set (t0 := touch T' (Some t)).
        assert (Et0 : t0 = t) by (unfold t0; simpl; rewrite Hla; reflexivity). rewrite Et0.
        exists (fields_fold T' o (chg D o c) t). split; auto. destruct Htl as (Sa & Ta & Hff).
        assert (HF : forall f, exists a, t_field (fields_fold T' o (chg D o c) t) f = t_field t f ++ a /\
             (a = [] \/ a = [(T', o_val o f)]) /\ (In f fields -> a = if is_changed D o c f then [(T', o_val o f)] else [])).
        { intros f. rewrite fields_fold_field by apply chg_nodup.
          destruct (existsb (fid_eqb f) (chg D o c)) eqn:Ex.
          - apply existsb_In, chg_In in Ex. destruct Ex as [_ Ex]. rewrite Ex. eauto.
          - exists []. rewrite app_nil_r. split; auto. split; auto. intros Hin'. destruct (is_changed D o c f) eqn:Eic; auto.
            assert (existsb (fid_eqb f) (chg D o c) = true); [|congruence]. apply existsb_In, chg_In. auto. }
        split; [|split; [|split]].
        * split; [rewrite fields_fold_active; auto|]. split; [rewrite fields_fold_active; apply (times_le_mono _ T); auto; lra|].
          intros f. destruct (HF f) as (a & -> & [->| ->] & _).
          -- rewrite app_nil_r. destruct (Hff f). split; auto. apply (times_le_mono _ T); auto; lra.
          -- apply (app_one_ok _ T); auto; apply Hff.
        * rewrite fields_fold_active. auto.
        * intros _. split; [exists []; rewrite fields_fold_active, app_nil_r; split; auto; constructor|].
          intros f. destruct (HF f) as (a & -> & [->| ->] & _).
          -- exists []. split; auto. constructor.
          -- exists [(T', o_val o f)]. split; auto. constructor; [simpl; lra|constructor].
        * intros f Hin'. destruct (HF f) as (a & -> & _ & Ha). rewrite (Ha Hin'). reflexivity.
    - set (x := r_obj r (o_id o)) in *.
      assert (Hx : match x with None => True | Some t => tl_ok T t end) by (destruct x; tauto).
      destruct (touch_ok T T' x HT H0 Hx) as [(Sa & Ta & La & Hff) Hext].
      destruct (chg D o (fresh D)) as [|g gs] eqn:Eg; [exfalso; revert Eg; apply chg_fresh; auto|].
      rewrite <- Eg. clear g gs Eg. set (t := touch T' x) in *.
      exists (fields_fold T' o (chg D o (fresh D)) t). split; auto.
      assert (HF : forall f, exists a, t_field (fields_fold T' o (chg D o (fresh D)) t) f = t_field t f ++ a /\
             (a = [] \/ a = [(T', o_val o f)]) /\ (In f fields -> a = if is_changed D o (fresh D) f then [(T', o_val o f)] else [])).
        { intros f. rewrite fields_fold_field by apply chg_nodup.
          destruct (existsb (fid_eqb f) (chg D o (fresh D))) eqn:Ex.
          - apply existsb_In, chg_In in Ex. destruct Ex as [_ Ex]. rewrite Ex. eauto.
          - exists []. rewrite app_nil_r. split; auto. split; auto. intros Hin'. destruct (is_changed D o (fresh D) f) eqn:Eic; auto.
            assert (existsb (fid_eqb f) (chg D o (fresh D)) = true); [|congruence]. apply existsb_In, chg_In. auto. }
      assert (Hft : forall f, t_field t f = match x with Some t => t_field t f | None => [] end).
      { intros f. unfold t, touch. destruct x as [t1|]; auto. destruct (last_active (t_active t1)); auto. }
      split; [|split; [|split]].
      * split; [rewrite fields_fold_active; auto|]. split; [rewrite fields_fold_active; auto|].
        intros f. destruct (HF f) as (a & -> & [->| ->] & _).
        -- rewrite app_nil_r. destruct (Hff f). split; auto. apply (times_le_mono _ T); auto; lra.
        -- apply (app_one_ok _ T); auto; apply Hff.
      * rewrite fields_fold_active. auto.
      * intros HT0. specialize (Hext HT0). unfold extends in *. destruct x as [t1|].
        -- destruct Hext as [(a & Ea & Ga) He]. split; [exists a; rewrite fields_fold_active; auto|].
           intros f. destruct (HF f) as (b & -> & [->| ->] & _); destruct (He f) as (a' & -> & Ga').
           ++ exists a'. rewrite app_nil_r. auto.
           ++ exists (a' ++ [(T', o_val o f)]). rewrite app_assoc. split; auto. apply Forall_app. split; [exact Ga'|]. constructor; [simpl; lra|constructor].
        -- rewrite fields_fold_active. exact Hext.
      * intros f Hin'. destruct (HF f) as (a & -> & _ & Ha). rewrite (Ha Hin'), Hft. reflexivity. }
  split; [|split].
  - intros j. destruct (in_dec Z.eq_dec j (map o_id (s_objs st))) as [Hin|Hnin].
    + apply in_map_iff in Hin. destruct Hin as (o & <- & Hin).
      destruct (Hval o Hin) as (c' & -> & Hc'). destruct (Hobj o Hin) as (t' & Et' & Htl & Hla & _ & Hf').
      exists t'. split; auto. split; auto. split; auto. intros f Hf. rewrite (Hc' f Hf), (Hf' f Hf).
      destruct (is_changed D o (base D w (o_id o)) f); [right; apply last_entry_app|].
      rewrite app_nil_r. specialize (HJ (o_id o)). unfold base. destruct (w_cache w (o_id o)) as [c|]; auto.
      destruct HJ as (t & Et & _ & _ & Hff). rewrite Et. auto.
    + assert (Ec : w_cache w' j = None).
      { specialize (Hdom j). destruct (w_cache w' j); auto. exfalso. apply Hnin. apply Hdom. congruence. }
      rewrite Ec, HR. unfold step_event. rewrite (find_none_id _ _ Hnin). specialize (HJ j). fold T'.
      destruct (w_cache w j) as [c|].
      * destruct HJ as (t & -> & (Sa & Ta & Hff) & Hla & _). simpl. rewrite Hla.
        destruct (app_one_ok _ _ _ false HT Sa Ta) as [S1 T1]. split; [|apply last_active_app].
        split; auto. split; auto. simpl. intros f. destruct (Hff f). split; auto. apply (times_le_mono _ T); auto; lra.
      * destruct (r_obj r j) as [t|]; auto. destruct HJ as [(Sa & Ta & Hff) Hla]. split; auto.
        split; auto. split; [apply (times_le_mono _ T); auto; lra|]. intros f. destruct (Hff f). split; auto. apply (times_le_mono _ T); auto; lra.
  - intros HT0 j. destruct (in_dec Z.eq_dec j (map o_id (s_objs st))) as [Hin|Hnin].
    + apply in_map_iff in Hin. destruct Hin as (o & <- & Hin). destruct (Hobj o Hin) as (t' & -> & _ & _ & He & _). auto.
    + rewrite HR. unfold step_event. rewrite (find_none_id _ _ Hnin). specialize (HJ j). fold T'.
      destruct (w_cache w j) as [c|]; [|apply extends_refl].
      destruct HJ as (t & -> & _ & Hla & _). simpl. rewrite Hla. split.
      * exists [(T', false)]. split; auto. constructor; [simpl; lra|constructor].
      * intros f. exists []. rewrite app_nil_r. split; auto. constructor.
  - intros o Hin f Hf. destruct (Hobj o Hin) as (t' & Et' & _ & _ & _ & Hf'). exists t'. split; auto.
    rewrite (Hf' f Hf). destruct (is_changed D o (base D w (o_id o)) f).
    + apply last_entry_app.
    + rewrite app_nil_r. destruct (r_obj r (o_id o)); reflexivity.
Qed.

(** ** Whole histories *)

(** Steps are at least two tolerances apart; the first is at zero or later than the tolerance. *)
Fixpoint times_ok (D : dops) (T : Q) (h : list step) : Prop :=
  match h with
  | [] => True
  | st :: r => let T' := tq D (s_time st) in
      (T + 2 * SMALL <= T')%Q /\ (T' == 0 \/ 2 * SMALL <= T')%Q /\ times_ok D T' r
  end.

(** When the recorder can follow a field: values written only once must not change during the life of the object,
    light values change only together with the dirty bit, integers differ from the initial value. *)
Definition track_ok (D : dops) (f : fid) (prev : list obj) (o : obj) : Prop :=
  match kind_of (fst f) with
  | Some KOnceVec | Some KOnceStr =>
      o_val o f <> [] /\ forall p, In p prev -> o_id p = o_id o -> o_val p f = o_val o f
  | Some KLight => changed D KLight light_init (o_val o f) = true /\
      (o_dirty o = true \/ exists p, In p prev /\ o_id p = o_id o /\ o_val p f = o_val o f)
  | Some (KInt i) => o_val o f <> enc32 i
  | _ => True
  end.
Fixpoint tracked (D : dops) (f : fid) (prev : list obj) (h : list step) : Prop :=
  match h with
  | [] => True
  | st :: r => (forall o, In o (s_objs st) -> track_ok D f prev o) /\ tracked D f (s_objs st) r
  end.

Definition K (D : dops) (f : fid) (prev : list obj) (r : rst) : Prop :=
  forall o, In o prev -> exists t w, r_obj r (o_id o) = Some t /\ last_entry (t_field t f) w /\ sim D f w (o_val o f).

Lemma bytes_eqb_eq : forall a b, bytes_eqb a b = true <-> a = b.
Proof.
  induction a as [|x a IH]; intros [|y b]; simpl; split; intros H; try discriminate; auto.
  - apply andb_true_iff in H. destruct H as [H1 H2]. apply Ascii.eqb_eq in H1. apply IH in H2. congruence.
  - injection H as -> ->. rewrite Ascii.eqb_refl. apply IH. reflexivity.
Qed.

Definition nan_len (D : dops) : Prop := List.length (nan8 D) = 8%nat.

Lemma recordable D f prev o k : nan_ok D -> nan_len D -> kind_of (fst f) = Some k -> wf_val f (o_val o f) -> track_ok D f prev o ->
  changed D k (fresh D f) (o_val o f) = true.
Proof.
  intros [Hn Hd] Hl Ek Hw Ht. unfold track_ok, wf_val, fresh in *. rewrite Ek in *. unfold nan_len in Hl.
  destruct k; cbn [changed init_val].
  - rewrite Hn. reflexivity.
  - unfold all_deq. cbn [chunks].
    assert (E : firstn 8 (concat (repeat (nan8 D) 6)) = nan8 D).
    { cbn [repeat concat]. rewrite <- Hl. apply firstn_len_app. }
    rewrite E. cbn [combine forallb fst snd]. rewrite Hd. reflexivity.
  - destruct (bytes_eqb (enc32 init) (o_val o f)) eqn:E; auto. apply bytes_eqb_eq in E. congruence.
  - cbn [c_str]. destruct Hw as [Hw _]. destruct (o_val o f); [congruence|reflexivity].
  - destruct Hw as [Hw _]. destruct (o_val o f); [congruence|reflexivity].
  - destruct Ht as [Ht _]. destruct (o_val o f); [congruence|reflexivity].
  - destruct Ht as [Ht _]. destruct (o_val o f); [congruence|reflexivity].
  - apply Ht.
Qed.

Lemma step_K D w st w' r r' T prev f : perm_ord D -> nan_ok D -> nan_len D -> winv w -> step_ok st ->
  let T' := tq D (s_time st) in
  (T + 2 * SMALL <= T')%Q -> (T' == 0 \/ 2 * SMALL <= T')%Q ->
  J D T w r -> (forall i, w_cache w i <> None <-> In i (map o_id prev)) ->
  write_step D (Some w) st = Some w' -> (forall j, r_obj r' j = step_event D w st j (r_obj r j)) ->
  In f fields -> (forall o, In o (s_objs st) -> track_ok D f prev o) -> K D f prev r -> K D f (s_objs st) r'.
Proof.
  intros HP HN HL HW HS T' HT H0 HJ Hdom EW HR Hf Htr HK o Hin.
  destruct (step_J D w st w' r r' T HP HN HW HS HT H0 HJ EW HR) as (_ & _ & HV).
  destruct (HV o Hin f Hf) as (t' & Et' & Hv). specialize (Htr o Hin).
  destruct (fields_kind f Hf) as (k & Ek & _).
  assert (Hw : wf_val f (o_val o f)).
  { destruct HS as (_ & Hok & _). rewrite Forall_forall in Hok. apply (Hok o Hin). auto. }
  pose proof (recordable D f prev o k HN HL Ek Hw Htr) as Hrec.
  exists t'.
  destruct (is_changed D o (base D w (o_id o)) f) eqn:Ec.
  { exists (o_val o f). split; auto. split; auto. left; auto. }
  assert (Hprev : forall p, In p prev -> o_id p = o_id o -> o_val p f = o_val o f ->
     exists w0, last_entry (t_field t' f) w0 /\ sim D f w0 (o_val o f)).
  { intros p Hp Ei Ev. destruct (HK p Hp) as (t & w0 & Et & Hle & Hs). rewrite Ei in Et. rewrite Et in Hv.
    exists w0. rewrite Hv, <- Ev. auto. }
  unfold is_changed in Ec. rewrite Ek in Ec. unfold considered in Ec.
  assert (Hcase : (exists w0, last_entry (t_field t' f) w0 /\ sim D f w0 (o_val o f)) -> exists w0,
    r_obj r' (o_id o) = Some t' /\ last_entry (t_field t' f) w0 /\ sim D f w0 (o_val o f)).
  { intros (w0 & A & B). exists w0. auto. }
  apply Hcase. clear Hcase.
  assert (Hmain : changed D k (base D w (o_id o) f) (o_val o f) = false ->
     exists w0, last_entry (t_field t' f) w0 /\ sim D f w0 (o_val o f)).
  { intros Hch. pose proof (HJ (o_id o)) as HJo. unfold base in Hch.
    destruct (w_cache w (o_id o)) as [c|] eqn:Ecache; [|congruence].
    destruct HJo as (t & Et & _ & _ & Hcf). rewrite Et in Hv. destruct (Hcf f Hf) as [E|Hle]; [rewrite E in Hch; congruence|].
    destruct (once f) eqn:Eo.
    - assert (Hpi : In (o_id o) (map o_id prev)) by (apply Hdom; congruence).
      apply in_map_iff in Hpi. destruct Hpi as (p & Ei & Hp). apply (Hprev p Hp Ei).
      unfold track_ok in Htr. unfold once in Eo. destruct (kind_of (fst f)) as [[]|]; try discriminate; apply Htr; auto.
    - exists (c f). rewrite Hv. split; auto. right. split; auto. exists k. auto. }
  destruct (fst f =? LIGHT_STATE) eqn:El.
  - destruct (o_dirty o) eqn:Ed; [cbn [andb] in Ec; auto|].
    apply Z.eqb_eq in El. rewrite El in Ek. simpl in Ek. injection Ek as <-.
    unfold track_ok in Htr. rewrite El in Htr. simpl in Htr. destruct Htr as [_ [Htr|(p & Hp & Ei & Ev)]]; [congruence|].
    eapply Hprev; eauto.
  - cbn [andb] in Ec. auto.
Qed.

Lemma latest_of_last {A} (l a : list (Q * A)) T v : last_entry l v -> times_le l T -> times_ge a T -> is_latest (l ++ a) T v.
Proof.
  intros (l' & q & ->) Hl Ha. pose proof small_pos.
  apply Forall_app in Hl. destruct Hl as [_ Hq]. inversion Hq as [|? ? Hq' _]; subst. simpl in Hq'.
  exists (List.length l'), q. rewrite <- app_assoc. split; [|split].
  - rewrite nth_error_app2, Nat.sub_diag by lia. reflexivity.
  - right. lra.
  - intros j tj w Hj E. rewrite nth_error_app2 in E by lia.
    destruct (j - List.length l')%nat as [|n] eqn:En; [lia|]. simpl in E. apply nth_error_In in E.
    unfold times_ge in Ha. rewrite Forall_forall in Ha. specialize (Ha _ E). simpl in Ha. lra.
Qed.

Lemma last_active_entry l b : l <> [] -> last_active l = b -> last_entry l b.
Proof.
  intros Hn Hb. destruct (exists_last Hn) as (l' & [q c] & ->). rewrite last_active_app in Hb. subst. exists l', q. reflexivity.
Qed.

Lemma last_active_nonempty l : last_active l = true -> l <> [].
Proof. intros H E. subst. discriminate. Qed.

(** What replay shows at time [T] for step [st]. *)
Definition shows_active (r : rst) (j : Z) (T : Q) : Prop :=
  exists t, r_obj r j = Some t /\ is_latest (t_active t) T true.
Definition shows_absent (r : rst) (j : Z) (T : Q) : Prop :=
  r_obj r j = None \/ exists t, r_obj r j = Some t /\ is_latest (t_active t) T false.
Definition shows_field (D : dops) (r : rst) (o : obj) (f : fid) (T : Q) : Prop :=
  exists t w, r_obj r (o_id o) = Some t /\ is_latest (t_field t f) T w /\ sim D f w (o_val o f).

(** Activity lines that exist are never empty. *)
Definition NE (r : rst) : Prop := forall j t, r_obj r j = Some t -> t_active t <> [].

Lemma step_NE D w st r r' : NE r -> (forall j, r_obj r' j = step_event D w st j (r_obj r j)) -> NE r'.
Proof.
  intros HN HR j t E. rewrite HR in E. unfold step_event, obj_event in E.
  assert (Ht : forall now, t_active (touch now (r_obj r j)) <> []).
  { intros now. unfold touch. destruct (r_obj r j) as [t0|] eqn:Ej.
    - destruct (last_active (t_active t0)); [eapply HN; eauto|]. simpl. destruct (t_active t0); discriminate.
    - simpl. destruct (Qltb 0 now); discriminate. }
  destruct (find _ _) as [o|].
  - destruct (chg _ _ _); [eapply HN; eauto|]. injection E as <-. rewrite fields_fold_active. apply Ht.
  - destruct (w_cache w j); [|eapply HN; eauto]. injection E as <-. simpl. destruct (t_active (touch _ _)) eqn:E; [|discriminate].
    apply Ht in E. destruct E.
Qed.

Lemma history D front env0 : perm_ord D -> nan_ok D -> nan_len D -> forall h w r T prev,
  winv w -> (forall i, w_cache w i <> None <-> In i (map o_id prev)) -> (forall i, w_cache w i <> None -> id_ok i) ->
  J D T w r -> NE r -> Forall step_ok h -> times_ok D T h ->
  exists w' r' ps, fold_left (write_step D) h (Some w) = Some w' /\ w_out w' = w_out w ++ ps /\
    parse D front env0 r ps = POk r' /\ ((exists T', J D T' w' r') /\ NE r') /\
    ((0 <= T)%Q -> forall j, extends T (r_obj r j) (r_obj r' j)) /\
    forall k st, nth_error h k = Some st -> let Tk := tq D (s_time st) in
      (forall j, In j (map o_id (s_objs st)) -> shows_active r' j Tk) /\
      (forall j, ~ In j (map o_id (s_objs st)) -> shows_absent r' j Tk) /\
      (forall f, In f fields -> tracked D f prev h -> K D f prev r -> forall o, In o (s_objs st) -> shows_field D r' o f Tk).
Proof.
  intros HP HN HL. induction h as [|st h IH]; intros w r T prev HW Hdom Hids HJ HNE HS HT.
  - exists w, r, []. rewrite app_nil_r. split; auto. split; auto. split; auto. split; [eauto|]. split; [intros _ j; apply extends_refl|].
    intros k st E. destruct k; discriminate.
  - inversion HS as [|? ? Hst HS']; subst. destruct HT as (HT1 & HT2 & HT3). set (T1 := tq D (s_time st)) in *.
    assert (HT1p : (0 <= T1)%Q).
    { pose proof small_pos. destruct HT2; lra. }
    destruct (write_step_ok D w st HP HW (proj1 Hst)) as (w1 & E1 & HW1 & Ht1 & Ho1 & Hdom1 & Hval1).
    destruct (parse_step D front env0 w st r HP HW Hst Hids) as (r1 & P1 & R1).
    destruct (step_J D w st w1 r r1 T HP HN HW Hst HT1 HT2 HJ E1 R1) as (HJ1 & Hext1 & Hv1).
    pose proof (step_NE D w st r r1 HNE R1) as HNE1.
    assert (Hids1 : forall i, w_cache w1 i <> None -> id_ok i).
    { intros i Hi. apply Hdom1 in Hi. apply in_map_iff in Hi. destruct Hi as (o & <- & Hin).
      destruct Hst as (_ & Hok & _). rewrite Forall_forall in Hok. apply (Hok o Hin). }
    destruct (IH w1 r1 T1 (s_objs st) HW1 Hdom1 Hids1 HJ1 HNE1 HS' HT3) as (w2 & r2 & ps & E2 & O2 & P2 & HJ2 & Hext2 & Hk2).
    exists w2, r2, (step_packets D w st ++ ps). cbn [fold_left]. rewrite E1. split; auto.
    split; [rewrite O2, Ho1, app_assoc; reflexivity|].
    split; [rewrite parse_app, P1; exact P2|]. split; auto. split.
    { intros HT0 j. eapply extends_trans; [|apply Hext1; auto|apply Hext2; auto]. pose proof small_pos. lra. }
    specialize (Hext2 HT1p).
    intros [|k] st' Est; simpl in Est.
    + injection Est as <-. cbv zeta. fold T1. split; [|split].
      * intros j Hj. specialize (HJ1 j). specialize (Hdom1 j). destruct (w_cache w1 j) as [c|]; [|exfalso; apply Hdom1 in Hj; congruence].
        destruct HJ1 as (t & Et & (Sa & Ta & _) & Hla & _). specialize (Hext2 j). rewrite Et in Hext2.
        unfold shows_active. destruct (r_obj r2 j) as [t2|]; [|destruct Hext2]. exists t2. split; auto.
        destruct Hext2 as [(a & -> & Ga) _]. apply latest_of_last; auto. apply last_active_entry; auto. apply last_active_nonempty; auto.
      * intros j Hj. specialize (HJ1 j). specialize (Hdom1 j). specialize (HNE1 j).
        destruct (w_cache w1 j) as [c|]; [exfalso; apply Hj, Hdom1; congruence|].
        specialize (Hext2 j). unfold shows_absent. destruct (r_obj r1 j) as [t|]; simpl in Hext2.
        -- destruct HJ1 as ((Sa & Ta & _) & Hla). destruct (r_obj r2 j) as [t2|]; [|destruct Hext2]. right. exists t2. split; auto.
           destruct Hext2 as [(a & -> & Ga) _]. apply latest_of_last; auto. apply last_active_entry; auto.
        -- destruct (r_obj r2 j) as [t2|]; [|left; auto]. right. exists t2. split; auto.
           destruct Hext2 as (a & -> & Ga). apply (latest_of_last [(0%Q, false)] a T1 false); auto.
           ++ exists [], 0%Q. reflexivity.
           ++ constructor; [simpl; lra|constructor].
      * intros f Hf Htr HK o Hin. destruct Htr as [Htr _].
        pose proof (step_K D w st w1 r r1 T prev f HP HN HL HW Hst HT1 HT2 HJ Hdom E1 R1 Hf Htr HK) as HK1.
        destruct (HK1 o Hin) as (t & w0 & Et & Hle & Hsim). specialize (Hext2 (o_id o)). rewrite Et in Hext2.
        unfold shows_field. destruct (r_obj r2 (o_id o)) as [t2|]; [|destruct Hext2]. exists t2, w0. split; auto. split; auto.
        destruct Hext2 as [_ Hx]. destruct (Hx f) as (a & -> & Ga). apply latest_of_last; auto.
        specialize (HJ1 (o_id o)). destruct (w_cache w1 (o_id o)) as [c|].
        -- destruct HJ1 as (t1 & Et1 & (_ & _ & HF) & _). rewrite Et in Et1. injection Et1 as <-. apply HF.
        -- rewrite Et in HJ1. destruct HJ1 as ((_ & _ & HF) & _). apply HF.
    + destruct (Hk2 k st' Est) as (A & B & C). cbv zeta in *. split; auto. split; auto.
      intros f Hf Htr HK o Hin. destruct Htr as [Htr1 Htr2]. apply C; auto.
      apply (step_K D w st w1 r r1 T prev f HP HN HL HW Hst HT1 HT2 HJ Hdom E1 R1 Hf Htr1 HK).
Qed.

(** ** Extraction *)

Definition keep (D : dops) (p : packet) : bool :=
  negb (p_id p =? END_OF_SCENARIO) && negb ((p_id p =? DT) && near D (read_scalars [8%nat] (p_data p)) (repeat zero_byte 8)).

Lemma parse_keep D front env0 : forall ps s, parse D front env0 s (filter (keep D) ps) = parse D front env0 s ps.
Proof.
  induction ps as [|p ps IH]; intros s; auto. cbn [filter]. destruct (keep D p) eqn:E.
  - cbn [parse]. destruct (parse_packet D front env0 s p); auto.
  - rewrite IH. cbn [parse]. assert (Ep : parse_packet D front env0 s p = POk s); [|rewrite Ep; reflexivity].
    unfold keep in E. apply andb_false_iff in E. rewrite !negb_false_iff in E.
    assert (Hid : p_id p = END_OF_SCENARIO \/ p_id p = DT).
    { destruct E as [E|E]; [left; apply Z.eqb_eq; auto|]. apply andb_true_iff in E. destruct E as [E _]. right. apply Z.eqb_eq; auto. }
    unfold parse_packet. destruct Hid as [-> | ->]; reflexivity.
Qed.

(** Packets between two time stamps. *)
Lemma extract_plain D : forall ps s t, no_id ps TIMESTAMP -> no_id ps END_OF_SCENARIO -> x_slice s = Some t ->
  exists s', fold_left (extract_one D) ps (Some s) = Some s' /\ x_out s' = x_out s ++ filter (keep D) ps /\
    x_slice s' = x_slice s /\ x_ts s' = x_ts s /\ x_prev s' = x_prev s /\ x_first s' = x_first s /\ x_restart s' = x_restart s /\
    (x_dts s <> [] \/ (exists b, In (mkP DT b) ps /\ near D (read_scalars [8%nat] b) (repeat zero_byte 8) = false) -> x_dts s' <> []).
Proof.
  induction ps as [|p ps IH]; intros s t H1 H2 Hs.
  - exists s. cbn [fold_left filter]. rewrite app_nil_r. repeat (split; auto). intros [H|(b & [] & _)]; auto.
  - inversion H1 as [|? ? A1 B1]; subst. inversion H2 as [|? ? A2 B2]; subst.
    cbn [fold_left]. unfold extract_one at 2. apply Z.eqb_neq in A1, A2. rewrite A1, A2. cbn [filter]. unfold keep at 1. rewrite A2. cbn [negb andb].
    destruct (p_id p =? DT) eqn:Ed; cbn [andb].
    + destruct (near D (read_scalars [8%nat] (p_data p)) (repeat zero_byte 8)) eqn:En; cbn [negb].
      * destruct (IH s t B1 B2 Hs) as (s' & E & F). exists s'. split; auto. destruct F as (F1 & F2 & F3 & F4 & F5 & F6 & F7).
        repeat (split; auto). intros [H|(b & [Hb|Hb] & Hn)]; auto; [|apply F7; right; eauto]. subst p. cbn [p_data] in En. congruence.
      * rewrite Hs. set (s1 := mkX _ _ _ _ _ _ _ _). destruct (IH s1 t B1 B2 eq_refl) as (s' & E & F1 & F2 & F3 & F4 & F5 & F6 & F7).
        exists s'. split; auto. rewrite F1, F2. unfold s1. cbn [x_out x_slice]. rewrite <- app_assoc. cbn [app].
        repeat (split; auto). intros _. apply F7. left. unfold s1. cbn [x_dts]. destruct (x_dts s); discriminate.
    + cbn [negb]. rewrite Hs. set (s1 := mkX _ _ _ _ _ _ _ _). destruct (IH s1 t B1 B2 eq_refl) as (s' & E & F1 & F2 & F3 & F4 & F5 & F6 & F7).
      exists s'. split; auto. rewrite F1, F2. unfold s1. cbn [x_out x_slice]. rewrite <- app_assoc. cbn [app].
      repeat (split; auto). intros [H|(b & [Hb|Hb] & Hn)]; apply F7; auto; [|right; eauto]. subst p. discriminate.
Qed.

Lemma no_end_shape st b : step_shape st b -> no_id b END_OF_SCENARIO.
Proof.
  intros (fss & dels & L & F & Hd & ->).
  assert (H : no_id (map gpk_packet (s_glob st) ++
      concat (map (fun p => block_of (fst p) (snd p)) (combine (s_objs st) fss)) ++ concat (map del_block dels)) END_OF_SCENARIO).
  { apply Forall_app. split.
    { apply Forall_forall. intros p Hp. apply in_map_iff in Hp. destruct Hp as (g & <- & _). destruct g; discriminate. }
    apply Forall_app. split; apply no_id_concat, Forall_forall; intros l Hl; apply in_map_iff in Hl.
    - destruct Hl as ([o fs] & <- & Hin). cbn [fst snd]. unfold block_of.
      assert (Hfs : forall f, In f fs -> In f fields) by (intros f Hf; apply (F fs); auto; eapply in_combine_r; eauto).
      destruct fs as [|f0 fs]; [constructor|]. constructor; [discriminate|]. apply Forall_forall. intros p Hp. apply in_map_iff in Hp.
      destruct Hp as (f & <- & Hf). rewrite field_packet_id. destruct (fields_kind f (Hfs f Hf)) as (k & Ek & _).
      intros E. rewrite E in Ek. discriminate.
    - destruct Hl as (i & <- & _). repeat constructor; discriminate. }
  destruct (_ ++ _ ++ _) as [|p0 B]; [constructor|]. constructor; [discriminate|auto].
Qed.

Lemma extract_steps D : forall h bs s T, Forall2 step_shape h bs -> Forall step_ok h -> times_ok D T h ->
  x_restart s = false -> (x_first s = true \/ (x_prev s <= T)%Q) ->
  exists s', fold_left (extract_one D) (concat bs) (Some s) = Some s' /\ x_out s' = x_out s ++ filter (keep D) (concat bs) /\
    x_restart s' = false /\ (x_ts s <> [] -> x_ts s' <> []) /\ (x_dts s <> [] -> x_dts s' <> []) /\
    ((exists st b, In st h /\ In (GDt b) (s_glob st) /\ near D b (repeat zero_byte 8) = false) -> x_dts s' <> [] /\ x_ts s' <> []).
Proof.
  induction h as [|st h IH]; intros bs s T HF HS HT Hr Hp; inversion HF as [|? b ? bs' Hsh HF']; subst.
  - exists s. cbn [concat fold_left filter]. rewrite app_nil_r. repeat (split; auto); destruct H as (? & ? & [] & _).
  - inversion HS as [|? ? Hst HS']; subst. destruct HT as (HT1 & HT2 & HT3). cbn [concat].
    rewrite fold_left_app.
    assert (Hb : exists s1, fold_left (extract_one D) b (Some s) = Some s1 /\ x_out s1 = x_out s ++ filter (keep D) b /\
        x_restart s1 = false /\ (x_first s1 = true \/ (x_prev s1 <= tq D (s_time st))%Q) /\ (x_ts s <> [] -> x_ts s1 <> []) /\ (x_dts s <> [] -> x_dts s1 <> []) /\
        ((exists b', In (GDt b') (s_glob st) /\ near D b' (repeat zero_byte 8) = false) -> x_dts s1 <> [] /\ x_ts s1 <> [])).
    { pose proof (no_end_shape _ _ Hsh) as Hne. pose proof small_pos.
      assert (Hdt : forall b', In (GDt b') (s_glob st) -> In (mkP DT b') b).
      { intros b' Hb'. destruct Hsh as (fss & dels & _ & _ & _ & ->).
        assert (Hin : In (mkP DT b') (map gpk_packet (s_glob st))) by (apply in_map_iff; exists (GDt b'); auto).
        match goal with |- In _ (match ?B with [] => _ | _ => _ end) => assert (HB : In (mkP DT b') B) by (apply in_or_app; auto); destruct B end; auto.
        right; auto. }
      destruct (shape_times _ _ Hsh) as [Eb|(rr & Eb & Hnt)].
      - subst b. exists s. cbn [fold_left filter]. rewrite app_nil_r. split; auto. split; auto. split; auto.
        split; [destruct Hp; [auto|right; lra]|]. split; auto. split; auto. intros (b' & Hb' & _). destruct (Hdt b' Hb').
      - subst b. cbn [fold_left]. destruct Hst as (_ & _ & Hg & Hlen).
        assert (E1 : extract_one D (Some s) (mkP TIMESTAMP (s_time st)) =
          Some (mkX (x_out s ++ [mkP TIMESTAMP (s_time st)]) (Some (tq D (s_time st)))
             (match x_ts s with [] => [tq D (s_time st)] | _ => if Qltb (last (x_ts s) 0%Q) (tq D (s_time st)) then x_ts s ++ [tq D (s_time st)] else x_ts s end)
             (x_dts s) (tq D (s_time st)) false (x_restart s || (negb (x_first s) && Qltb (tq D (s_time st)) (x_prev s))) (x_stop s))).
        { unfold extract_one. cbn [p_id p_data]. change (TIMESTAMP =? TIMESTAMP) with true. cbv iota. rewrite read_scalars1 by auto. reflexivity. }
        rewrite E1. set (s1 := mkX _ _ _ _ _ _ _ _).
        inversion Hne as [|? ? _ Hne']; subst.
        destruct (extract_plain D rr s1 _ Hnt Hne' eq_refl) as (s2 & E2 & F1 & F2 & F3 & F4 & F5 & F6 & F7).
        exists s2. split; auto. split; [rewrite F1; unfold s1; cbn [x_out filter]; unfold keep at 2; cbn [p_id]; rewrite <- app_assoc; reflexivity|].
        assert (Hts : x_ts s1 <> []).
        { unfold s1. cbn [x_ts]. destruct (x_ts s); [discriminate|]. destruct (Qltb _ _); discriminate. }
        split; [|split; [|split; [|split]]].
        + rewrite F6. unfold s1. cbn [x_restart]. rewrite Hr. cbn [orb]. destruct Hp as [->|Hp]; [reflexivity|].
          replace (Qltb (tq D (s_time st)) (x_prev s)) with false; [apply andb_false_r|]. symmetry. apply Qltb_ge. lra.
        + right. rewrite F4. unfold s1. cbn [x_prev]. lra.
        + intros _. rewrite F3. auto.
        + intros Hd. apply F7. left. exact Hd.
        + intros (b' & Hb' & Hn). rewrite F3. split; auto. apply F7. right. exists b'.
          rewrite Forall_forall in Hg. specialize (Hg _ Hb'). simpl in Hg. rewrite read_scalars1 by auto. split; auto.
          destruct (Hdt b' Hb') as [Hx|Hx]; [discriminate|auto]. }
    destruct Hb as (s1 & E1 & O1 & R1 & P1 & T1 & D1 & G1). rewrite E1.
    destruct (IH bs' s1 (tq D (s_time st)) HF' HS' HT3 R1 P1) as (s2 & E2 & O2 & R2 & T2 & D2 & G2).
    exists s2. split; auto. split; [rewrite O2, O1, filter_app, app_assoc; reflexivity|]. split; auto. split; auto. split; auto.
    intros (st' & b' & [<-|Hin] & Hb' & Hn).
    + destruct G1 as [G1a G1b]; [eauto|]. split; auto.
    + apply G2. eauto.
Qed.

(** ** The whole way *)

Lemma J0 D T : J D T wst0 rst0.
Proof. intros j. simpl. exact I. Qed.

Definition history_ok (D : dops) (h : list step) : Prop :=
  Forall step_ok h /\ times_ok D (- (2 * SMALL)) h /\
  exists st b, In st h /\ In (GDt b) (s_glob st) /\ near D b (repeat zero_byte 8) = false.

Definition ops_ok (D : dops) : Prop := perm_ord D /\ nan_ok D /\ nan_len D.

Lemma record_load D env0 h : ops_ok D -> history_ok D h ->
  exists ps ts r, record D h = Some ps /\ load_replay D env0 ps = LOk ts r /\
    (forall j t, r_obj r j = Some t -> t_active t <> [] /\ separated (t_active t) /\ forall f, separated (t_field t f)) /\
    forall k st, nth_error h k = Some st -> let Tk := tq D (s_time st) in
      (forall j, In j (map o_id (s_objs st)) -> shows_active r j Tk) /\
      (forall j, ~ In j (map o_id (s_objs st)) -> shows_absent r j Tk) /\
      (forall f, In f fields -> tracked D f [] h -> forall o, In o (s_objs st) -> shows_field D r o f Tk).
Proof.
  intros (HP & HN & HL) (HS & HT & HD).
  destruct (steps_shape D h wst0 eq_refl eq_refl) as (w & bs & EW & _ & _ & HSh & HO & _).
  destruct (extract_steps D h bs xst0 _ HSh HS HT eq_refl (or_introl eq_refl)) as (x & EX & XO & XR & _ & _ & XD).
  destruct (XD HD) as [Hdts Hts]. clear XD.
  unfold record. rewrite EW. destruct (write_end_ok w (w_time w)) as (w2 & -> & ->).
  set (ps := w_out w ++ [mkP END_OF_SCENARIO (w_time w)]). exists ps.
  destruct (x_ts x) as [|q qs] eqn:Ets; [congruence|].
  set (stop := tq D (read_scalars [8%nat] (w_time w))).
  assert (EL : exists x', extract D ps = Some x' /\ x_out x' = filter (keep D) (w_out w) /\ x_restart x' = false /\
     x_dts x' <> [] /\ exists qs', x_ts x' = q :: qs').
  { unfold extract, ps. rewrite fold_left_app, HO. cbn [wst0 w_out app] in *. rewrite EX. cbn [fold_left].
    unfold extract_one. cbn [p_id p_data]. change (END_OF_SCENARIO =? TIMESTAMP) with false. change (END_OF_SCENARIO =? DT) with false.
    change (END_OF_SCENARIO =? END_OF_SCENARIO) with true. cbv iota. rewrite Ets.
    eexists. split; [reflexivity|]. cbn [x_out x_restart x_dts x_ts]. split; [exact XO|]. split; auto. split; auto.
    match goal with |- context [if ?b then _ else _] => destruct b end; simpl; eauto. }
  destruct EL as (x' & EL & EO & ER & ED & (qs' & EQ)).
  destruct (history D q env0 HP HN HL h wst0 rst0 (- (2 * SMALL)) [] winv0) as (w' & r' & ps' & A & B & C & (E & EN) & _ & F); auto.
  { intros i. simpl. tauto. }
  { intros i H. simpl in H. congruence. }
  { apply J0. }
  { intros j t H. discriminate. }
  rewrite EW in A. injection A as <-. cbn [wst0 w_out app] in B. subst ps'.
  exists (x_ts x'), r'. split; auto. split.
  { unfold load_replay. rewrite EL, ER, EQ, EO, parse_keep, C. destruct (x_dts x'); [congruence|reflexivity]. }
  split.
  - intros j t Ej. split; [eapply EN; eauto|]. destruct E as (T' & E). specialize (E j). destruct (w_cache w j).
    + destruct E as (t' & Et & (S & _ & HF) & _). rewrite Ej in Et. injection Et as <-. split; auto. intros f. apply HF.
    + rewrite Ej in E. destruct E as ((S & _ & HF) & _). split; auto. intros f. apply HF.
  - intros k st Ek. destruct (F k st Ek) as (F1 & F2 & F3). split; auto. split; auto. intros f Hf Htr. apply F3; auto. intros o [].
Qed.

(** ** Unknown packets *)

Definition unknown (p : packet) : Prop :=
  kind_of (p_id p) = None /\
  ~ In (p_id p) [OBJ_ID; TIMESTAMP; OBJ_DELETED; DT; END_OF_SCENARIO; TRAFFIC_LIGHT; ELEM_STATE_CHANGE; ENVIRONMENT].

Lemma parse_unknown D front env0 s p : unknown p -> parse_packet D front env0 s p = POk s.
Proof.
  intros [Hk Hn]. unfold parse_packet. rewrite Hk.
  repeat match goal with |- context [if ?a =? ?b then _ else _] =>
    destruct (a =? b) eqn:?E; [exfalso; apply Hn; match goal with H : (_ =? _) = true |- _ => apply Z.eqb_eq in H; rewrite H end; simpl; tauto|] end.
  reflexivity.
Qed.

(** Reader states that differ only in the packets kept, by unknown packets. *)
Inductive insert_unknown : list packet -> list packet -> Prop :=
| iu_nil : insert_unknown [] []
| iu_same p a b : insert_unknown a b -> insert_unknown (p :: a) (p :: b)
| iu_ins p a b : unknown p -> insert_unknown a b -> insert_unknown a (p :: b).

Lemma parse_insert D front env0 a b : insert_unknown a b -> forall s, parse D front env0 s b = parse D front env0 s a.
Proof.
  induction 1 as [|p a b _ IH|p a b Hp _ IH]; intros s; cbn [parse]; auto.
  - destruct (parse_packet D front env0 s p); auto.
  - rewrite parse_unknown by auto. auto.
Qed.

Definition xsim (x y : option xst) : Prop :=
  match x, y with
  | None, None => True
  | Some x, Some y => insert_unknown (x_out x) (x_out y) /\ x_slice x = x_slice y /\ x_ts x = x_ts y /\ x_dts x = x_dts y /\
      x_prev x = x_prev y /\ x_first x = x_first y /\ x_restart x = x_restart y /\ x_stop x = x_stop y
  | _, _ => False
  end.

Lemma insert_snoc a b p : insert_unknown a b -> insert_unknown (a ++ [p]) (b ++ [p]).
Proof. induction 1; simpl; [repeat constructor|constructor; auto|constructor; auto]. Qed.
Lemma insert_snoc_u a b p : unknown p -> insert_unknown a b -> insert_unknown a (b ++ [p]).
Proof. intros Hp. induction 1; simpl; [apply iu_ins; auto; constructor|constructor; auto|constructor; auto]. Qed.
Lemma insert_refl a : insert_unknown a a.
Proof. induction a; constructor; auto. Qed.

Lemma extract_sim D p x y : xsim x y -> xsim (extract_one D x p) (extract_one D y p).
Proof.
  destruct x as [x|], y as [y|]; cbn [xsim]; try contradiction; auto.
  intros (A & B & C & E & F & G & H & I). unfold extract_one. rewrite <- B, <- C, <- E, <- F, <- G, <- H, <- I.
  destruct (p_id p =? TIMESTAMP); [cbn [xsim x_out x_slice x_ts x_dts x_prev x_first x_restart x_stop]; repeat (split; auto using insert_snoc)|].
  destruct (p_id p =? DT).
  { destruct (near _ _ _); [cbn [xsim]; repeat (split; auto)|].
    destruct (x_slice x) eqn:Es; cbn [xsim x_out x_slice x_ts x_dts x_prev x_first x_restart x_stop]; auto. repeat (split; auto using insert_snoc). }
  destruct (p_id p =? END_OF_SCENARIO).
  { destruct (x_ts x); cbn [xsim x_out x_slice x_ts x_dts x_prev x_first x_restart x_stop]; auto; repeat (split; auto). }
  destruct (x_slice x) eqn:Es; cbn [xsim x_out x_slice x_ts x_dts x_prev x_first x_restart x_stop]; auto. repeat (split; auto using insert_snoc).
Qed.

Lemma extract_sim_u D p x y : unknown p -> xsim (Some x) y -> x_slice x <> None -> xsim (Some x) (extract_one D y p).
Proof.
  intros [Hk Hn] Hs Hsl. destruct y as [y|]; [|destruct Hs]. destruct Hs as (A & B & C). unfold extract_one.
  assert (E1 : (p_id p =? TIMESTAMP) = false) by (apply Z.eqb_neq; intros E; apply Hn; rewrite E; simpl; tauto).
  assert (E2 : (p_id p =? DT) = false) by (apply Z.eqb_neq; intros E; apply Hn; rewrite E; simpl; tauto).
  assert (E3 : (p_id p =? END_OF_SCENARIO) = false) by (apply Z.eqb_neq; intros E; apply Hn; rewrite E; simpl; tauto).
  rewrite E1, E2, E3, <- B. destruct (x_slice x) eqn:Es; [|congruence].
  cbn [xsim x_out x_slice x_ts x_dts x_prev x_first x_restart x_stop]. split; [|rewrite Es; auto].
  apply insert_snoc_u; auto. split; auto.
Qed.

Lemma slice_kept D p x x' : extract_one D (Some x) p = Some x' -> x_slice x <> None -> x_slice x' <> None.
Proof.
  unfold extract_one. intros E H.
  repeat match type of E with context [match ?b with _ => _ end] => destruct b end; try discriminate; injection E as <-; cbn [x_slice]; congruence.
Qed.

Lemma extract_none D ps : fold_left (extract_one D) ps None = None.
Proof. induction ps; auto. Qed.

Lemma extract_insert D a b : insert_unknown a b -> forall x y, xsim x y -> match x with Some x => x_slice x <> None | None => True end ->
  xsim (fold_left (extract_one D) a x) (fold_left (extract_one D) b y).
Proof.
  induction 1 as [|p a b _ IH|p a b Hp _ IH]; intros x y Hxy Hsl; cbn [fold_left]; auto.
  - apply IH; [apply extract_sim; auto|]. destruct x as [x|]; [|exact I].
    destruct (extract_one D (Some x) p) eqn:E; auto. eapply slice_kept; eauto.
  - apply IH; auto. destruct x as [x|].
    + apply extract_sim_u; auto.
    + destruct y; [destruct Hxy|exact I].
Qed.

Lemma extract_ts_slice D ps p : p_id p = TIMESTAMP -> In p ps -> forall x x',
  fold_left (extract_one D) ps x = Some x' -> x_slice x' <> None.
Proof.
  intros Hp. assert (Hkeep : forall qs x x', x_slice x <> None -> fold_left (extract_one D) qs (Some x) = Some x' -> x_slice x' <> None).
  { induction qs as [|q qs IH]; intros x x' Hs E; cbn [fold_left] in E; [injection E as <-; auto|].
    destruct (extract_one D (Some x) q) as [x1|] eqn:E1; [|rewrite extract_none in E; discriminate].
    eapply IH; [|exact E]. eapply slice_kept; eauto. }
  induction ps as [|q ps IH]; intros Hin x x' E; [destruct Hin|]. cbn [fold_left] in E. destruct Hin as [->|Hin].
  - destruct x as [x|]; [|simpl in E; rewrite extract_none in E; discriminate].
    unfold extract_one at 2 in E. rewrite Hp in E. change (TIMESTAMP =? TIMESTAMP) with true in E. cbv iota in E.
    eapply Hkeep; [|exact E]. discriminate.
  - eapply IH; eauto.
Qed.

Lemma load_sim D env0 a b : xsim (extract D a) (extract D b) -> load_replay D env0 a = load_replay D env0 b.
Proof.
  unfold load_replay. destruct (extract D a) as [x|], (extract D b) as [y|]; cbn [xsim]; try contradiction; auto.
  intros (A & B & C & E & F & G & H & I). rewrite <- C, <- E, <- H. destruct (x_restart x); auto.
  destruct (x_ts x); auto. destruct (x_dts x); auto. rewrite (parse_insert D _ _ _ _ A). reflexivity.
Qed.

(** Unknown packets after the first time stamp change nothing. *)
Lemma unknown_skipped D env0 pre a b : Exists (fun p => p_id p = TIMESTAMP) pre -> insert_unknown a b ->
  load_replay D env0 (pre ++ b) = load_replay D env0 (pre ++ a).
Proof.
  intros Hex Hi. symmetry. apply load_sim. unfold extract. rewrite !fold_left_app.
  apply Exists_exists in Hex. destruct Hex as (p & Hin & Hp).
  apply extract_insert; auto.
  - destruct (fold_left _ pre _); cbn [xsim]; auto. repeat (split; auto using insert_refl).
  - destruct (fold_left (extract_one D) pre (Some xst0)) as [x|] eqn:E; auto. eapply extract_ts_slice; eauto.
Qed.

(** ** Down to the bytes *)

(** Sizes fit the 32 bit fields of the file. *)
Definition step_small (st : step) : Prop :=
  (forall o, In o (s_objs st) -> forall f, zlen (o_val o f) + 4 < 4294967296) /\
  (forall g, In g (s_glob st) -> zlen (p_data (gpk_packet g)) < 4294967296) /\ zlen (s_time st) < 4294967296.

Lemma kind_range pid k : kind_of pid = Some k -> 0 <= pid < 4294967296.
Proof. destruct pid as [|p|p]; simpl; try discriminate. repeat (destruct p as [p|p|]; try discriminate; try lia). Qed.

Lemma shape_fits st b : step_shape st b -> step_small st -> Forall fits b.
Proof.
  intros (fss & dels & L & F & Hd & ->) (Ho & Hg & Ht).
  assert (Hid : forall i, fits (id_packet i)) by (intros i; split; [split; discriminate || reflexivity|]; unfold id_packet; cbn [p_data]; unfold zlen; rewrite enc32_len; reflexivity).
  assert (H : Forall fits (map gpk_packet (s_glob st) ++
      concat (map (fun p => block_of (fst p) (snd p)) (combine (s_objs st) fss)) ++ concat (map del_block dels))).
  { apply Forall_app. split; [|apply Forall_app; split].
    - apply Forall_forall. intros p Hp. apply in_map_iff in Hp. destruct Hp as (g & <- & Hin). split; [|auto].
      destruct g; split; discriminate || reflexivity.
    - apply Forall_forall. intros p Hp. apply in_concat in Hp. destruct Hp as (l & Hl & Hp). apply in_map_iff in Hl.
      destruct Hl as ([o fs] & <- & Hin). cbn [fst snd] in Hp. unfold block_of in Hp. destruct fs as [|f0 fs]; [destruct Hp|].
      destruct Hp as [<-|Hp]; [apply Hid|]. apply in_map_iff in Hp. destruct Hp as (f & <- & Hf).
      pose proof (in_combine_l _ _ _ _ Hin) as Hino. pose proof (in_combine_r _ _ _ _ Hin) as Hinf.
      destruct (fields_kind f (F _ _ Hinf Hf)) as (k & Ek & _). unfold field_packet. rewrite Ek. split; cbn [p_id p_data].
      + eapply kind_range; eauto.
      + specialize (Ho o Hino f). pose proof (zlen_nonneg (o_val o f)).
        destruct k; cbn [payload]; try lia; rewrite zlen_app; unfold zlen at 1; rewrite enc32_len; lia.
    - apply Forall_forall. intros p Hp. apply in_concat in Hp. destruct Hp as (l & Hl & Hp). apply in_map_iff in Hl.
      destruct Hl as (i & <- & _). destruct Hp as [<-|[<-|[]]]; [apply Hid|]. split; [split; discriminate || reflexivity|reflexivity]. }
  destruct (_ ++ _ ++ _) as [|p0 B]; [constructor|]. constructor; auto. split; [split; discriminate || reflexivity|exact Ht].
Qed.

Lemma record_fits D h ps : record D h = Some ps -> Forall step_small h -> Forall fits ps.
Proof.
  intros HR HS. destruct (record_shape D h) as (ps' & bs & HR' & HSh & ->). rewrite HR in HR'. injection HR' as ->.
  apply Forall_app. split.
  - clear HR. induction HSh as [|st b h bs Hst _ IH]; simpl; [constructor|]. inversion HS; subst. apply Forall_app. split; auto.
    eapply shape_fits; eauto.
  - constructor; [|constructor]. split; [split; discriminate || reflexivity|]. cbn [p_data].
    clear HR HSh. induction h as [|st [|st' h] IH].
    + reflexivity.
    + inversion HS; subst. apply H1.
    + change (last (map s_time (st :: st' :: h)) (repeat zero_byte 8)) with (last (map s_time (st' :: h)) (repeat zero_byte 8)).
      apply IH. inversion HS; auto.
Qed.

(** ** Checks for concrete histories *)

Definition wf_valb (f : fid) (v : bytes) : bool :=
  match kind_of (fst f) with
  | Some KNear => Nat.eqb (List.length v) 8
  | Some KExact => Nat.eqb (List.length v) 48
  | Some (KInt _) => Nat.eqb (List.length v) 4
  | Some KName | Some KStr => negb (match v with [] => true | _ => false end) && (zlen v <? 4294967296)
  | Some KOnceStr => zlen v <? 4294967296
  | Some KOnceVec => Nat.eqb (List.length v mod 16) 0
  | Some KLight => Nat.eqb (List.length v) 56 && (int_of (firstn 4 v) =? Z.of_nat (snd f))
  | None => true
  end.
Lemma wf_valb_ok f v : wf_valb f v = true -> wf_val f v.
Proof.
  unfold wf_valb, wf_val. destruct (kind_of (fst f)) as [[]|]; rewrite ?andb_true_iff, ?Nat.eqb_eq, ?Z.ltb_lt, ?Z.eqb_eq; auto.
  - intros [H1 H2]. split; auto. destruct v; [discriminate|congruence].
  - intros [H1 H2]. split; auto. destruct v; [discriminate|congruence].
Qed.
Fixpoint nodupzb (l : list Z) : bool := match l with [] => true | a :: r => negb (existsb (Z.eqb a) r) && nodupzb r end.
Lemma nodupzb_ok l : nodupzb l = true -> NoDup l.
Proof.
  induction l as [|a l IH]; intros H; constructor; simpl in H; apply andb_true_iff in H; destruct H as [H1 H2]; auto.
  intros Hin. apply memz_In in Hin. rewrite Hin in H1. discriminate.
Qed.
(* sufficient only: texts are not checked *)
Definition glob_okb (g : gpk) : bool :=
  match g with GDt b => Nat.eqb (List.length b) 8 | GEsc _ _ => false | _ => true end.
Lemma glob_okb_ok g : glob_okb g = true -> glob_ok g.
Proof.
  destruct g as [b|b|b|c s]; intros H.
  - apply Nat.eqb_eq in H. exact H.
  - exact I.
  - exact I.
  - discriminate.
Qed.
Definition obj_okb (l : list fid) (o : obj) : bool :=
  (0 <=? o_id o) && (o_id o <? 2147483648) && forallb (fun f => wf_valb f (o_val o f)) l.
Lemma obj_okb_ok l o : obj_okb l o = true -> id_ok (o_id o) /\ forall f, In f l -> wf_val f (o_val o f).
Proof.
  unfold obj_okb. rewrite !andb_true_iff, Z.leb_le, Z.ltb_lt, forallb_forall. intros [H1 H2]. split; [exact H1|].
  intros f Hf. apply wf_valb_ok. auto.
Qed.
Definition step_okb (l : list fid) (st : step) : bool :=
  nodupzb (map o_id (s_objs st)) && forallb (obj_okb l) (s_objs st) &&
  forallb glob_okb (s_glob st) && Nat.eqb (List.length (s_time st)) 8.
Lemma step_okb_gen l st : step_okb l st = true ->
  NoDup (map o_id (s_objs st)) /\
  Forall (fun o => id_ok (o_id o) /\ forall f, In f l -> wf_val f (o_val o f)) (s_objs st) /\
  Forall glob_ok (s_glob st) /\ List.length (s_time st) = 8%nat.
Proof.
  unfold step_okb. rewrite !andb_true_iff, Nat.eqb_eq. intros [[[H1 H2] H3] H4]. split; [|split; [|split]]; auto.
  - apply nodupzb_ok; auto.
  - apply Forall_forall. intros o Ho. rewrite forallb_forall in H2. apply obj_okb_ok. auto.
  - apply Forall_forall. intros g Hg. rewrite forallb_forall in H3. apply glob_okb_ok. auto.
Qed.
Lemma step_okb_ok st : step_okb fields st = true -> step_ok st.
Proof. exact (step_okb_gen fields st). Qed.
Fixpoint times_okb (D : dops) (T : Q) (h : list step) : bool :=
  match h with
  | [] => true
  | st :: r => let T' := tq D (s_time st) in
      Qleb (T + 2 * SMALL) T' && (Qeqb T' 0 || Qleb (2 * SMALL) T') && times_okb D T' r
  end.
Lemma times_okb_ok D : forall h T, times_okb D T h = true -> times_ok D T h.
Proof.
  induction h as [|st h IH]; intros T H; simpl in *; auto. rewrite !andb_true_iff, orb_true_iff in H. destruct H as [[H1 H2] H3].
  split; [apply Qleb_le; auto|]. split; auto. destruct H2 as [H2|H2]; [left; apply Qeq_bool_iff; exact H2|right; apply Qleb_le; auto].
Qed.
Lemma history_check D h st b : forallb (step_okb fields) h = true -> times_okb D (- (2 * SMALL)) h = true ->
  In st h -> In (GDt b) (s_glob st) -> near D b (repeat zero_byte 8) = false -> history_ok D h.
Proof.
  intros H1 H2 H3 H4 H5. split; [|split].
  - apply Forall_forall. intros s Hs. rewrite forallb_forall in H1. apply step_okb_ok. auto.
  - apply times_okb_ok. auto.
  - eauto.
Qed.
