(** Lane sections of a road: storage, lookup, tracing of lanes, width, height, slopes. *)
From Coq Require Import PeanoNat Sorted Permutation.
From Verif Require Import QAux LaneModel LaneProofs LaneSecProofs.
Open Scope Q_scope.

(** ** Stored sections *)

(** the start of section k *)
Definition start_of (l : list lsec) (k : nat) : Q := match nth_error l k with Some x => ls_s x | None => 0 end.
Definition sdecl (x : lsec) : Q * list lane := (ls_s x, ls_lanes x).
(** strictly ascending starts within the road *)
Definition declared (L : Q) (ins : list lsec) : Prop :=
  StronglySorted (fun a b => ls_s a < ls_s b) ins /\ (forall x, In x ins -> 0 <= ls_s x /\ ls_s x <= L).
Definition stored (L : Q) (ins : list lsec) : list lsec := fold_left (AddLaneSection L) ins [].

Lemma set_last_section_sdecl len l : map sdecl (set_last_section len l) = map sdecl l.
Proof. induction l as [|a [|b r] IH]; cbn [set_last_section map] in *; [reflexivity|reflexivity|]. now rewrite IH. Qed.
Lemma set_last_section_snoc len l b : set_last_section len (l ++ [b]) = l ++ [LSec (ls_s b) len (ls_lanes b)].
Proof.
  induction l as [|a r IH]; [reflexivity|]. cbn [app]. rewrite <- IH. destruct r; reflexivity.
Qed.
Lemma stored_snoc L ins x : stored L (ins ++ [x]) = AddLaneSection L (stored L ins) x.
Proof. unfold stored. now rewrite fold_left_app. Qed.
Lemma stored_sdecl L ins : map sdecl (stored L ins) = map sdecl ins.
Proof.
  induction ins as [|x r IH] using rev_ind; [reflexivity|]. rewrite stored_snoc. unfold AddLaneSection.
  rewrite !map_app, <- IH. cbn [map]. f_equal. destruct (rev (stored L r)) eqn:E.
  - apply (f_equal (@rev lsec)) in E. rewrite rev_involutive in E. now rewrite E.
  - now rewrite set_last_section_sdecl.
Qed.
Lemma stored_length L ins : List.length (stored L ins) = List.length ins.
Proof. rewrite <- (map_length sdecl), stored_sdecl. apply map_length. Qed.
Lemma stored_nth L ins k x : nth_error ins k = Some x -> exists y, nth_error (stored L ins) k = Some y /\ ls_s y = ls_s x /\ ls_lanes y = ls_lanes x.
Proof.
  intros H. pose proof (map_nth_error sdecl _ _ H) as M. rewrite <- (stored_sdecl L) in M.
  rewrite nth_error_map in M. destruct (nth_error (stored L ins) k) as [y|]; [|discriminate]. cbn in M. injection M as ? ?. eauto.
Qed.
Lemma stored_start L ins k : start_of (stored L ins) k = start_of ins k.
Proof.
  unfold start_of. destruct (nth_error ins k) as [x|] eqn:E.
  - destruct (stored_nth L ins k x E) as (y & -> & H & _). exact H.
  - apply nth_error_None in E. rewrite (proj2 (nth_error_None _ _)); [reflexivity|]. now rewrite stored_length.
Qed.

(** ascending starts, every section ends where the next one starts, the last one at the end of the road *)
Record tiled (L : Q) (l : list lsec) : Prop := {
  t_mono : forall j k, (j < k)%nat -> (k < List.length l)%nat -> start_of l j < start_of l k;
  t_end : forall k a, nth_error l k = Some a -> ls_end a == if (S k <? List.length l)%nat then start_of l (S k) else L;
  t_last : forall k, (k < List.length l)%nat -> start_of l k <= L;
  t_first : forall k, (k < List.length l)%nat -> 0 <= start_of l k }.

Lemma start_at l k x : nth_error l k = Some x -> start_of l k = ls_s x.
Proof. unfold start_of. now intros ->. Qed.
Lemma start_atq l k x : nth_error l k = Some x -> start_of l k == ls_s x.
Proof. unfold start_of. intros ->. reflexivity. Qed.
Lemma sorted_starts l : StronglySorted (fun a b => ls_s a < ls_s b) l -> forall j k, (j < k)%nat -> (k < List.length l)%nat -> start_of l j < start_of l k.
Proof.
  induction 1 as [|a r S IH F]; cbn [List.length]; intros j k JK K; [lia|]. destruct k as [|k]; [lia|].
  unfold start_of. destruct j as [|j]; cbn [nth_error].
  - destruct (nth_error r k) as [b|] eqn:E; [|apply nth_error_None in E; lia]. rewrite Forall_forall in F. apply F. eapply nth_error_In; eauto.
  - apply IH; lia.
Qed.
Fixpoint chain (L : Q) (l : list lsec) : Prop :=
  match l with
  | [] => True
  | a :: r => match r with
              | [] => ls_end a == L
              | b :: _ => ls_end a == ls_s b /\ chain L r
              end
  end.
Lemma chain_snoc L l x : chain L l -> (forall a, In a l -> 0 <= ls_s a /\ ls_s a <= ls_s x) -> 0 <= ls_s x -> ls_s x <= L -> chain L (AddLaneSection L l x).
Proof.
  unfold AddLaneSection. intros C R X0 X1. assert (LX : ls_end (LSec (ls_s x) (MIN (L - ls_s x) L) (ls_lanes x)) == L).
  { unfold ls_end. cbn [ls_s ls_length]. unfold MIN. qcase; lra. }
  destruct (rev l) as [|b r] eqn:E.
  { cbn [app chain]. exact LX. }
  apply (f_equal (@rev lsec)) in E. rewrite rev_involutive in E. cbn [rev] in E. subst l. rewrite set_last_section_snoc, <- app_assoc.
  cbn [app]. generalize dependent (rev r). clear r. intros l. induction l as [|a l IH]; intros R C.
  - cbn [app chain]. split; [|exact LX]. unfold ls_end. cbn [ls_s ls_length]. destruct (R b) as [B0 B1]; [cbn; auto|].
    unfold MIN. qcase; lra.
  - assert (C2 : chain L (l ++ [b])). { cbn [app chain] in C. destruct l; [exact (proj2 C)|exact (proj2 C)]. }
    specialize (IH ltac:(intros y Y; apply R; cbn; auto) C2).
    destruct l as [|c l]; cbn [app chain] in *; destruct C as [C _]; (split; [exact C|exact IH]).
Qed.
Lemma declared_app L a b : declared L (a ++ b) -> declared L a.
Proof.
  intros [S R]. split; [|intros; apply R; rewrite in_app_iff; auto]. clear R. induction a as [|x r IH]; [constructor|].
  cbn in S. inversion S; subst. constructor; auto. rewrite Forall_forall in *. intros y Y. apply H2. rewrite in_app_iff; auto.
Qed.
Lemma stored_in L ins y : In y (stored L ins) -> exists x, In x ins /\ ls_s y = ls_s x /\ ls_lanes y = ls_lanes x.
Proof.
  intros H. apply (in_map sdecl) in H. rewrite stored_sdecl in H. apply in_map_iff in H. destruct H as (x & E & I). unfold sdecl in E. injection E as ? ?. eauto.
Qed.
Lemma sorted_snoc l x a : StronglySorted (fun a b => ls_s a < ls_s b) (l ++ [x]) -> In a l -> ls_s a < ls_s x.
Proof.
  induction l as [|b r IH]; cbn; intros S I; [destruct I|]. inversion S; subst. destruct I as [<-|I]; auto.
  rewrite Forall_forall in H2. apply H2. rewrite in_app_iff. cbn. auto.
Qed.
Lemma stored_chain L ins : declared L ins -> chain L (stored L ins).
Proof.
  induction ins as [|x r IH] using rev_ind; intros D; [exact I|]. rewrite stored_snoc.
  pose proof (IH (declared_app _ _ _ D)) as C. destruct D as [ST RG].
  destruct (RG x) as [X0 X1]; [rewrite in_app_iff; cbn; auto|]. apply chain_snoc; auto.
  intros a A. apply stored_in in A. destruct A as (y & Y & -> & _). split; [apply RG; rewrite in_app_iff; auto|].
  pose proof (sorted_snoc _ _ _ ST Y). lra.
Qed.
Lemma chain_end L l k a : chain L l -> nth_error l k = Some a -> ls_end a == if (S k <? List.length l)%nat then start_of l (S k) else L.
Proof.
  revert k. induction l as [|x r IH]; intros k C A; [destruct k; discriminate|]. cbn [chain] in C. destruct r as [|y r].
  - destruct k as [|k]; [|destruct k; discriminate]. cbn in A. injection A as ->. exact C.
  - destruct C as [C1 C2]. destruct k as [|k].
    + cbn in A. injection A as ->. exact C1.
    + cbn [nth_error] in A. specialize (IH k C2 A). exact IH.
Qed.
Lemma stored_tiled L ins : declared L ins -> tiled L (stored L ins).
Proof.
  intros D. pose proof (stored_chain _ _ D) as C. destruct D as [ST RG].
  assert (IR : forall k, (k < List.length ins)%nat -> 0 <= start_of ins k /\ start_of ins k <= L).
  { intros k K. unfold start_of. destruct (nth_error ins k) eqn:E; [|apply nth_error_None in E; lia]. apply RG. eapply nth_error_In; eauto. }
  split; try (intros k K; rewrite stored_length in K; rewrite stored_start; apply IR; exact K).
  - intros j k J K. rewrite stored_length in K. rewrite !stored_start. apply sorted_starts; auto.
  - intros k a A. eapply chain_end; eauto.
Qed.

(** ** Section lookup *)
Section Lookup.
Variables (L : Q) (l : list lsec) (s : Q).
Hypothesis T : tiled L l.
Notation N := (List.length l).

(** s lies in section k: [start, next start), below the first start in the first, above the last start in the last one *)
Definition contains (k : nat) : Prop :=
  (k < N)%nat /\ ((0 < k)%nat -> start_of l k <= s) /\ ((S k < N)%nat -> s < start_of l (S k)).
Lemma start_mono j k : (j <= k)%nat -> (k < N)%nat -> start_of l j <= start_of l k.
Proof. intros. destruct (Nat.eq_dec j k) as [->|]; [lra|]. assert (start_of l j < start_of l k) by (apply (t_mono _ _ T); lia). lra. Qed.
Lemma contains_unique j k : contains j -> contains k -> j = k.
Proof.
  intros (J & J1 & J2) (K & K1 & K2). destruct (Nat.lt_total j k) as [H|[H|H]]; auto; exfalso.
  - specialize (J2 ltac:(lia)). specialize (K1 ltac:(lia)). pose proof (start_mono (S j) k H K). lra.
  - specialize (K2 ltac:(lia)). specialize (J1 ltac:(lia)). pose proof (start_mono (S k) j H J). lra.
Qed.

Lemma look_back_spec i : (S i < N)%nat -> s < start_of l (S i) ->
  exists k, look_back l s i = Some k /\ (k <= i)%nat /\ ((0 < k)%nat -> start_of l k < s) /\ s <= start_of l (S k).
Proof.
  induction i as [|i IH]; intros LT S1; cbn [look_back].
  - exists 0%nat. repeat split; try lia. lra.
  - destruct (nth_error l (S i)) as [x|] eqn:E; [|apply nth_error_None in E; lia]. pose proof (start_atq _ _ _ E) as EX.
    destruct (Qltb_spec (ls_s x) s) as [B|B].
    + exists (S i). repeat split; try lia; [intros _; rewrite EX; auto|lra].
    + destruct i as [|i].
      * cbn [look_back]. exists 0%nat. repeat split; try lia. rewrite EX. lra.
      * destruct (Qeq_dec (start_of l (S (S i))) s) as [Q0|Q0].
        -- cbn [look_back]. destruct (nth_error l (S i)) as [y|] eqn:EY; [|apply nth_error_None in EY; lia]. pose proof (start_atq _ _ _ EY) as EYX.
           assert (start_of l (S i) < start_of l (S (S i))) by (apply (t_mono _ _ T); lia).
           destruct (Qltb_spec (ls_s y) s); [|exfalso; lra].
           exists (S i). repeat split; try lia; [intros _; lra|lra].
        -- destruct (IH ltac:(lia)) as (k & K1 & K2 & K3 & K4); [lra|]. exists k. repeat split; auto.
Qed.
Lemma look_fwd_spec d : forall i, (i + d = N)%nat ->
  let k := look_fwd (skipn i l) s i in
  (i <= k <= N)%nat /\ (forall j a, (i <= j < k)%nat -> nth_error l j = Some a -> ls_end a <= s) /\
  (forall a, (k < N)%nat -> nth_error l k = Some a -> s < ls_end a).
Proof.
  induction d as [|d IH]; intros i E; cbn zeta.
  - rewrite skipn_all2 by lia. cbn [look_fwd]. repeat split; intros; lia.
  - destruct (skipn i l) as [|x r] eqn:SK.
    { apply (f_equal (@List.length lsec)) in SK. rewrite skipn_length in SK. cbn in SK. lia. }
    assert (X : nth_error l i = Some x).
    { rewrite <- (Nat.add_0_r i). replace (nth_error l (i + 0)) with (nth_error (skipn i l) 0); [now rewrite SK|].
      rewrite Nat.add_0_r. clear. revert i. induction l as [|a q IH]; intros [|i]; cbn; auto. apply IH. }
    assert (R : r = skipn (S i) l).
    { clear -SK. revert i SK. induction l as [|a q IH]; intros i SK; [destruct i; discriminate|].
      destruct i as [|i]; cbn [skipn] in *; [now injection SK|]. now apply IH. }
    cbn [look_fwd]. destruct (Qltb_spec s (ls_end x)) as [B|B].
    + split; [lia|]. split; [intros; lia|]. intros a _ A. rewrite X in A. injection A as <-. auto.
    + rewrite R. destruct (IH (S i) ltac:(lia)) as (K1 & K2 & K3). split; [lia|]. split; [|exact K3].
      intros j a J A. destruct (Nat.eq_dec j i) as [->|]; [rewrite X in A; injection A as <-; lra|]. apply K2 with (j := j); auto. lia.
Qed.

Lemma section_index h : (h < N)%nat ->
  if Qltb (L + SMALL) s then GetLaneSectionIdxByS l s h = None
  else exists k, GetLaneSectionIdxByS l s h = Some k /\ (k < N)%nat /\ ((0 < k)%nat -> start_of l k <= s) /\
       ((S k < N)%nat -> s <= start_of l (S k)) /\ ((h <= k)%nat -> contains k) /\ ((k < h)%nat -> (0 < k)%nat -> start_of l k < s).
Proof.
  intros H. unfold GetLaneSectionIdxByS.
  destruct (nth_error l h) as [x|] eqn:X; [|apply nth_error_None in X; lia]. pose proof (start_atq _ _ _ X) as EX.
  destruct (rev l) as [|b r] eqn:RV.
  { apply (f_equal (@List.length lsec)) in RV. rewrite rev_length in RV. cbn in RV. lia. }
  assert (B : nth_error l (N - 1) = Some b).
  { assert (E : l = rev r ++ [b]) by (apply (f_equal (@rev lsec)) in RV; rewrite rev_involutive in RV; exact RV).
    rewrite E. rewrite app_length. cbn [List.length]. replace (List.length (rev r) + 1 - 1)%nat with (List.length (rev r)) by lia.
    rewrite nth_error_app2, Nat.sub_diag by lia. reflexivity. }
  pose proof (t_end _ _ T _ _ B) as BE. replace (S (N - 1) <? N)%nat with false in BE by (symmetry; apply Nat.ltb_ge; lia).
  pose proof SMALL_pos as SP.
  destruct (Qltb_spec s (ls_s x)) as [BW|FW]; cbn [andb].
  - destruct h as [|h]; cbn [Nat.ltb Nat.leb].
    + assert (S0 : ls_end x > s).
      { rewrite (t_end _ _ T _ _ X). destruct (1 <? N)%nat eqn:N1.
        - apply Nat.ltb_lt in N1. pose proof (t_mono _ _ T 0 1 ltac:(lia) N1). lra.
        - pose proof (t_last _ _ T 0%nat H). lra. }
      assert (ZL : look_fwd (skipn 0 l) s 0 = 0%nat).
      { destruct l as [|y q]; [cbn in H; lia|]. cbn in X. injection X as ->. cbn [skipn look_fwd]. destruct (Qltb_spec s (ls_end x)); [reflexivity|lra]. }
      rewrite ZL. destruct (Nat.eqb_spec 0 N); [lia|].
      pose proof (t_last _ _ T 0%nat H) as TL. destruct (Qltb_spec (L + SMALL) s); [exfalso; lra|].
      exists 0%nat. assert (C : contains 0). { repeat split; auto; [intros; lia|]. intros N1. pose proof (t_mono _ _ T 0 1 ltac:(lia) N1). lra. }
      split; [reflexivity|]. split; [auto|]. split; [intros; lia|]. split; [intros N1; destruct C as (_ & _ & C); specialize (C N1); lra|]. split; [auto|intros; lia].
    + replace (S h - 1)%nat with h by lia. destruct (look_back_spec h H) as (k & K1 & K2 & K3 & K4); [rewrite EX; auto|].
      pose proof (t_last _ _ T (S h) H) as TL. destruct (Qltb_spec (L + SMALL) s); [exfalso; lra|].
      exists k. split; [auto|]. split; [lia|]. split; [intros K0; specialize (K3 K0); lra|]. split; [auto|]. split; [intros; lia|auto].
  - destruct (look_fwd_spec (N - h) h ltac:(lia)) as (K1 & K2 & K3).
    set (k := look_fwd (skipn h l) s h) in *. clearbody k.
    assert (LO : forall j, (h <= j < k)%nat -> (S j < N)%nat -> start_of l (S j) <= s).
    { intros j J JN. destruct (nth_error l j) as [a|] eqn:A; [|apply nth_error_None in A; lia]. pose proof (K2 j a J A) as Q0.
      rewrite (t_end _ _ T _ _ A) in Q0. apply Nat.ltb_lt in JN. now rewrite JN in Q0. }
    assert (LOk : forall j, (0 < j)%nat -> (j < N)%nat -> (j <= k)%nat -> start_of l j <= s).
    { intros j J0 JN JK. destruct (le_lt_dec j h) as [LE|GT].
      - pose proof (start_mono j h LE H). lra.
      - destruct j as [|j]; [lia|]. apply LO; lia. }
    destruct (Nat.eqb_spec k N) as [KN|KN].
    + assert (LE : ls_end b <= s). { apply (K2 (N - 1)%nat b); auto. lia. } rewrite BE in LE.
      assert (CC : Qltb (ls_end b + SMALL) s = Qltb (L + SMALL) s).
      { destruct (Qltb_spec (ls_end b + SMALL) s), (Qltb_spec (L + SMALL) s); auto; exfalso; lra. }
      rewrite CC. destruct (Qltb_spec (L + SMALL) s); [reflexivity|]. exists (N - 1)%nat.
      assert (C : contains (N - 1)). { split; [lia|]. split; [intros; apply LOk; lia|intros; lia]. }
      split; [reflexivity|]. split; [lia|]. split; [apply C|]. split; [intros; lia|]. split; [auto|intros; lia].
    + assert (KN' : (k < N)%nat) by lia. destruct (nth_error l k) as [a|] eqn:A; [|apply nth_error_None in A; lia].
      pose proof (K3 a KN' eq_refl) as HI. rewrite (t_end _ _ T _ _ A) in HI.
      assert (C : contains k). { split; [lia|]. split; [intros; apply LOk; lia|]. intros N1. apply Nat.ltb_lt in N1. now rewrite N1 in HI. }
      assert (SL : s < L). { destruct (S k <? N)%nat eqn:N1; auto. apply Nat.ltb_lt in N1. pose proof (t_last _ _ T (S k) N1). lra. }
      destruct (Qltb_spec (L + SMALL) s); [exfalso; lra|]. exists k.
      split; [reflexivity|]. split; [auto|]. split; [apply C|]. split; [intros N1; destruct C as (_ & _ & C); specialize (C N1); lra|]. split; [auto|intros; lia].
Qed.
Lemma section_first : l <> [] -> s <= L + SMALL -> exists k, GetLaneSectionIdxByS l s 0 = Some k /\ contains k.
Proof.
  intros NE LE. assert (H : (0 < N)%nat) by (destruct l; [congruence|cbn; lia]). pose proof (section_index 0 H) as X.
  destruct (Qltb_spec (L + SMALL) s); [lra|]. destruct X as (k & K & _ & _ & _ & C & _). exists k. split; auto. apply C. lia.
Qed.
Lemma section_any h : (h < N)%nat -> s <= L + SMALL -> (forall k, (0 < k < N)%nat -> ~ start_of l k == s) ->
  exists k, GetLaneSectionIdxByS l s h = Some k /\ contains k.
Proof.
  intros H LE NB. pose proof (section_index h H) as X. destruct (Qltb_spec (L + SMALL) s); [lra|].
  destruct X as (k & K & KN & LO & HI & _). exists k. split; [auto|]. split; [auto|]. split; [auto|]. intros N1. specialize (HI N1).
  destruct (Qlt_le_dec s (start_of l (S k))); auto. exfalso. apply (NB (S k)); [lia|lra].
Qed.
Lemma section_none h : (N <= h)%nat \/ L + SMALL < s -> GetLaneSectionIdxByS l s h = None.
Proof.
  intros [H|H].
  - unfold GetLaneSectionIdxByS. apply nth_error_None in H. now rewrite H.
  - destruct (le_lt_dec N h) as [G|G].
    + unfold GetLaneSectionIdxByS. apply nth_error_None in G. now rewrite G.
    + pose proof (section_index h G) as X. destruct (Qltb_spec (L + SMALL) s); [auto|lra].
Qed.
(** at the start of a section: that section from a hint not beyond it, the one before it from a hint beyond it *)
Lemma section_boundary h k : (0 < k < N)%nat -> (h < N)%nat -> start_of l k == s ->
  GetLaneSectionIdxByS l s h = Some (if (h <=? k)%nat then k else (k - 1)%nat).
Proof.
  intros K H E. pose proof (section_index h H) as X. pose proof (t_last _ _ T k ltac:(lia)). pose proof SMALL_pos.
  destruct (Qltb_spec (L + SMALL) s); [exfalso; lra|]. destruct X as (j & J & JN & LO & HI & F & B). rewrite J. f_equal.
  assert (JK : (j <= k)%nat). { destruct (le_lt_dec j k); auto. exfalso. specialize (LO ltac:(lia)). pose proof (t_mono _ _ T k j ltac:(lia) JN). lra. }
  assert (KJ : (k <= S j)%nat). { destruct (le_lt_dec k (S j)) as [|G]; auto. exfalso. specialize (HI ltac:(lia)). pose proof (t_mono _ _ T (S j) k G ltac:(lia)). lra. }
  destruct (Nat.leb_spec h k) as [HK|HK].
  - destruct (Nat.eq_dec j k); auto. assert (k = S j) by lia. subst k. destruct (le_lt_dec h j) as [HJ|HJ].
    + destruct (F HJ) as (_ & _ & C). specialize (C ltac:(lia)). lra.
    + assert (h = S j) by lia. subst h. exfalso. unfold GetLaneSectionIdxByS in J.
      destruct (nth_error l (S j)) as [x|] eqn:Y; [|apply nth_error_None in Y; lia]. pose proof (start_atq _ _ _ Y) as EY.
      destruct (rev l); [discriminate|]. destruct (Qltb_spec s (ls_s x)); [lra|]. cbn [andb] in J.
      destruct (look_fwd_spec (N - S j) (S j) ltac:(lia)) as (Q1 & _ & _). revert J Q1. generalize (look_fwd (skipn (S j) l) s (S j)). intros kk J Q1.
      destruct (_ =? _)%nat eqn:QE; [|injection J as J; lia]. destruct (Qltb _ _); [discriminate|]. injection J as J. lia.
  - destruct (Nat.eq_dec j (k - 1)); auto. assert (j = k) by lia. subst j. exfalso. specialize (B HK ltac:(lia)). lra.
Qed.
End Lookup.

(** ** Following a lane through the sections *)

(** the lane reached by following the links of the given sections, in that order *)
Definition links (t : LinkType) (l : list lsec) (id : Z) : Z := fold_left (fun id a => GetConnectingLaneId a id t) l id.
(** the sections i .. j-1 *)
Definition between (l : list lsec) (i j : nat) : list lsec := firstn (j - i) (skipn i l).

Lemma links_zero t l : links t l 0 = 0%Z.
Proof. unfold links. induction l as [|a r IH]; auto. Qed.
Lemma links_cons t a r id : links t (a :: r) id = links t r (GetConnectingLaneId a id t).
Proof. reflexivity. Qed.

Definition prev (l : list lsec) (s : Q) (j : nat) : Q := match j with O => s | S i => start_of l i end.
Lemma prev_cons a l s j : prev (a :: l) s (S j) = prev l (ls_s a) j.
Proof. destruct j; reflexivity. Qed.

Lemma trace_fwd_links l : forall id s tgt m, (m <= Nat.pred (List.length l))%nat -> (forall j, (j < m)%nat -> prev l s j < tgt) ->
  (m = Nat.pred (List.length l) \/ tgt <= prev l s m) -> trace_fwd l id s tgt = links SUCCESSOR (firstn m l) id.
Proof.
  induction l as [|a r IH]; intros id s tgt m M LO HI; [cbn in M; replace m with 0%nat by lia; reflexivity|].
  destruct r as [|b r]; [cbn in M; replace m with 0%nat by lia; reflexivity|].
  transitivity (if negb (id =? 0)%Z && Qltb s tgt then trace_fwd (b :: r) (GetConnectingLaneId a id SUCCESSOR) (ls_s a) tgt else id); [reflexivity|].
  destruct m as [|m].
  - destruct HI as [HI|HI]; [discriminate|]. cbn [prev] in HI. destruct (Qltb_spec s tgt); [lra|]. now rewrite andb_false_r.
  - pose proof (LO 0%nat ltac:(lia)) as L0. cbn [prev] in L0. destruct (Qltb_spec s tgt); [|lra]. rewrite andb_true_r.
    cbn [firstn]. rewrite links_cons. destruct (Z.eqb_spec id 0) as [->|N]; cbn [negb].
    + cbn. now rewrite links_zero.
    + apply IH; [cbn in *; lia| |].
      * intros j J. rewrite <- prev_cons with (s := s). apply LO. lia.
      * rewrite <- prev_cons with (s := s). cbn [List.length Nat.pred] in *. destruct HI as [HI|HI]; [left; lia|auto].
Qed.
Lemma trace_bwd_links l : forall id s tgt m, (m <= Nat.pred (List.length l))%nat -> (forall j, (j < m)%nat -> tgt < prev l s j) ->
  (m = Nat.pred (List.length l) \/ prev l s m <= tgt) -> trace_bwd l id s tgt = links PREDECESSOR (firstn m l) id.
Proof.
  induction l as [|a r IH]; intros id s tgt m M LO HI; [cbn in M; replace m with 0%nat by lia; reflexivity|].
  destruct r as [|b r]; [cbn in M; replace m with 0%nat by lia; reflexivity|].
  transitivity (if negb (id =? 0)%Z && Qltb tgt s then trace_bwd (b :: r) (GetConnectingLaneId a id PREDECESSOR) (ls_s a) tgt else id); [reflexivity|].
  destruct m as [|m].
  - destruct HI as [HI|HI]; [discriminate|]. cbn [prev] in HI. destruct (Qltb_spec tgt s); [lra|]. now rewrite andb_false_r.
  - pose proof (LO 0%nat ltac:(lia)) as L0. cbn [prev] in L0. destruct (Qltb_spec tgt s); [|lra]. rewrite andb_true_r.
    cbn [firstn]. rewrite links_cons. destruct (Z.eqb_spec id 0) as [->|N]; cbn [negb].
    + cbn. now rewrite links_zero.
    + apply IH; [cbn in *; lia| |].
      * intros j J. rewrite <- prev_cons with (s := s). apply LO. lia.
      * rewrite <- prev_cons with (s := s). cbn [List.length Nat.pred] in *. destruct HI as [HI|HI]; [left; lia|auto].
Qed.

Lemma start_skipn l i j : start_of (skipn i l) j = start_of l (i + j).
Proof. unfold start_of. f_equal. f_equal. revert i. induction l as [|a r IH]; intros [|i]; cbn; auto; destruct j; auto. Qed.
Lemma rev_first (l : list lsec) i x : nth_error l i = Some x -> rev (firstn (S i) l) = x :: rev (firstn i l).
Proof.
  intros H. assert (E : firstn (S i) l = firstn i l ++ [x]).
  { revert i H. induction l as [|a r IH]; intros [|i] H; try discriminate; cbn [nth_error firstn app] in *; [congruence|]. f_equal. now apply IH. }
  rewrite E, rev_app_distr. reflexivity.
Qed.
Lemma start_rev l i j : (i < List.length l)%nat -> (j <= i)%nat -> start_of (rev (firstn (S i) l)) j = start_of l (i - j).
Proof.
  revert j. induction i as [|i IH]; intros j I J.
  - destruct j; [|lia]. destruct l as [|a r]; [cbn in I; lia|]. reflexivity.
  - destruct (nth_error l (S i)) as [x|] eqn:E; [|apply nth_error_None in E; lia]. rewrite (rev_first _ _ _ E).
    destruct j as [|j]; [unfold start_of; rewrite Nat.sub_0_r, E; reflexivity|].
    transitivity (start_of (rev (firstn (S i) l)) j); [reflexivity|]. rewrite IH by lia. reflexivity.
Qed.
Lemma firstn_rev (l : list lsec) i c : (i < List.length l)%nat -> (c <= i)%nat -> firstn c (rev (firstn (S i) l)) = rev (between l (S i - c) (S i)).
Proof.
  intros I C. unfold between. replace (S i - (S i - c))%nat with c by lia.
  rewrite firstn_rev. f_equal. rewrite firstn_length, Nat.min_l by lia.
  rewrite skipn_firstn_comm. f_equal. lia.
Qed.

Section Trace.
Variables (r : road).
Notation l := (r_sections r).
Notation N := (List.length l).
Hypothesis T : tiled (r_length r) l.

Lemma start_le j k : (j <= k)%nat -> (k < N)%nat -> start_of l j <= start_of l k.
Proof. intros. eapply start_mono; eauto. Qed.

Section From.
Variables (id : Z) (s tgt : Q) (i : nat).
Hypothesis IDX : GetLaneSectionIdxByS l s 0 = Some i.
Hypothesis CI : contains l s i.
Hypothesis S0 : 0 <= s.
Hypothesis SL : s <= r_length r.

Lemma eff_start : (if Qltb s (0 - SMALL) then r_length r else s) = s.
Proof. pose proof SMALL_pos. destruct (Qltb_spec s (0 - SMALL)); [exfalso; lra|reflexivity]. Qed.

(** to the end *)
Lemma trace_end : tgt < - SMALL \/ tgt = r_length r ->
  GetConnectedLaneIdAtS r id s tgt = links SUCCESSOR (between l i (N - 1)) id.
Proof.
  intros TG. unfold GetConnectedLaneIdAtS. rewrite eff_start, IDX. pose proof SMALL_pos.
  assert (E : (if Qltb tgt (0 - SMALL) then r_length r else tgt) = r_length r).
  { destruct (Qltb_spec tgt (0 - SMALL)); auto. destruct TG; auto. exfalso. lra. }
  rewrite E. destruct (Qltb_spec (s - SMALL) (r_length r)); [|exfalso; lra].
  destruct CI as (IN & LO & HI).
  unfold between. apply trace_fwd_links; try rewrite skipn_length; [lia| |left; lia].
  intros j J. destruct j as [|j]; cbn [prev].
  - specialize (HI ltac:(lia)). pose proof (t_last _ _ T (S i) ltac:(lia)). lra.
  - rewrite start_skipn. pose proof (t_last _ _ T (N - 1)%nat ltac:(lia)).
    pose proof (t_mono _ _ T (i + j)%nat (N - 1)%nat ltac:(lia) ltac:(lia)). lra.
Qed.
(** to the start *)
Lemma trace_start : tgt == 0 -> (SMALL <= s \/ i = 0%nat) ->
  GetConnectedLaneIdAtS r id s tgt = links PREDECESSOR (rev (between l 1 (S i))) id.
Proof.
  intros TG FAR. unfold GetConnectedLaneIdAtS. rewrite eff_start, IDX. pose proof SMALL_pos.
  assert (E : (if Qltb tgt (0 - SMALL) then r_length r else tgt) = tgt) by (destruct (Qltb_spec tgt (0 - SMALL)); [exfalso; lra|auto]).
  rewrite E. destruct CI as (IN & LO & HI). destruct (Qltb_spec (s - SMALL) tgt) as [B|B].
  - assert (I0 : i = 0%nat) by (destruct FAR; [exfalso; lra|auto]). rewrite I0. cbn [Nat.sub between rev firstn skipn].
    unfold between. cbn [Nat.sub firstn rev]. change (links PREDECESSOR [] id) with id.
    apply (trace_fwd_links (skipn 0 l) id s tgt 0); [lia|intros; lia|right; cbn [prev]; lra].
  - replace 1%nat with (S i - i)%nat by lia. rewrite <- firstn_rev by lia. apply trace_bwd_links; try rewrite rev_length, firstn_length, Nat.min_l by lia; [lia| |left; lia].
    intros j J. destruct j as [|j]; cbn [prev]; [lra|]. rewrite start_rev by lia.
    pose proof (t_first _ _ T 0%nat ltac:(lia)). pose proof (t_mono _ _ T 0 (i - j) ltac:(lia) ltac:(lia)). lra.
Qed.
(** to a position further on: the sections crossed are those up to the second one after the target *)
Lemma trace_further m : start_of l 0 <= s -> - SMALL <= tgt -> s < tgt -> (m < N)%nat -> ((0 < m)%nat -> start_of l m < tgt) -> ((S m < N)%nat -> tgt <= start_of l (S m)) ->
  GetConnectedLaneIdAtS r id s tgt = links SUCCESSOR (between l i (Nat.min (m + 2) (N - 1))) id.
Proof.
  intros FST TG ST MN ML MH. unfold GetConnectedLaneIdAtS. rewrite eff_start, IDX. pose proof SMALL_pos.
  assert (E : (if Qltb tgt (0 - SMALL) then r_length r else tgt) = tgt) by (destruct (Qltb_spec tgt (0 - SMALL)); [exfalso; lra|auto]).
  rewrite E. destruct CI as (IN & LO & HI). destruct (Qltb_spec (s - SMALL) tgt) as [B|B]; [|exfalso; lra].
  assert (IM : (i <= m)%nat).
  { destruct (le_lt_dec i m); auto. exfalso. specialize (LO ltac:(lia)). specialize (MH ltac:(lia)). pose proof (start_le (S m) i ltac:(lia) IN). lra. }
  unfold between. apply trace_fwd_links; try rewrite skipn_length; [lia| |].
  - intros j J. destruct j as [|j]; cbn [prev]; [auto|]. rewrite start_skipn.
    destruct (Nat.eq_dec m 0) as [->|M0].
    + assert (i = 0%nat) by lia. subst i. assert (j = 0%nat) by lia. subst j. cbn [Nat.add].
      lra.
    + specialize (ML ltac:(lia)). pose proof (start_le (i + j) m ltac:(lia) MN). lra.
  - destruct (le_lt_dec (N - 1) (m + 2)) as [Q0|Q0]; [left; lia|right].
    replace (Nat.min (m + 2) (N - 1) - i)%nat with (S (m + 1 - i)) by lia. cbn [prev]. rewrite start_skipn.
    replace (i + (m + 1 - i))%nat with (S m) by lia. apply MH. lia.
Qed.
(** to a position further back: the sections crossed are those down to the target, and the one of the target *)
Lemma trace_back m : - SMALL <= tgt -> tgt <= s - SMALL -> contains l tgt m ->
  GetConnectedLaneIdAtS r id s tgt = links PREDECESSOR (rev (between l (Nat.max m 1) (S i))) id.
Proof.
  intros TG ST (MN & ML & MH). unfold GetConnectedLaneIdAtS. rewrite eff_start, IDX. pose proof SMALL_pos.
  assert (E : (if Qltb tgt (0 - SMALL) then r_length r else tgt) = tgt) by (destruct (Qltb_spec tgt (0 - SMALL)); [exfalso; lra|auto]).
  rewrite E. destruct CI as (IN & LO & HI). destruct (Qltb_spec (s - SMALL) tgt) as [B|B]; [exfalso; lra|].
  assert (MI : (m <= i)%nat).
  { destruct (le_lt_dec m i); auto. exfalso. specialize (ML ltac:(lia)). specialize (HI ltac:(lia)). pose proof (start_le (S i) m ltac:(lia) MN). lra. }
  destruct (Nat.eq_dec i 0) as [I0|I0].
  - assert (BT : between l (Nat.max m 1) (S i) = []) by (unfold between; replace (S i - Nat.max m 1)%nat with 0%nat by lia; reflexivity).
    rewrite BT. cbn [rev]. change (links PREDECESSOR [] id) with id. rewrite I0.
    apply (trace_bwd_links (rev (firstn 1 l)) id s tgt 0); [lia|intros; lia|left]. rewrite rev_length, firstn_length, Nat.min_l by lia. reflexivity.
  - set (c := (S i - Nat.max m 1)%nat). replace (Nat.max m 1) with (S i - c)%nat by (unfold c; lia).
    assert (c <= i)%nat by (unfold c; lia). rewrite <- firstn_rev by lia.
    apply trace_bwd_links; try rewrite rev_length, firstn_length, Nat.min_l by lia; [lia| |].
    + intros j J. destruct j as [|j]; cbn [prev]; [lra|]. rewrite start_rev by lia. specialize (MH ltac:(unfold c in J; lia)).
      pose proof (start_le (S m) (i - j) ltac:(unfold c in J; lia) ltac:(lia)). lra.
    + destruct (Nat.eq_dec c i) as [->|NE]; [left; lia|right]. destruct c as [|c'] eqn:EC; [unfold c in EC; lia|]. cbn [prev].
      rewrite start_rev by lia. replace (i - c')%nat with m by (unfold c in EC; lia). apply ML. unfold c in *. lia.
Qed.
End From.

End Trace.
