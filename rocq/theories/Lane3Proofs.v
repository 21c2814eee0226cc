(** Lanes: following a lane in small steps, road width, lane height, slopes. *)
From Coq Require Import PeanoNat Sorted Permutation.
From Verif Require Import QAux LaneModel LaneProofs LaneSecProofs Lane2Proofs.
Open Scope Q_scope.

(** ** Following a lane *)

Lemma info_fwd_links l : forall s i id, l <> [] -> exists c, info_fwd l s i id = ((i + c)%nat, links SUCCESSOR (firstn c l) id) /\
  (c <= Nat.pred (List.length l))%nat /\ (forall j a, (j < c)%nat -> nth_error l j = Some a -> ls_end a - SMALL < s) /\
  (c = Nat.pred (List.length l) \/ exists a, nth_error l c = Some a /\ s <= ls_end a - SMALL).
Proof.
  induction l as [|a r IH]; intros s i id NE; [congruence|]. destruct r as [|b r].
  - exists 0%nat. rewrite Nat.add_0_r. repeat split; auto. intros; lia.
  - assert (E : info_fwd (a :: b :: r) s i id = if Qltb (ls_end a - SMALL) s
      then info_fwd (b :: r) s (S i) (if (id =? 0)%Z then id else GetConnectingLaneId a id SUCCESSOR) else (i, id)) by reflexivity.
    rewrite E. destruct (Qltb_spec (ls_end a - SMALL) s) as [B|B].
    + destruct (IH s (S i) (if (id =? 0)%Z then id else GetConnectingLaneId a id SUCCESSOR) ltac:(discriminate)) as (c & C1 & C2 & C3 & C4).
      exists (S c). rewrite C1. split; [|split; [cbn in *; lia|split]].
      * replace (S i + c)%nat with (i + S c)%nat by lia. f_equal. cbn [firstn]. rewrite links_cons. f_equal.
        destruct (Z.eqb_spec id 0) as [->|]; auto.
      * intros j x J X. destruct j as [|j]; [cbn in X; injection X as <-; auto|]. apply (C3 j); auto. lia.
      * destruct C4 as [C4|C4]; [left; cbn in *; lia|right; exact C4].
    + exists 0%nat. rewrite Nat.add_0_r. split; [reflexivity|]. split; [cbn; lia|]. split; [intros; lia|]. right. exists a. split; [reflexivity|lra].
Qed.
Lemma info_bwd_links l : forall s i id, l <> [] -> exists c, info_bwd l s i id = ((i - c)%nat, links PREDECESSOR (firstn c l) id) /\
  (c <= Nat.pred (List.length l))%nat /\ (forall j, (j < c)%nat -> s < start_of l j) /\
  (c = Nat.pred (List.length l) \/ start_of l c <= s).
Proof.
  induction l as [|a r IH]; intros s i id NE; [congruence|]. destruct r as [|b r].
  - exists 0%nat. rewrite Nat.sub_0_r. repeat split; auto. intros; lia.
  - assert (E : info_bwd (a :: b :: r) s i id = if Qltb s (ls_s a)
      then info_bwd (b :: r) s (i - 1) (if (id =? 0)%Z then id else GetConnectingLaneId a id PREDECESSOR) else (i, id)) by reflexivity.
    rewrite E. destruct (Qltb_spec s (ls_s a)) as [B|B].
    + destruct (IH s (i - 1)%nat (if (id =? 0)%Z then id else GetConnectingLaneId a id PREDECESSOR) ltac:(discriminate)) as (c & C1 & C2 & C3 & C4).
      exists (S c). rewrite C1. split; [|split; [cbn in *; lia|split]].
      * replace (i - 1 - c)%nat with (i - S c)%nat by lia. f_equal. cbn [firstn]. rewrite links_cons. f_equal.
        destruct (Z.eqb_spec id 0) as [->|]; auto.
      * intros j J. destruct j as [|j]; [auto|]. apply (C3 j). lia.
      * destruct C4 as [C4|C4]; [left; cbn in *; lia|right; exact C4].
    + exists 0%nat. rewrite Nat.sub_0_r. split; [reflexivity|]. split; [cbn; lia|]. split; [intros; lia|]. right. unfold start_of. cbn. lra.
Qed.

(** the lane exists in the section and its type is one of the mask *)
Definition usable (b : lsec) (mask id : Z) : Prop := exists x, GetLaneById b id = Some x /\ Z.land mask (l_type x) <> 0%Z.

Section Info.
Variables (r : road) (s : Q) (i : nat) (id mask : Z) (a : lsec).
Notation l := (r_sections r).
Notation N := (List.length l).
Hypothesis T : tiled (r_length r) l.
Hypothesis A : nth_error l i = Some a.

Lemma ai : (i < N)%nat.
Proof. apply nth_error_Some. congruence. Qed.
Lemma info_inside : start_of l i <= s -> s <= (if (S i <? N)%nat then start_of l (S i) else r_length r) ->
  GetLaneInfoByS r s i id mask = Some (false, i, id).
Proof.
  intros LO HI. unfold GetLaneInfoByS. rewrite A. pose proof (t_end _ _ T _ _ A) as E. pose proof (start_atq _ _ _ A).
  destruct (Qltb_spec (ls_end a) s); [exfalso; lra|]. destruct (Qltb_spec s (ls_s a)); [exfalso; lra|]. reflexivity.
Qed.

(** the lane chosen in section k when the links lead to lane id' *)
Definition settled (k : nat) (id' : Z) (res : option (bool * nat * Z)) : Prop :=
  exists b, nth_error l k = Some b /\
  ((id = 0%Z \/ usable b mask id') /\ res = Some (false, k, id') \/
   id <> 0%Z /\ ~ usable b mask id' /\
   res = match fst (GetClosestLaneIdx b s (centre a s id) (GetLaneOffset (r_offset r) s) 0 true mask) with
         | None => None
         | Some j => match nth_error (ls_lanes b) j with None => None | Some x => Some (true, k, l_id x) end
         end).

Lemma settle k id' b : nth_error l k = Some b -> settled k id'
  (if negb (id =? 0)%Z && match GetLaneById b id' with None => true | Some x => (Z.land mask (l_type x) =? 0)%Z end
   then match fst (GetClosestLaneIdx b s (centre a s id) (GetLaneOffset (r_offset r) s) 0 true mask) with
        | None => None
        | Some j => match nth_error (ls_lanes b) j with None => None | Some x => Some (true, k, l_id x) end
        end
   else Some (false, k, id')).
Proof.
  intros B. exists b. split; [exact B|]. destruct (Z.eqb_spec id 0) as [Z0|Z0]; cbn [negb andb]; [left; auto|].
  unfold usable. destruct (GetLaneById b id') as [x|] eqn:G.
  - destruct (Z.eqb_spec (Z.land mask (l_type x)) 0) as [M|M].
    + right. split; [auto|]. split; [|reflexivity]. intros (y & Y & NY). injection Y as <-. contradiction.
    + left. split; [right; eauto|reflexivity].
  - right. split; [auto|]. split; [|reflexivity]. intros (y & Y & _). discriminate.
Qed.

Lemma info_ahead : (if (S i <? N)%nat then start_of l (S i) else r_length r) < s ->
  exists k, (i <= k < N)%nat /\ ((i < k)%nat -> start_of l k - SMALL < s) /\ ((S k < N)%nat -> s <= start_of l (S k) - SMALL) /\
  settled k (links SUCCESSOR (between l i k) id) (GetLaneInfoByS r s i id mask).
Proof.
  intros HI. pose proof ai as IN. unfold GetLaneInfoByS. rewrite A. pose proof (t_end _ _ T _ _ A) as E.
  destruct (Qltb_spec (ls_end a) s) as [B|B]; [|exfalso; rewrite E in B; lra]. cbn [orb]. cbn zeta.
  change (inject_Z (SIGN id) * GetCenterOffset a s id) with (centre a s id).
  assert (NE : skipn i l <> []). { intros Z. apply (f_equal (@List.length lsec)) in Z. rewrite skipn_length in Z. cbn in Z. lia. }
  destruct (info_fwd_links (skipn i l) s i id NE) as (c & C1 & C2 & C3 & C4). rewrite skipn_length in *. rewrite C1.
  assert (NS : forall j, nth_error (skipn i l) j = nth_error l (i + j)).
  { clear. generalize i. induction l as [|x q IH]; intros [|i0] j; cbn; auto; destruct j; auto. }
  destruct (nth_error l (i + c)) as [b|] eqn:BK; [|apply nth_error_None in BK; lia].
  exists (i + c)%nat. split; [lia|]. split; [|split].
  - intros K. destruct c as [|c]; [lia|]. destruct (nth_error l (i + c)) as [x|] eqn:X; [|apply nth_error_None in X; lia].
    assert (Q0 : ls_end x - SMALL < s) by (apply (C3 c); [lia|rewrite NS; auto]). pose proof (t_end _ _ T _ _ X) as EX.
    replace (S (i + c) <? N)%nat with true in EX by (symmetry; apply Nat.ltb_lt; lia). replace (i + S c)%nat with (S (i + c)) by lia. lra.
  - intros K. destruct C4 as [C4|(x & X & Q0)]; [lia|]. rewrite NS in X. pose proof (t_end _ _ T _ _ X) as EX.
    apply Nat.ltb_lt in K. rewrite K in EX. lra.
  - unfold between. replace (i + c - i)%nat with c by lia. now apply settle.
Qed.
Lemma info_behind : s < start_of l i ->
  exists k, (k <= i)%nat /\ ((0 < k)%nat -> start_of l k <= s) /\ ((k < i)%nat -> s < start_of l (S k)) /\
  settled k (links PREDECESSOR (rev (between l (S k) (S i))) id) (GetLaneInfoByS r s i id mask).
Proof.
  intros LO. pose proof ai as IN. unfold GetLaneInfoByS. rewrite A. pose proof (t_end _ _ T _ _ A) as E. pose proof (start_atq _ _ _ A) as SA.
  assert (PE : start_of l i <= ls_end a).
  { rewrite E. destruct (S i <? N)%nat eqn:K; [apply Nat.ltb_lt in K; pose proof (t_mono _ _ T i (S i) ltac:(lia) K); lra|]. apply (t_last _ _ T); auto. }
  destruct (Qltb_spec (ls_end a) s) as [B|B]; [exfalso; lra|]. cbn [orb]. destruct (Qltb_spec s (ls_s a)) as [B2|B2]; [|exfalso; lra]. cbn zeta.
  change (inject_Z (SIGN id) * GetCenterOffset a s id) with (centre a s id).
  assert (LEN : List.length (rev (firstn (S i) l)) = S i) by (rewrite rev_length, firstn_length; lia).
  assert (NE : rev (firstn (S i) l) <> []). { intros Z. rewrite Z in LEN. discriminate. }
  destruct (info_bwd_links (rev (firstn (S i) l)) s i id NE) as (c & C1 & C2 & C3 & C4). rewrite LEN in *. cbn [Nat.pred] in *. rewrite C1.
  destruct (nth_error l (i - c)) as [b|] eqn:BK; [|apply nth_error_None in BK; lia].
  exists (i - c)%nat. split; [lia|]. split; [|split].
  - intros K. destruct C4 as [C4|C4]; [lia|]. rewrite start_rev in C4 by lia. exact C4.
  - intros K. destruct c as [|c]; [lia|]. pose proof (C3 c ltac:(lia)) as Q0. rewrite start_rev in Q0 by lia.
    replace (S (i - S c)) with (i - c)%nat by lia. exact Q0.
  - rewrite firstn_rev by lia. replace (S (i - c)) with (S i - c)%nat by lia. now apply settle.
Qed.
End Info.

(** ** Road width *)

Lemma section_at_spec L l s : tiled L l -> l <> [] -> exists k, section_at l s = nth_error l k /\ contains l s k.
Proof.
  intros T NE. assert (H : forall q p, l = p ++ q -> q <> [] -> (p <> [] -> start_of l (List.length p) <= s) ->
    exists k, section_at q s = nth_error l k /\ contains l s k).
  { induction q as [|a q IH]; intros p E Q0 P; [congruence|]. destruct q as [|b q].
    - exists (List.length p). split; [rewrite E, nth_error_app2, Nat.sub_diag by lia; reflexivity|].
      assert (List.length l = S (List.length p)) by (rewrite E, app_length; cbn; lia). split; [lia|]. split; [|intros; lia].
      intros K. apply P. destruct p; [cbn in K; lia|discriminate].
    - assert (BS : start_of l (S (List.length p)) == ls_s b).
      { unfold start_of. rewrite E, nth_error_app2 by lia. replace (S (List.length p) - List.length p)%nat with 1%nat by lia. reflexivity. }
      assert (SE : section_at (a :: b :: q) s = if Qltb s (ls_s b) then Some a else section_at (b :: q) s) by reflexivity.
      rewrite SE. destruct (Qltb_spec s (ls_s b)) as [B|B].
      + exists (List.length p). split; [rewrite E, nth_error_app2, Nat.sub_diag by lia; reflexivity|].
        assert (List.length l = (List.length p + S (S (List.length q)))%nat) by (rewrite E, app_length; reflexivity). split; [lia|]. split.
        * intros K. apply P. destruct p; [cbn in K; lia|discriminate].
        * intros _. lra.
      + apply (IH (p ++ [a])); [rewrite <- app_assoc; exact E|discriminate|]. intros _. rewrite app_length. cbn [List.length].
        replace (List.length p + 1)%nat with (S (List.length p)) by lia. lra. }
  apply (H l []); auto. congruence.
Qed.

(** the lane furthest to the left (right) of the type, 0 if there is none on that side *)
Definition outmost_left (ls : lsec) (mask id : Z) : Prop :=
  (id = 0%Z /\ (forall x, In x (ls_lanes ls) -> (0 < l_id x)%Z -> Z.land (l_type x) mask = 0%Z)) \/
  ((0 < id)%Z /\ (exists x, In x (ls_lanes ls) /\ l_id x = id /\ Z.land (l_type x) mask <> 0%Z) /\
   (forall x, In x (ls_lanes ls) -> (id < l_id x)%Z -> Z.land (l_type x) mask = 0%Z)).
Definition outmost_right (ls : lsec) (mask id : Z) : Prop :=
  (id = 0%Z /\ (forall x, In x (ls_lanes ls) -> (l_id x < 0)%Z -> Z.land (l_type x) mask = 0%Z)) \/
  ((id < 0)%Z /\ (exists x, In x (ls_lanes ls) /\ l_id x = id /\ Z.land (l_type x) mask <> 0%Z) /\
   (forall x, In x (ls_lanes ls) -> (l_id x < id)%Z -> Z.land (l_type x) mask = 0%Z)).
(** there is a centre lane *)
Definition has_centre (ls : lsec) : Prop := exists x, In x (ls_lanes ls) /\ l_id x = 0%Z.

Lemma outmost_gen (sg : Z) mask l : (sg = 1%Z \/ sg = (-1)%Z) ->
  StronglySorted (fun a b => (sg * l_id b <= sg * l_id a)%Z) l -> (exists x, In x l /\ l_id x = 0%Z) ->
  (outmost l mask = 0%Z /\ (forall x, In x l -> (0 < sg * l_id x)%Z -> Z.land (l_type x) mask = 0%Z)) \/
  ((0 < sg * outmost l mask)%Z /\ (exists x, In x l /\ l_id x = outmost l mask /\ Z.land (l_type x) mask <> 0%Z) /\
   (forall x, In x l -> (sg * outmost l mask < sg * l_id x)%Z -> Z.land (l_type x) mask = 0%Z)).
Proof.
  intros SG S C. induction S as [|a q S IH F]; [destruct C as (x & [] & _)|]. cbn [outmost]. rewrite Forall_forall in F.
  destruct (Z.eqb_spec (l_id a) 0) as [Z0|Z0].
  - left. split; auto. intros x [<-|X] P; [lia|]. specialize (F _ X). lia.
  - destruct C as (z & [->|ZI] & ZZ); [contradiction|].
    destruct (Z.eqb_spec (Z.land (l_type a) mask) 0) as [M|M]; cbn [negb].
    + destruct IH as [(E & H)|(P & (x & X1 & X2 & X3) & H)]; [eauto| |].
      * left. split; auto. intros x [<-|X] P; auto.
      * right. split; auto. split; [exists x; cbn; auto|]. intros y [<-|Y] Q0; auto.
    + right. pose proof (F _ ZI). split; [lia|]. split; [exists a; cbn; auto|]. intros x [<-|X] Q0; [lia|]. specialize (F _ X). lia.
Qed.
Lemma sorted_rev {A} (R : A -> A -> Prop) l : StronglySorted R l -> StronglySorted (fun a b => R b a) (rev l).
Proof.
  induction 1 as [|a q S IH F]; cbn; [constructor|]. clear S. rewrite Forall_forall in F.
  assert (F' : forall x, In x (rev q) -> R a x) by (intros x X; apply F; now apply in_rev). clear F.
  induction IH as [|b w S2 IH2 F2]; cbn; [repeat constructor|]. constructor; [apply IH2; intros; apply F'; cbn; auto|].
  rewrite Forall_forall in *. intros x X. rewrite in_app_iff in X. cbn in X. destruct X as [X|[<-|[]]]; auto. apply F'. cbn. auto.
Qed.
Lemma outmost_left_spec ls mask : desc (ls_lanes ls) -> has_centre ls -> outmost_left ls mask (outmost (ls_lanes ls) mask).
Proof.
  intros D C. destruct (outmost_gen 1 mask (ls_lanes ls)) as [(E & H)|(P & H)]; auto.
  - unfold desc in D. revert D. clear. induction 1 as [|a q S IH F]; constructor; auto. eapply Forall_impl; [|exact F]. cbv beta. intros; lia.
  - left. split; auto. intros x X Q0. apply H; auto. lia.
  - right. destruct H as [H1 H2]. split; [lia|]. split; auto. intros x X Q0. apply H2; auto. lia.
Qed.
Lemma outmost_right_spec ls mask : desc (ls_lanes ls) -> has_centre ls -> outmost_right ls mask (outmost (rev (ls_lanes ls)) mask).
Proof.
  intros D C. destruct (outmost_gen (-1) mask (rev (ls_lanes ls))) as [(E & H)|(P & (x & X1 & X2 & X3) & H)]; auto.
  - unfold desc in D. apply sorted_rev in D. revert D. clear. induction 1 as [|a q S IH F]; constructor; auto. eapply Forall_impl; [|exact F]. cbv beta. intros; lia.
  - destruct C as (x & X & E). exists x. rewrite <- in_rev. auto.
  - left. split; auto. intros x X Q0. apply H; [now rewrite <- in_rev|]. lia.
  - right. split; [lia|]. split; [exists x; rewrite <- in_rev in X1; auto|]. intros y Y Q0. apply H; [now rewrite <- in_rev|]. lia.
Qed.
Lemma outmost_left_unique ls mask a b : outmost_left ls mask a -> outmost_left ls mask b -> a = b.
Proof.
  intros [(-> & H)|(P & (x & X1 & X2 & X3) & H)] [(-> & K)|(Q0 & (y & Y1 & Y2 & Y3) & K)]; auto.
  - exfalso. apply Y3. apply H; auto. lia.
  - exfalso. apply X3. apply K; auto. lia.
  - destruct (Z.lt_total a b) as [L|[L|L]]; auto; exfalso; [apply Y3; apply H; auto; lia|apply X3; apply K; auto; lia].
Qed.
Lemma outmost_right_unique ls mask a b : outmost_right ls mask a -> outmost_right ls mask b -> a = b.
Proof.
  intros [(-> & H)|(P & (x & X1 & X2 & X3) & H)] [(-> & K)|(Q0 & (y & Y1 & Y2 & Y3) & K)]; auto.
  - exfalso. apply Y3. apply H; auto. lia.
  - exfalso. apply X3. apply K; auto. lia.
  - destruct (Z.lt_total a b) as [L|[L|L]]; auto; exfalso; [apply X3; apply K; auto; lia|apply Y3; apply H; auto; lia].
Qed.

Section Width.
Variables (L : Q) (l : list lsec) (s : Q) (k : nat) (ls : lsec) (mask : Z).
Hypothesis T : tiled L l.
Hypothesis K : contains l s k.
Hypothesis LS : nth_error l k = Some ls.
Lemma section_at_eq : section_at l s = Some ls.
Proof.
  assert (NE : l <> []) by (intros E; rewrite E in LS; destruct k; discriminate).
  destruct (section_at_spec L l s T NE) as (j & -> & C). rewrite (contains_unique L l s T j k C K). exact LS.
Qed.
Hypothesis D : desc (ls_lanes ls).
Hypothesis C : has_centre ls.
Lemma road_width_left a : outmost_left ls mask a -> exists w, RoadWidth l s 1 mask = Some w /\ w == Qabs (widths ls s false (Z.abs_nat a)).
Proof.
  intros H. unfold RoadWidth. rewrite section_at_eq. eexists. split; [reflexivity|]. cbn [Z.ltb Z.compare Z.eqb].
  rewrite (outmost_left_unique _ _ _ _ H (outmost_left_spec ls mask D C)).
  rewrite outer_sum. destruct (Z.ltb_spec (outmost (ls_lanes ls) mask) 0) as [N|N]; [|ring].
  pose proof (outmost_left_spec ls mask D C) as [(E & _)|(P & _)]; lia.
Qed.
Lemma road_width_right b : outmost_right ls mask b -> exists w, RoadWidth l s (-1) mask = Some w /\ w == Qabs (widths ls s true (Z.abs_nat b)).
Proof.
  intros H. unfold RoadWidth. rewrite section_at_eq. eexists. split; [reflexivity|]. cbn [Z.ltb Z.compare Z.eqb].
  rewrite (outmost_right_unique _ _ _ _ H (outmost_right_spec ls mask D C)).
  rewrite outer_sum. pose proof (outmost_right_spec ls mask D C) as [(E & _)|(P & _)].
  - rewrite E. cbn. reflexivity.
  - destruct (Z.ltb_spec (outmost (rev (ls_lanes ls)) mask) 0) as [N|N]; [ring|lia].
Qed.
Lemma road_width_both : forall x y, RoadWidth l s 1 mask = Some x -> RoadWidth l s (-1) mask = Some y ->
  exists w, RoadWidth l s 0 mask = Some w /\ w == x + y.
Proof.
  unfold RoadWidth. rewrite section_at_eq. cbn [Z.ltb Z.compare Z.eqb]. intros x y [= <-] [= <-]. eexists. split; [reflexivity|]. ring.
Qed.
Lemma driving_lanes side : RoadDrivingLanesSide l s side = Some (GetNumberOfDrivingLanesSide ls side).
Proof. unfold RoadDrivingLanesSide. now rewrite section_at_eq. Qed.
End Width.

(** ** Lane height *)

Lemma ub_at {A} (stop : A -> bool) p q : (forall x, In x p -> stop x = false) -> (match q with [] => True | x :: _ => stop x = true end) ->
  upper_bound stop (p ++ q) = List.length p.
Proof.
  induction p as [|a p IH]; cbn; intros P Q0.
  - destruct q as [|x q]; auto. cbn. now rewrite Q0.
  - rewrite P by auto. f_equal. apply IH; auto.
Qed.

(** linear interpolation *)
Definition lerp (a b f : Q) : Q := a + f * (b - a).
(** the position across the lane: 0 at the inner edge (and beyond), 1 at the outer edge (and beyond), linear between *)
Definition across (id : Z) (width offset : Q) (g : Q) : Prop :=
  let o := offset * inject_Z (SIGN id) in
  (o <= - (width / 2) /\ g == 0) \/ (width / 2 <= o /\ g == 1) \/ (- (width / 2) <= o /\ o <= width / 2 /\ g == (1 # 2) + o / width).
Lemma across_fun id width offset g g' : 0 < width -> across id width offset g -> across id width offset g' -> g == g'.
Proof.
  unfold across. cbn zeta. generalize (offset * inject_Z (SIGN id)). intros o W.
  assert (LO : o == - (width / 2) -> o / width == - (1 # 2)). { intros ->. field. lra. }
  assert (HI : o == width / 2 -> o / width == 1 # 2). { intros ->. field. lra. }
  assert (WW : width / 2 == width * (1 # 2)) by (field). rewrite WW in *.
  intros [(A & B)|[(A & B)|(A1 & A2 & B)]] [(C & D)|[(C & D)|(C1 & C2 & D)]]; try lra;
    first [rewrite B, D, LO by lra; lra | rewrite B, D, HI by lra; lra | rewrite B, D; reflexivity].
Qed.
Lemma clamp_across id width offset : 0 < width ->
  across id width offset (CLAMP ((offset * inject_Z (SIGN id) + (1 # 2) * width) / width) 0 1).
Proof.
  intros W. unfold across. cbn zeta. generalize (offset * inject_Z (SIGN id)). intros o.
  assert (E : (o + (1 # 2) * width) / width == (1 # 2) + o / width) by (field; lra).
  assert (WW : width / 2 == width * (1 # 2)) by (field). rewrite WW.
  assert (I : 0 < / width) by (apply Qinv_lt_0_compat; auto).
  assert (II : width * / width == 1) by (field; lra).
  assert (EO : o / width == o * / width) by reflexivity.
  set (x := (o + (1 # 2) * width) / width) in *. clearbody x. rewrite EO in *.
  generalize dependent (/ width). intros iw E I II _.
  unfold CLAMP, MIN, MAX. destruct (Qltb_spec 0 x) as [B|B].
  - destruct (Qltb_spec x 1) as [B2|B2].
    + right; right. repeat split; auto; nra.
    + right; left. split; [nra|lra].
  - destruct (Qltb_spec 0 1) as [B2|B2]; [|exfalso; lra]. left. split; [nra|lra].
Qed.
Lemma across_range id width offset g : across id width offset g -> 0 < width -> 0 <= g /\ g <= 1.
Proof.
  intros A W. pose proof (across_fun _ _ _ _ _ W A (clamp_across id width offset W)) as ->.
  unfold CLAMP, MIN, MAX. destruct (Qltb_spec 0 ((offset * inject_Z (SIGN id) + (1 # 2) * width) / width)); qcase; lra.
Qed.

Section Height.
Variables (l : lane) (s offset : Q) (w : lane_width).
Let width := Evaluate (snd w) (s - fst w).
Hypothesis W : GetWidthByS l s = Some w.
Hypothesis POS : 0 < width.

Lemma height_between p h n q : l_height l = p ++ h :: n :: q -> (forall x, In x p -> lh_s x <= lh_s h) -> lh_s h - SMALL <= s -> s < lh_s n - SMALL ->
  exists v, GetHeightBySAndOffset l s offset = Some v /\ forall g, across (l_id l) width offset g ->
    let f := (s - lh_s h) / (lh_s n - lh_s h) in
    v == lerp (lerp (lh_inner h) (lh_inner n) f) (lerp (lh_outer h) (lh_outer n) f) g.
Proof.
  intros E P LO HI. unfold GetHeightBySAndOffset. rewrite W. fold width.
  assert (UB : upper_bound (fun h0 => Qltb s (lh_s h0 - SMALL)) (l_height l) = List.length (p ++ [h])).
  { rewrite E. replace (p ++ h :: n :: q) with ((p ++ [h]) ++ n :: q) by (rewrite <- app_assoc; reflexivity). apply ub_at.
    - intros x X. rewrite in_app_iff in X. cbn in X. apply Qltb_ge. destruct X as [X|[<-|[]]]; [specialize (P _ X); lra|auto].
    - apply Qltb_lt. auto. }
  rewrite UB. rewrite app_length. cbn [List.length]. replace (Nat.pred (List.length p + 1)) with (List.length p) by lia.
  assert (NH : nth_error (l_height l) (List.length p) = Some h) by (rewrite E, nth_error_app2, Nat.sub_diag by lia; reflexivity).
  assert (NN : nth_error (l_height l) (S (List.length p)) = Some n).
  { rewrite E, nth_error_app2 by lia. replace (S (List.length p) - List.length p)%nat with 1%nat by lia. reflexivity. }
  rewrite NH, NN. destruct (l_height l) as [|h0 hs] eqn:HE; [destruct (List.length p); discriminate|].
  destruct (Qeqb_spec (lh_s n - lh_s h) 0) as [Z|Z]; [exfalso; lra|].
  destruct (Qeqb_spec width 0) as [Z2|Z2]; [exfalso; lra|].
  (eexists; split; [reflexivity|]; intros g G; cbn zeta;
    rewrite <- (across_fun _ _ _ _ _ POS G (clamp_across (l_id l) width offset POS)); reflexivity).
Qed.
Lemma height_last p h : l_height l = p ++ [h] -> (forall x, In x p -> lh_s x <= lh_s h) -> lh_s h - SMALL <= s ->
  exists v, GetHeightBySAndOffset l s offset = Some v /\ forall g, across (l_id l) width offset g -> v == lerp (lh_inner h) (lh_outer h) g.
Proof.
  intros E P LO. unfold GetHeightBySAndOffset. rewrite W. fold width.
  assert (UB : upper_bound (fun h0 => Qltb s (lh_s h0 - SMALL)) (l_height l) = List.length (p ++ [h])).
  { rewrite E. rewrite <- (app_nil_r (p ++ [h])) at 1. apply ub_at; auto.
    intros x X. rewrite in_app_iff in X. cbn in X. apply Qltb_ge. destruct X as [X|[<-|[]]]; [specialize (P _ X); lra|auto]. }
  rewrite UB. rewrite app_length. cbn [List.length]. replace (Nat.pred (List.length p + 1)) with (List.length p) by lia.
  assert (NH : nth_error (l_height l) (List.length p) = Some h) by (rewrite E, nth_error_app2, Nat.sub_diag by lia; reflexivity).
  assert (NN : nth_error (l_height l) (S (List.length p)) = None).
  { rewrite E, nth_error_app2 by lia. replace (S (List.length p) - List.length p)%nat with 1%nat by lia. reflexivity. }
  rewrite NH, NN. destruct (l_height l) as [|h0 hs] eqn:HE; [destruct (List.length p); discriminate|].
  destruct (Qeqb_spec width 0) as [Z2|Z2]; [exfalso; lra|].
  (eexists; split; [reflexivity|]; intros g G;
    rewrite <- (across_fun _ _ _ _ _ POS G (clamp_across (l_id l) width offset POS)); reflexivity).
Qed.
End Height.

Lemma lerp_bounds a b f lo hi : lo <= a -> a <= hi -> lo <= b -> b <= hi -> 0 <= f -> f <= 1 -> lo <= lerp a b f /\ lerp a b f <= hi.
Proof. unfold lerp. intros. split; nra. Qed.
Lemma fraction a b s : a <= s -> s <= b -> a < b -> 0 <= (s - a) / (b - a) /\ (s - a) / (b - a) <= 1.
Proof.
  intros. split.
  - apply Qle_shift_div_l; lra.
  - apply Qle_shift_div_r; lra.
Qed.
Lemma height_bounds l s offset w p h n q v lo hi : GetWidthByS l s = Some w -> 0 < Evaluate (snd w) (s - fst w) ->
  l_height l = p ++ h :: n :: q -> (forall x, In x p -> lh_s x <= lh_s h) -> lh_s h <= s -> s < lh_s n - SMALL ->
  (forall x, x = h \/ x = n -> lo <= lh_inner x /\ lh_inner x <= hi /\ lo <= lh_outer x /\ lh_outer x <= hi) ->
  GetHeightBySAndOffset l s offset = Some v -> lo <= v /\ v <= hi.
Proof.
  intros W POS E P LO HI B V. pose proof SMALL_pos.
  destruct (height_between l s offset w W POS p h n q E P ltac:(lra) HI) as (v' & V' & G). rewrite V in V'. injection V' as <-.
  pose proof (clamp_across (l_id l) _ offset POS) as CA. specialize (G _ CA). cbn zeta in G. rewrite G.
  destruct (B h (or_introl eq_refl)) as (H1 & H2 & H3 & H4). destruct (B n (or_intror eq_refl)) as (N1 & N2 & N3 & N4).
  destruct (fraction (lh_s h) (lh_s n) s) as [F0 F1]; try lra. destruct (across_range _ _ _ _ CA POS) as [G0 G1].
  pose proof (lerp_bounds (lh_inner h) (lh_inner n) _ lo hi H1 H2 N1 N2 F0 F1) as [I0 I1].
  pose proof (lerp_bounds (lh_outer h) (lh_outer n) _ lo hi H3 H4 N3 N4 F0 F1) as [O0 O1].
  apply lerp_bounds; auto.
Qed.

(** ** Slopes *)

(** the width record in force *)
Definition lane_rec (ls : lsec) (s : Q) (id : Z) : option lane_width :=
  match GetLaneById ls id with None => None | Some l => GetWidthByS l (s - ls_s ls) end.
Definition rec_slope (ls : lsec) (s : Q) (w : lane_width) : Q := EvaluatePrim (snd w) (s - (ls_s ls + fst w)).
(** slope of the width of a lane, summed over the lanes 1 .. n of a side *)
Definition lane_slope (ls : lsec) (s : Q) (id : Z) : Q := match lane_rec ls s id with None => 0 | Some w => rec_slope ls s w end.
Fixpoint slopes (ls : lsec) (s : Q) (neg : bool) (n : nat) : Q :=
  match n with O => 0 | S m => slopes ls s neg m + lane_slope ls s (lane_no neg n) end.

Lemma width_prim_false ls s neg n : forall acc, (forall k, (0 < k <= n)%nat -> lane_rec ls s (lane_no neg k) <> None) ->
  width_prim ls s neg n false acc == acc + slopes ls s neg n.
Proof.
  induction n as [|m IH]; intros acc R; cbn [width_prim slopes]; [ring|].
  pose proof (R (S m) ltac:(lia)) as RS. unfold lane_slope, rec_slope. unfold lane_rec in RS |- *. unfold lane_no in RS |- *.
  destruct (GetLaneById ls _) as [l|]; [|congruence]. destruct (GetWidthByS l _) as [w|]; [|congruence].
  rewrite IH by (intros; apply R; lia). ring.
Qed.
Lemma width_prim_true ls s neg m acc : (forall k, (0 < k <= S m)%nat -> lane_rec ls s (lane_no neg k) <> None) ->
  width_prim ls s neg (S m) true acc == acc + lane_slope ls s (lane_no neg (S m)) / 2 + slopes ls s neg m.
Proof.
  intros R. cbn [width_prim]. pose proof (R (S m) ltac:(lia)) as RS. unfold lane_slope, rec_slope. unfold lane_rec in RS |- *. unfold lane_no in RS |- *.
  destruct (GetLaneById ls _) as [l|]; [|congruence]. destruct (GetWidthByS l _) as [w|]; [|congruence].
  rewrite width_prim_false by (intros; apply R; lia). field.
Qed.

Lemma width_rec ls s id w : id <> 0%Z -> ls_s ls <= s -> s <= ls_end ls -> lane_rec ls s id = Some w ->
  GetWidth ls s id == Evaluate (snd w) (s - (ls_s ls + fst w)).
Proof.
  intros N LO HI R. unfold lane_rec in R. unfold GetWidth. apply Z.eqb_neq in N. rewrite N.
  destruct (GetLaneById ls id) as [l|]; [|discriminate]. unfold GetWidthByS in *.
  set (s' := CLAMP s (ls_s ls) (ls_s ls + ls_length ls)).
  assert (E : s' == s). { unfold s', CLAMP, MIN, MAX. unfold ls_end in HI. destruct (Qltb_spec (ls_s ls) s); qcase; lra. }
  assert (X : GetRecordByS fst (l_width l) (s' - ls_s ls) = Some w).
  { rewrite <- R, !get_find. generalize (l_width l). intros k.
    induction k as [|a [|b r] IH]; [reflexivity|reflexivity|]. cbn [find_by] in *.
    destruct (Qltb_spec (s' - ls_s ls) (fst b)), (Qltb_spec (s - ls_s ls) (fst b)); try (exfalso; lra); auto. }
  rewrite X. unfold Evaluate. cbn zeta. rewrite E. reflexivity.
Qed.

(** the boundary of a lane is a function of s with slope [slopes]: the rest is of second order *)
Lemma outer_slope ls s neg n : ls_s ls <= s -> s <= ls_end ls ->
  (forall k, (0 < k <= n)%nat -> exists w, lane_rec ls s (lane_no neg k) = Some w /\ p_scale (snd w) == 1) ->
  exists c d, forall h, ls_s ls <= s + h -> s + h <= ls_end ls ->
    (forall k, (0 < k <= n)%nat -> lane_rec ls (s + h) (lane_no neg k) = lane_rec ls s (lane_no neg k)) ->
    widths ls (s + h) neg n == widths ls s neg n + h * slopes ls s neg n + h * h * (c + d * h).
Proof.
  intros LO HI. induction n as [|m IH]; intros R.
  - exists 0, 0. intros. cbn [widths slopes]. ring.
  - destruct IH as (c & d & IH); [intros; apply R; lia|]. destruct (R (S m) ltac:(lia)) as (w & W & SC).
    set (p := s - (ls_s ls + fst w)).
    exists (c + EvaluatePrimPrim (snd w) p / 2), (d + pd (snd w)). intros h H1 H2 SAME. cbn [widths slopes].
    rewrite IH by (auto; intros; apply SAME; lia).
    assert (NZ : lane_no neg (S m) <> 0%Z) by (unfold lane_no; destruct neg; lia).
    pose proof (SAME (S m) ltac:(lia)) as WH. rewrite W in WH.
    rewrite (width_rec ls s _ w NZ LO HI W), (width_rec ls (s + h) _ w NZ H1 H2 WH).
    unfold lane_slope. rewrite W. unfold rec_slope. fold p.
    assert (PR : forall a b, a == b -> Evaluate (snd w) a == Evaluate (snd w) b) by (intros a b AB; unfold Evaluate; cbn zeta; now rewrite AB).
    rewrite (PR (s + h - (ls_s ls + fst w)) (p + h)) by (unfold p; ring). rewrite (taylor (snd w) p h). rewrite SC. field.
Qed.
