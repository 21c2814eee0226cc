(** Lane sections: lane order, boundaries, closest lane. *)
From Coq Require Import PeanoNat Sorted Permutation.
From Verif Require Import QAux LaneModel LaneProofs.
Open Scope Q_scope.

(** ** Lanes of a section *)

Definition desc (l : list lane) : Prop := StronglySorted (fun a b => (l_id b <= l_id a)%Z) l.

(** insertion after all lanes with the same or a greater id *)
Fixpoint ins_desc (x : lane) (l : list lane) : list lane :=
  match l with
  | [] => [x]
  | a :: r => if (l_id a <? l_id x)%Z then x :: a :: r else a :: ins_desc x r
  end.
Lemma ins_desc_in x l y : In y (ins_desc x l) <-> y = x \/ In y l.
Proof.
  induction l as [|a r IH]; cbn; [intuition congruence|]. destruct (_ <? _)%Z; cbn; [intuition congruence|].
  rewrite IH. intuition congruence.
Qed.
Lemma ins_desc_sorted x l : desc l -> desc (ins_desc x l).
Proof.
  unfold desc. induction 1 as [|a r S IH F]; cbn; [repeat constructor|]. destruct (Z.ltb_spec (l_id a) (l_id x)).
  - constructor; [constructor; auto|]. constructor; [lia|]. eapply Forall_impl; [|exact F]. cbn. intros; lia.
  - constructor; auto. rewrite Forall_forall in *. intros y Y. apply ins_desc_in in Y. destruct Y as [->|Y]; auto.
Qed.
Lemma ins_desc_last x l : (forall a, In a l -> (l_id x <= l_id a)%Z) -> ins_desc x l = l ++ [x].
Proof.
  induction l as [|a r IH]; cbn; intros H; auto. pose proof (H a (or_introl eq_refl)).
  destruct (Z.ltb_spec (l_id a) (l_id x)); [lia|]. rewrite IH; auto.
Qed.
Lemma insert_lane_eq x l : (exists a, In a l /\ (l_id a < l_id x)%Z) -> insert_lane x l = ins_desc x l.
Proof.
  induction l as [|a r IH]; intros (b & B & LT); [destruct B|]. cbn.
  destruct (Z.ltb_spec (l_id a) (l_id x)); auto. f_equal. apply IH. exists b. split; auto. destruct B as [->|B]; [lia|auto].
Qed.
Lemma desc_last l b t : desc (l ++ [b]) -> In t (l ++ [b]) -> (l_id b <= l_id t)%Z.
Proof.
  unfold desc. induction l as [|a r IH]; cbn; intros S T.
  - destruct T as [<-|[]]; lia.
  - inversion S; subst. destruct T as [<-|T]; auto. rewrite Forall_forall in H2. apply H2. rewrite in_app_iff. cbn. auto.
Qed.
Lemma add_lane_eq l x : desc l -> AddLane l x = ins_desc x l.
Proof.
  intros S. unfold AddLane. destruct (rev l) as [|b r] eqn:E.
  - apply (f_equal (@rev lane)) in E. rewrite rev_involutive in E. now subst.
  - apply (f_equal (@rev lane)) in E. rewrite rev_involutive in E. cbn in E. subst l.
    destruct (Z.ltb_spec (l_id b) (l_id x)).
    + apply insert_lane_eq. exists b. rewrite in_app_iff. cbn. auto.
    + symmetry. apply ins_desc_last. intros y Y. pose proof (desc_last _ _ _ S Y). lia.
Qed.
Lemma ins_desc_perm x l : Permutation (x :: l) (ins_desc x l).
Proof.
  induction l as [|a r IH]; cbn; auto. destruct (_ <? _)%Z; auto. eapply perm_trans; [apply perm_swap|]. now constructor.
Qed.
Lemma find_none_in (p : lane -> bool) l : (forall a, In a l -> p a = false) -> find p l = None.
Proof. induction l as [|a r IH]; cbn; intros H; auto. rewrite H; auto. Qed.
(** lookup by id: the first declared lane with that id *)
Lemma find_ins_desc id x l : desc l ->
  find (fun a => (l_id a =? id)%Z) (ins_desc x l) =
  match find (fun a => (l_id a =? id)%Z) l with Some a => Some a | None => if (l_id x =? id)%Z then Some x else None end.
Proof.
  unfold desc. induction 1 as [|a r S IH F]; cbn; [destruct (_ =? _)%Z; auto|].
  destruct (Z.ltb_spec (l_id a) (l_id x)); cbn.
  - destruct (Z.eqb_spec (l_id x) id).
    + destruct (Z.eqb_spec (l_id a) id); [lia|]. rewrite find_none_in; auto. intros b B. rewrite Forall_forall in F.
      specialize (F _ B). apply Z.eqb_neq. lia.
    + destruct (l_id a =? id)%Z; auto. destruct (find _ r); auto.
  - destruct (l_id a =? id)%Z; auto.
Qed.
Lemma store_lanes ins : let l := fold_left AddLane ins [] in
  desc l /\ Permutation ins l /\ forall id, find (fun a => (l_id a =? id)%Z) l = find (fun a => (l_id a =? id)%Z) ins.
Proof.
  cbn zeta. induction ins as [|x ins (S & P & FD)] using rev_ind.
  - repeat split; constructor.
  - rewrite fold_left_app. cbn [fold_left]. rewrite add_lane_eq by exact S. repeat split.
    + now apply ins_desc_sorted.
    + eapply perm_trans; [|apply ins_desc_perm]. eapply perm_trans; [apply Permutation_app_comm|]. cbn. now constructor.
    + intros id. rewrite find_ins_desc, FD by exact S. clear.
      induction ins as [|a r IH]; cbn; [destruct (_ =? _)%Z; auto|]. destruct (l_id a =? id)%Z; auto.
Qed.

(** width: the polynomial of the record that governs the distance from the start of the section *)
Lemma width_value ls s id l ins : id <> 0%Z -> GetLaneById ls id = Some l -> l_width l = fold_left (AddRecord fst) ins [] -> ins <> [] ->
  ls_s ls <= s -> s <= ls_s ls + ls_length ls ->
  exists w, governs fst (s - ls_s ls) ins w /\ GetWidth ls s id == Evaluate (snd w) (s - ls_s ls - fst w).
Proof.
  intros N L W NE LO HI. destruct (store_governs fst (s - ls_s ls) ins NE) as (w & F & G). exists w. split; [exact G|].
  unfold GetWidth. apply Z.eqb_neq in N. rewrite N, L. unfold GetWidthByS.
  set (s' := CLAMP s (ls_s ls) (ls_s ls + ls_length ls)).
  assert (E : s' == s).
  { unfold s', CLAMP, MIN, MAX. destruct (Qltb_spec (ls_s ls) s); qcase; lra. }
  assert (X : GetRecordByS fst (l_width l) (s' - ls_s ls) = Some w).
  { rewrite W, <- F, !get_find. generalize (fold_left (AddRecord fst) ins []). intros k.
    induction k as [|a [|b r] IH]; [reflexivity|reflexivity|]. cbn [find_by] in *.
    destruct (Qltb_spec (s' - ls_s ls) (fst b)), (Qltb_spec (s - ls_s ls) (fst b)); try (exfalso; lra); auto. }
  rewrite X. unfold Evaluate. cbn zeta. rewrite E. ring.
Qed.
Lemma width_missing ls s id : GetLaneById ls id = None -> GetWidth ls s id = 0.
Proof. intros H. unfold GetWidth. rewrite H. destruct (_ =? _)%Z; auto. Qed.

(** ** Boundaries *)

(** the k-th lane of a side *)
Definition lane_no (neg : bool) (k : nat) : Z := if neg then (- Z.of_nat k)%Z else Z.of_nat k.
(** the sum of the widths of the lanes 1 .. n of a side *)
Fixpoint widths (ls : lsec) (s : Q) (neg : bool) (n : nat) : Q :=
  match n with O => 0 | S m => widths ls s neg m + GetWidth ls s (lane_no neg n) end.

Lemma outer_widths ls s neg n : outer_offset ls s neg n == widths ls s neg n.
Proof.
  induction n as [|m IH]; [reflexivity|]. cbn [outer_offset widths]. unfold lane_no. destruct m as [|m].
  - cbn [widths]. ring.
  - rewrite IH. ring.
Qed.
Lemma outer_sum ls s id : GetOuterOffset ls s id == widths ls s (id <? 0)%Z (Z.abs_nat id).
Proof. unfold GetOuterOffset. apply outer_widths. Qed.
Lemma outward id : id <> 0%Z -> ((id + SIGN id <? 0) = (id <? 0))%Z /\ Z.abs_nat (id + SIGN id) = S (Z.abs_nat id) /\ (id + SIGN id <> 0)%Z
  /\ Z.abs (id + SIGN id) <> 1%Z.
Proof. unfold SIGN. intros. zb. Qed.
Lemma inner_next ls s id : id <> 0%Z -> GetInnerOffset ls s (id + SIGN id) = GetOuterOffset ls s id.
Proof.
  intros N. destruct (outward id N) as (A & B & C & D). unfold GetInnerOffset.
  apply Z.eqb_neq in C, D. rewrite C, D. f_equal. unfold SIGN in *. zb.
Qed.
Lemma inner_first ls s id : (Z.abs id <= 1)%Z -> GetInnerOffset ls s id = 0.
Proof. intros. unfold GetInnerOffset. zb; reflexivity. Qed.
Lemma outer_inner ls s id : GetOuterOffset ls s id == GetInnerOffset ls s id + GetWidth ls s id.
Proof.
  destruct (Z.eq_dec id 0) as [->|N]; [unfold GetInnerOffset, GetWidth; cbn; lra|].
  assert (LN : lane_no (id <? 0)%Z (Z.abs_nat id) = id) by (unfold lane_no; zb).
  unfold GetInnerOffset. destruct (Z.eqb_spec id 0); [congruence|]. rewrite (outer_sum ls s id).
  destruct (Z.eqb_spec (Z.abs id) 1) as [E|E].
  - assert (A : Z.abs_nat id = 1%nat) by lia. rewrite A in *. cbn [widths]. rewrite LN. ring.
  - destruct (Z.abs_nat id) as [|m] eqn:A; [lia|]. cbn [widths]. rewrite LN. rewrite outer_sum.
    assert (B : Z.abs_nat (id + (if (id <? 0)%Z then 1 else -1)) = m /\ ((id + (if (id <? 0) then 1 else -1)) <? 0 = (id <? 0))%Z) by zb.
    destruct B as [B1 B2]. rewrite B1, B2. ring.
Qed.
Lemma centre_midway ls s id : GetCenterOffset ls s id == (GetInnerOffset ls s id + GetOuterOffset ls s id) / 2.
Proof.
  unfold GetCenterOffset. destruct (Z.eqb_spec id 0) as [->|N].
  - unfold GetInnerOffset. cbn. reflexivity.
  - rewrite (outer_inner ls s id). field.
Qed.
Lemma widths_mono ls s neg m n : (forall id, 0 <= GetWidth ls s id) -> (m <= n)%nat -> widths ls s neg m <= widths ls s neg n.
Proof.
  intros W. induction 1 as [|n _ IH]; [lra|]. cbn [widths]. specialize (W (lane_no neg (S n))). lra.
Qed.
Lemma inner_widths ls s id : GetInnerOffset ls s id == widths ls s (id <? 0)%Z (Nat.pred (Z.abs_nat id)).
Proof.
  unfold GetInnerOffset. destruct (Z.eqb_spec id 0) as [->|N]; [reflexivity|].
  destruct (Z.eqb_spec (Z.abs id) 1) as [E|E].
  - assert (A : Z.abs_nat id = 1%nat) by lia. rewrite A. reflexivity.
  - rewrite outer_sum.
    assert (B : Z.abs_nat (id + (if (id <? 0)%Z then 1 else -1)) = Nat.pred (Z.abs_nat id) /\ ((id + (if (id <? 0) then 1 else -1)) <? 0 = (id <? 0))%Z) by zb.
    destruct B as [B1 B2]. rewrite B1, B2. reflexivity.
Qed.
Lemma lanes_ordered ls s a b : (forall id, 0 <= GetWidth ls s id) -> (a <? 0)%Z = (b <? 0)%Z -> (Z.abs a < Z.abs b)%Z ->
  GetOuterOffset ls s a <= GetInnerOffset ls s b.
Proof.
  intros W SG LT. rewrite outer_sum, inner_widths, SG. apply widths_mono; auto. lia.
Qed.
Lemma inner_nonneg ls s a : (forall id, 0 <= GetWidth ls s id) -> 0 <= GetInnerOffset ls s a.
Proof. intros W. rewrite inner_widths. pose proof (widths_mono ls s (a <? 0)%Z 0 _ W (Nat.le_0_l (Nat.pred (Z.abs_nat a)))). cbn in *. lra. Qed.

(** the lateral coordinates covered by a lane, relative to the lane reference line: positive to the left *)
Definition inside (ls : lsec) (s : Q) (id : Z) (t : Q) : Prop :=
  if (id <? 0)%Z then - GetOuterOffset ls s id < t /\ t < - GetInnerOffset ls s id
  else GetInnerOffset ls s id < t /\ t < GetOuterOffset ls s id.
Lemma lanes_disjoint ls s a b t : (forall id, 0 <= GetWidth ls s id) -> inside ls s a t -> inside ls s b t -> a = b.
Proof.
  intros W A B. destruct (Z.eq_dec a b) as [|NE]; auto. exfalso. unfold inside in *.
  pose proof (inner_nonneg ls s a W). pose proof (inner_nonneg ls s b W).
  destruct (a <? 0)%Z eqn:EA, (b <? 0)%Z eqn:EB; try lra.
  - destruct (Z.lt_total (Z.abs a) (Z.abs b)) as [L|[L|L]].
    + pose proof (lanes_ordered ls s a b W ltac:(congruence) L). lra.
    + zb.
    + pose proof (lanes_ordered ls s b a W ltac:(congruence) L). lra.
  - destruct (Z.lt_total (Z.abs a) (Z.abs b)) as [L|[L|L]].
    + pose proof (lanes_ordered ls s a b W ltac:(congruence) L). lra.
    + zb.
    + pose proof (lanes_ordered ls s b a W ltac:(congruence) L). lra.
Qed.
(** the signed centre line of a lane *)
Definition centre (ls : lsec) (s : Q) (id : Z) : Q := inject_Z (SIGN id) * GetCenterOffset ls s id.
Lemma inside_centre ls s id t : id <> 0%Z -> (inside ls s id t <-> Qabs (t - centre ls s id) < GetWidth ls s id / 2).
Proof.
  intros N. pose proof (outer_inner ls s id) as OI. pose proof (centre_midway ls s id) as CM.
  unfold inside, centre, SIGN. rewrite Qabs_Qlt_condition. destruct (Z.ltb_spec id 0); cbn [inject_Z]; rewrite CM, OI.
  - change (inject_Z (-1)) with (-1 # 1). unfold Qdiv. change (/ 2) with (1 # 2). split; intros [? ?]; split; lra.
  - change (inject_Z 1) with 1. unfold Qdiv. change (/ 2) with (1 # 2). split; intros [? ?]; split; lra.
Qed.

Lemma offset_between ls s a b : GetOffsetBetweenLanes ls a b s == centre ls s b - centre ls s a.
Proof. unfold GetOffsetBetweenLanes, centre. cbn zeta. ring. Qed.
Lemma offset_antisym ls s a b : GetOffsetBetweenLanes ls b a s == - GetOffsetBetweenLanes ls a b s.
Proof. rewrite !offset_between. ring. Qed.
Lemma offset_add ls s a b c : GetOffsetBetweenLanes ls a c s == GetOffsetBetweenLanes ls a b s + GetOffsetBetweenLanes ls b c s.
Proof. rewrite !offset_between. ring. Qed.
(** adjacent lanes: half of both widths *)
Lemma offset_adjacent ls s a : a <> 0%Z -> inject_Z (SIGN a) * GetOffsetBetweenLanes ls a (a + SIGN a) s == GetWidth ls s a / 2 + GetWidth ls s (a + SIGN a) / 2.
Proof.
  intros N. rewrite offset_between. unfold centre. destruct (outward a N) as (A & B & C & D).
  assert (SG : SIGN (a + SIGN a) = SIGN a) by (unfold SIGN; unfold SIGN in A; zb).
  rewrite SG. rewrite !centre_midway. rewrite (outer_inner ls s (a + SIGN a)), (inner_next ls s a N), (outer_inner ls s a).
  assert (SQ : inject_Z (SIGN a) * inject_Z (SIGN a) == 1) by (unfold SIGN; destruct (a <? 0)%Z; reflexivity).
  transitivity ((inject_Z (SIGN a) * inject_Z (SIGN a)) * (GetWidth ls s a / 2 + GetWidth ls s (a + SIGN a) / 2)); [field|rewrite SQ; ring].
Qed.
Lemma width_between ls s a b : 0 <= GetCenterOffset ls s a -> 0 <= GetCenterOffset ls s b ->
  GetWidthBetweenLanes ls a b s == GetCenterOffset ls s a - GetCenterOffset ls s b.
Proof. intros. unfold GetWidthBetweenLanes. rewrite !Qabs_pos; lra. Qed.

(** ** Closest lane *)

Section Closest.
Variables (ls : lsec) (s t lo : Q) (side : Z) (nz : bool) (mask : Z).
Let el (a : lane) : Prop := eligible ls s side nz mask (l_id a) = true.
Let d (a : lane) : Q := lane_distance ls s t lo (l_id a).
Let within (a : lane) : Prop := Qabs (d a) < GetWidth ls s (l_id a) / 2.

(** the loop: none of the lanes passed contains the position, the candidate is the closest one passed *)
Lemma closest_loop_spec post : forall pre cand m,
  (forall a, In a pre -> el a -> ~ within a) ->
  match cand with
  | None => forall a, In a pre -> ~ el a
  | Some k => exists a l1 l2, pre = l1 ++ a :: l2 /\ k = List.length l1 /\ el a /\ m = d a /\
                (forall b, In b l1 -> el b -> Qabs (d a) < Qabs (d b)) /\ (forall b, In b l2 -> el b -> Qabs (d a) <= Qabs (d b))
  end ->
  let res := closest_loop ls s t lo side nz mask post (List.length pre) cand m in
  let all := pre ++ post in
  (exists a l1 l2, all = l1 ++ a :: l2 /\ res = (Some (List.length l1), d a) /\ el a /\ within a /\
     (forall b, In b l1 -> el b -> ~ within b)) \/
  ((forall b, In b all -> el b -> ~ within b) /\
   ((exists a l1 l2, all = l1 ++ a :: l2 /\ res = (Some (List.length l1), d a) /\ el a /\
       (forall b, In b l1 -> el b -> Qabs (d a) < Qabs (d b)) /\ (forall b, In b l2 -> el b -> Qabs (d a) <= Qabs (d b))) \/
    ((forall b, In b all -> ~ el b) /\ cand = None /\ res = (None, m)))).
Proof.
  induction post as [|a r IH]; intros pre cand m NW CA; cbn zeta.
  - rewrite app_nil_r. right. split; [exact NW|]. destruct cand as [k|].
    + left. destruct CA as (a & l1 & l2 & E & -> & EL & -> & H1 & H2). exists a, l1, l2. cbn. auto.
    + right. auto.
  - cbn [closest_loop].
    assert (LEN : List.length (pre ++ [a]) = S (List.length pre)) by (rewrite app_length; cbn; lia).
    assert (APP : pre ++ a :: r = (pre ++ [a]) ++ r) by (now rewrite <- app_assoc).
    destruct (eligible ls s side nz mask (l_id a)) eqn:EL.
    + fold (d a). destruct (Qltb_spec (Qabs (d a)) (GetWidth ls s (l_id a) / 2)) as [IN|OUT].
      * left. exists a, pre, r. repeat split; auto.
      * assert (NW' : forall x, In x (pre ++ [a]) -> el x -> ~ within x).
        { intros x X. rewrite in_app_iff in X. cbn in X. destruct X as [X|[<-|[]]]; auto. }
        destruct ((match cand with None => true | Some _ => false end) || Qltb (Qabs (d a)) (Qabs m)) eqn:BET.
        -- rewrite APP. rewrite <- LEN. specialize (IH (pre ++ [a]) (Some (List.length pre)) (d a) NW'). cbn zeta in IH.
           destruct IH as [IH|[IH1 [IH2|(_ & IH3 & _)]]]; [| |right; split; [exact IH1|left; exact IH2]|discriminate]; [|left; exact IH].
           exists a, pre, []. repeat split; auto.
           ++ destruct cand as [k|].
              ** cbn [orb] in BET. apply Qltb_lt in BET. destruct CA as (c & l1 & l2 & E & _ & _ & -> & H1 & H2).
                 intros b B EB. rewrite E in B. rewrite in_app_iff in B. cbn [In] in B.
                 destruct B as [B|[<-|B]]; [specialize (H1 _ B EB)| |specialize (H2 _ B EB)]; lra.
              ** intros b B EB. exfalso. eapply CA; eauto.
           ++ intros b [].
        -- rewrite APP, <- LEN. apply orb_false_iff in BET. destruct BET as [BC BET]. apply Qltb_ge in BET.
           destruct cand as [k|]; [|discriminate].
           specialize (IH (pre ++ [a]) (Some k) m NW'). cbn zeta in IH.
           destruct IH as [IH|[IH1 [IH2|(_ & IH3 & _)]]]; [| |right; split; [exact IH1|left; exact IH2]|discriminate]; [|left; exact IH].
           destruct CA as (c & l1 & l2 & E & -> & EC & -> & H1 & H2). exists c, l1, (l2 ++ [a]). repeat split; auto.
           ++ rewrite E, <- app_assoc. reflexivity.
           ++ intros b B EB. rewrite in_app_iff in B. cbn in B. destruct B as [B|[<-|[]]]; auto.
    + rewrite APP, <- LEN.
      assert (NE : ~ el a) by (unfold el; congruence).
      specialize (IH (pre ++ [a]) cand m). cbn zeta in IH. apply IH.
      * intros x X. rewrite in_app_iff in X. cbn in X. destruct X as [X|[<-|[]]]; auto.
      * destruct cand as [k|].
        -- destruct CA as (c & l1 & l2 & E & -> & EC & -> & H1 & H2). exists c, l1, (l2 ++ [a]). repeat split; auto.
           ++ rewrite E, <- app_assoc. reflexivity.
           ++ intros b B EB. rewrite in_app_iff in B. cbn in B. destruct B as [B|[<-|[]]]; [auto|contradiction].
        -- intros x X. rewrite in_app_iff in X. cbn in X. destruct X as [X|[<-|[]]]; auto.
Qed.

Lemma closest_spec :
  let res := GetClosestLaneIdx ls s t lo side nz mask in
  (exists a l1 l2, ls_lanes ls = l1 ++ a :: l2 /\ res = (Some (List.length l1), d a) /\ el a /\ within a /\
     (forall b, In b l1 -> el b -> ~ within b)) \/
  ((forall b, In b (ls_lanes ls) -> el b -> ~ within b) /\
   ((exists a l1 l2, ls_lanes ls = l1 ++ a :: l2 /\ res = (Some (List.length l1), d a) /\ el a /\
       (forall b, In b l1 -> el b -> Qabs (d a) < Qabs (d b)) /\ (forall b, In b l2 -> el b -> Qabs (d a) <= Qabs (d b))) \/
    ((forall b, In b (ls_lanes ls) -> ~ el b) /\ res = (GetLaneIdxById ls 0, t - lo)))).
Proof.
  cbn zeta. unfold GetClosestLaneIdx.
  pose proof (closest_loop_spec (ls_lanes ls) [] None (t - lo) ltac:(intros ? []) ltac:(intros ? [])) as H. cbn zeta in H. cbn [app List.length] in H.
  destruct (closest_loop _ _ _ _ _ _ _ _ _ _ _) as [c o].
  destruct H as [(a & l1 & l2 & E & R & REST)|[H1 [(a & l1 & l2 & E & R & REST)|(H2 & _ & R)]]].
  - left. exists a, l1, l2. injection R as -> ->. auto.
  - right. split; [exact H1|]. left. exists a, l1, l2. injection R as -> ->. auto.
  - right. split; [exact H1|]. right. injection R as -> ->. auto.
Qed.
End Closest.

Lemma lane_idx_spec l : forall id i k, lane_idx l id i = Some k ->
  exists a, nth_error l (k - i) = Some a /\ l_id a = id /\ (i <= k)%nat.
Proof.
  induction l as [|a r IH]; cbn; intros id i k; [discriminate|]. destruct (Z.eqb_spec (l_id a) id).
  - intros [= <-]. exists a. rewrite Nat.sub_diag. auto.
  - intros H. apply IH in H. destruct H as (b & B & E & L). exists b. replace (k - i)%nat with (S (k - S i)) by lia. auto with arith.
Qed.

(** ** Lane position to track position and back *)
Lemma eligible_lane ls s side nz mask id : eligible ls s side nz mask id = true -> exists l, GetLaneById ls id = Some l.
Proof. unfold eligible. destruct (GetLaneById ls id); [eauto|discriminate]. Qed.

Lemma eligible_eq ls s s' side nz mask id : s == s' -> GetWidth ls s id = GetWidth ls s' id -> eligible ls s side nz mask id = eligible ls s' side nz mask id.
Proof. intros _ H. unfold eligible. now rewrite H. Qed.

Lemma round_trip r mask p ls l :
  nth_error (r_sections r) (p_lsec_idx p) = Some ls ->
  GetLaneSectionIdxByS (r_sections r) (p_s p) (p_lsec_idx p) = Some (p_lsec_idx p) ->
  (forall id, 0 <= GetWidth ls (p_s p) id) ->
  GetLaneById ls (p_lane_id p) = Some l -> Z.land mask (l_type l) <> 0%Z -> p_lane_id p <> 0%Z ->
  SMALL < GetWidth ls (p_s p) (p_lane_id p) -> Qabs (p_offset p) < GetWidth ls (p_s p) (p_lane_id p) / 2 ->
  let q := Track2Lane r mask (Lane2Track r p) in
  p_s q = p_s p /\ p_t q = p_t (Lane2Track r p) /\ p_lane_id q = p_lane_id p /\ p_offset q == p_offset p /\ p_lsec_idx q = p_lsec_idx p /\
  exists a, nth_error (ls_lanes ls) (p_lane_idx q) = Some a /\ l_id a = p_lane_id p.
Proof.
  intros SEC IDX W L TY N0 WS OFF. cbn zeta.
  set (lo := GetLaneOffset (r_offset r) (p_s p)).
  set (q0 := Lane2Track r p). assert (T : p_t q0 == p_offset p + lo + centre ls (p_s p) (p_lane_id p)).
  { unfold q0, Lane2Track. rewrite SEC. cbn [p_t]. fold lo. unfold centre, SIGN. destruct (_ <? _)%Z; cbn [inject_Z]; [|ring].
    setoid_replace (inject_Z (-1)) with (-(1)) by reflexivity. ring. }
  assert (S0 : p_s q0 = p_s p) by reflexivity. assert (I0 : p_lsec_idx q0 = p_lsec_idx p) by reflexivity.
  unfold Track2Lane. rewrite S0, I0, IDX, SEC. fold lo. clearbody q0.
  assert (DIST : lane_distance ls (p_s p) (p_t q0) lo (p_lane_id p) == p_offset p).
  { unfold lane_distance. fold (centre ls (p_s p) (p_lane_id p)). rewrite T. ring. }
  assert (ELI : eligible ls (p_s p) 0 true mask (p_lane_id p) = true).
  { unfold eligible. rewrite L. apply Z.eqb_neq in TY. rewrite TY. cbn. apply Qltb_lt in WS. now rewrite WS. }
  assert (INL : In l (ls_lanes ls) /\ l_id l = p_lane_id p).
  { unfold GetLaneById in L. apply find_some in L. destruct L as [L1 L2]. apply Z.eqb_eq in L2. auto. }
  destruct INL as [INL IDL].
  destruct (closest_spec ls (p_s p) (p_t q0) lo 0 true mask) as [(a & l1 & l2 & E & R & EL & IN & _)|[NIN _]].
  - rewrite R. cbn [p_s p_t p_lane_id p_offset p_lsec_idx p_lane_idx].
    assert (NA : nth_error (ls_lanes ls) (List.length l1) = Some a).
    { rewrite E, nth_error_app2 by lia. now rewrite Nat.sub_diag. }
    assert (AID : l_id a = p_lane_id p).
    { destruct (Z.eq_dec (l_id a) 0) as [Z0|Z0].
      - exfalso. rewrite Z0 in IN. change (GetWidth ls (p_s p) 0) with 0 in IN. change (0 / 2) with (0 # 2) in IN. pose proof (Qabs_nonneg (lane_distance ls (p_s p) (p_t q0) lo 0)). lra.
      - eapply (lanes_disjoint ls (p_s p) _ _ (p_t q0 - lo) W).
        + apply inside_centre; auto.
        + apply inside_centre; auto. unfold centre.
          setoid_replace (p_t q0 - lo - inject_Z (SIGN (p_lane_id p)) * GetCenterOffset ls (p_s p) (p_lane_id p)) with (p_offset p); auto. }
    split; [auto|]. split; [auto|]. split; [unfold GetLaneIdByIdx; now rewrite NA|]. split; [now rewrite AID|]. split; [auto|]. eauto.
  - exfalso. apply (NIN l INL); [rewrite IDL; exact ELI|]. rewrite IDL, DIST. exact OFF.
Qed.

(** moving to another lane id keeps the lateral position *)
Lemma force_lane r id p ls : nth_error (r_sections r) (p_lsec_idx p) = Some ls ->
  exists q, ForceLaneId r id p = Some q /\ p_lane_id q = id /\ p_t q == p_t (Lane2Track r p) /\ p_s q = p_s p.
Proof.
  intros SEC. unfold ForceLaneId. rewrite SEC. eexists. split; [reflexivity|]. unfold Lane2Track. cbn [p_lsec_idx p_lane_id p_t p_s p_offset].
  rewrite SEC. cbn [p_t]. repeat split. rewrite offset_between. unfold centre, SIGN.
  destruct (p_lane_id p <? 0)%Z, (id <? 0)%Z; cbn [inject_Z]; change (inject_Z (-1)) with (-(1)); change (inject_Z 1) with 1; ring.
Qed.
