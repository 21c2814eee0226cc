(** Lane ids, records along s, lane boundaries: specifications and proofs. *)
From Coq Require Import PeanoNat Sorted.
From Verif Require Import QAux LaneModel.
Open Scope Q_scope.

(** ** Lane ids *)

(** The lanes in the order in which they lie across the road, without the centre lane: ... 2 1 -1 -2 ...; [rank] is the number of
    the lane in that order, increasing to the left. *)
Definition rank (id : Z) : Z := if (id <? 0)%Z then (id + 1)%Z else id.

Ltac zb :=
  repeat match goal with
  | |- context [(?a =? ?b)%Z] => destruct (Z.eqb_spec a b)
  | |- context [(?a <? ?b)%Z] => destruct (Z.ltb_spec a b)
  | H : context [(?a =? ?b)%Z] |- _ => destruct (Z.eqb_spec a b)
  | H : context [(?a <? ?b)%Z] |- _ => destruct (Z.ltb_spec a b)
  end; cbn [negb orb andb] in *; try lia.

Lemma rank_inj a b : a <> 0%Z -> b <> 0%Z -> rank a = rank b -> a = b.
Proof. unfold rank. intros. zb. Qed.

Lemma relative_rank id off : id <> 0%Z -> GetRelativeLaneId id off <> 0%Z /\
  rank (GetRelativeLaneId id off) = (rank id + off)%Z.
Proof. unfold GetRelativeLaneId, rank, SIGN. intros. zb. Qed.

Lemma delta_rank a b : a <> 0%Z -> b <> 0%Z -> GetLaneIdDelta a b = (rank b - rank a)%Z.
Proof. unfold GetLaneIdDelta, rank, SIGN. intros. zb. Qed.

Lemma delta_antisym a b : GetLaneIdDelta b a = (- GetLaneIdDelta a b)%Z.
Proof. unfold GetLaneIdDelta, SIGN. intros. zb. Qed.

Lemma relative_delta a b : a <> 0%Z -> b <> 0%Z -> GetRelativeLaneId a (GetLaneIdDelta a b) = b.
Proof.
  intros A B. destruct (relative_rank a (GetLaneIdDelta a b) A) as [N R].
  apply rank_inj; auto. rewrite R, delta_rank; auto. lia.
Qed.
Lemma delta_relative a off : a <> 0%Z -> GetLaneIdDelta a (GetRelativeLaneId a off) = off.
Proof.
  intros A. destruct (relative_rank a off A) as [N R]. rewrite delta_rank; auto. lia.
Qed.
Lemma relative_add a m n : a <> 0%Z -> GetRelativeLaneId (GetRelativeLaneId a m) n = GetRelativeLaneId a (m + n).
Proof.
  intros A. destruct (relative_rank a m A) as [N R]. destruct (relative_rank _ n N) as [N2 R2].
  destruct (relative_rank a (m + n) A) as [N3 R3]. apply rank_inj; auto. lia.
Qed.
Lemma delta_add a b c : a <> 0%Z -> b <> 0%Z -> c <> 0%Z ->
  GetLaneIdDelta a c = (GetLaneIdDelta a b + GetLaneIdDelta b c)%Z.
Proof. intros. rewrite !delta_rank; auto. lia. Qed.
(** from the centre lane *)
Lemma relative_centre off : GetRelativeLaneId 0 off = off.
Proof. unfold GetRelativeLaneId. zb. Qed.
Lemma delta_centre b : b <> 0%Z -> GetLaneIdDelta 0 b = (b - SIGN b)%Z.
Proof. unfold GetLaneIdDelta, SIGN. intros. zb. Qed.
(** sizes: no overflow *)
Lemma relative_bound a off : (Z.abs (GetRelativeLaneId a off) <= Z.abs a + Z.abs off + 1)%Z.
Proof. unfold GetRelativeLaneId, SIGN. zb. Qed.
Lemma delta_bound a b : (Z.abs (GetLaneIdDelta a b) <= Z.abs a + Z.abs b)%Z.
Proof. unfold GetLaneIdDelta, SIGN. zb. Qed.

(** ** Records by s *)

Section Rec.
Context {A : Type} (key : A -> Q).

(** The record of a list in order of declaration that governs s: the greatest start not beyond s, of equal starts the last
    declared; if all start beyond s, the least start, of equal starts the first declared. *)
Definition governs (s : Q) (ins : list A) (r : A) : Prop :=
  exists l1 l2, ins = l1 ++ r :: l2 /\
    ((key r <= s /\ (forall x, In x l1 -> key x <= s -> key x <= key r) /\ (forall x, In x l2 -> key x <= s -> key x < key r)) \/
     ((forall x, In x ins -> s < key x) /\ (forall x, In x l1 -> key r < key x) /\ (forall x, In x l2 -> key r <= key x))).

(** the choice when one more record is declared *)
Definition pick (s : Q) (r x : A) : A :=
  if Qleb (key x) s then (if Qleb (key r) s then (if Qleb (key r) (key x) then x else r) else x)
  else (if Qleb (key r) s then r else if Qltb (key x) (key r) then x else r).

Lemma governs_one s x : governs s [x] x.
Proof.
  exists [], []. split; [auto|]. destruct (Qlt_le_dec s (key x)).
  - right. repeat split; intros y Y; cbn in Y; try tauto. destruct Y as [<-|[]]; auto.
  - left. repeat split; intros; cbn in *; tauto.
Qed.

Lemma governs_min s ins r : governs s ins r -> s < key r -> forall y, In y ins -> s < key y /\ key r <= key y.
Proof.
  intros (l1 & l2 & -> & G) L y Y. destruct G as [(K & _)|(K & G1 & G2)]; [lra|].
  split; [auto|]. apply in_app_iff in Y. destruct Y as [Y|[<-|Y]]; [specialize (G1 _ Y)| |specialize (G2 _ Y)]; lra.
Qed.
Lemma governs_max s ins r : governs s ins r -> key r <= s -> forall y, In y ins -> key y <= s -> key y <= key r.
Proof.
  intros (l1 & l2 & -> & G) L y Y YS. apply in_app_iff in Y. destruct G as [(K & G1 & G2)|(K & _)].
  - destruct Y as [Y|[<-|Y]]; [specialize (G1 _ Y YS)| |specialize (G2 _ Y YS)]; lra.
  - specialize (K r). rewrite in_app_iff in K. cbn in K. assert (s < key r) by tauto. lra.
Qed.
Lemma governs_in s ins r : governs s ins r -> In r ins.
Proof. intros (l1 & l2 & -> & _). rewrite in_app_iff. cbn. auto. Qed.

Lemma governs_snoc s ins r x : governs s ins r -> governs s (ins ++ [x]) (pick s r x).
Proof.
  intros G. pose proof (governs_min _ _ _ G) as MN. pose proof (governs_max _ _ _ G) as MX.
  assert (NEW : (key x <= s -> forall y, In y ins -> key y <= s -> key y <= key x) ->
                (s < key x -> forall y, In y ins -> s < key y /\ key x < key y) -> governs s (ins ++ [x]) x).
  { intros H1 H2. exists ins, []. split; [auto|]. destruct (Qlt_le_dec s (key x)) as [L|L].
    - right. repeat split.
      + intros y Y. rewrite in_app_iff in Y. cbn in Y. destruct Y as [Y|[<-|[]]]; auto. now apply H2.
      + intros y Y. now apply H2.
      + intros y [].
    - left. repeat split; auto; try (now apply H1). intros y []. }
  assert (OLD : (key r <= s -> key x <= s -> key x < key r) -> (s < key r -> s < key x /\ key r <= key x) -> governs s (ins ++ [x]) r).
  { intros H1 H2. destruct G as (l1 & l2 & -> & G). exists l1, (l2 ++ [x]). split; [now rewrite <- app_assoc|].
    destruct G as [(K & G1 & G2)|(K & G1 & G2)].
    - left. repeat split; auto. intros y Y. rewrite in_app_iff in Y. cbn in Y. destruct Y as [Y|[<-|[]]]; auto.
    - right. assert (KR : s < key r) by (apply K; rewrite in_app_iff; cbn; auto). destruct (H2 KR). repeat split; auto.
      + intros y Y. rewrite in_app_iff in Y. cbn in Y. destruct Y as [Y|[<-|[]]]; auto.
      + intros y Y. rewrite in_app_iff in Y. cbn in Y. destruct Y as [Y|[<-|[]]]; auto. }
  unfold pick. repeat qcase; first [apply NEW | apply OLD]; intros; try lra; try (split; try lra);
    try (match goal with Y : In _ _ |- _ => first [specialize (MX ltac:(lra) _ Y ltac:(lra)) | specialize (MN ltac:(lra) _ Y)] end); lra.
Qed.

(** the lookup in a sorted list, by recursion *)
Fixpoint find_by (s : Q) (l : list A) : option A :=
  match l with
  | [] => None
  | a :: r => match r with
              | [] => Some a
              | b :: _ => if Qltb s (key b) then Some a else find_by s r
              end
  end.
Definition sorted (l : list A) : Prop := StronglySorted (fun a b => key a <= key b) l.

Lemma get_find s l : GetRecordByS key l s = find_by s l.
Proof.
  destruct l as [|a r]; [reflexivity|]. revert a. induction r as [|b r IH]; intro a; [reflexivity|].
  specialize (IH b). transitivity (if Qltb s (key b) then Some a else find_by s (b :: r)); [|reflexivity].
  unfold GetRecordByS in *. cbn [upper_bound]. cbn [List.length] in *. qcase.
  - reflexivity.
  - rewrite <- IH. set (k := upper_bound _ r).
    replace (S (S (List.length r)) - 1)%nat with (S (List.length r)) by lia.
    replace (S (List.length r) - 1)%nat with (List.length r) by lia.
    change (S k <? S (List.length r))%nat with (k <? List.length r)%nat.
    destruct (k <? List.length r)%nat; reflexivity.
Qed.

Lemma insert_before_in x l y : In y (insert_before key x l) <-> y = x \/ In y l.
Proof.
  induction l as [|a r IH]; cbn; [intuition congruence|]. destruct (Qltb _ _); cbn; [intuition congruence|].
  rewrite IH. intuition congruence.
Qed.
Lemma insert_before_sorted x l : sorted l -> sorted (insert_before key x l).
Proof.
  unfold sorted. induction 1 as [|a r S IH F]; cbn; [repeat constructor|]. qcase.
  - constructor; [constructor; auto|]. constructor; [lra|]. eapply Forall_impl; [|exact F]. cbn. intros; lra.
  - constructor; auto. rewrite Forall_forall in *. intros y Y. apply insert_before_in in Y. destruct Y as [->|Y]; auto; lra.
Qed.
Lemma insert_before_last x l : (forall y, In y l -> key y <= key x) -> insert_before key x l = l ++ [x].
Proof.
  induction l as [|a r IH]; cbn; intros H; [auto|]. qcase; [specialize (H a (or_introl eq_refl)); lra|]. rewrite IH; auto.
Qed.
Lemma sorted_last l b t : sorted (l ++ [b]) -> In t (l ++ [b]) -> key t <= key b.
Proof.
  unfold sorted. induction l as [|a r IH]; cbn; intros S T.
  - destruct T as [<-|[]]; lra.
  - inversion S; subst. destruct T as [<-|T]; auto. rewrite Forall_forall in H2. apply H2. rewrite in_app_iff. cbn. auto.
Qed.
Lemma add_insert l x : sorted l -> AddRecord key l x = insert_before key x l.
Proof.
  intros S. unfold AddRecord. destruct (rev l) as [|b r] eqn:E.
  - apply (f_equal (@rev A)) in E. rewrite rev_involutive in E. now subst.
  - apply (f_equal (@rev A)) in E. rewrite rev_involutive in E. cbn in E. subst l.
    qcase; [reflexivity|]. symmetry. apply insert_before_last. intros y Y. pose proof (sorted_last _ _ _ S Y). lra.
Qed.
Lemma store_sorted ins l : sorted l -> sorted (fold_left (AddRecord key) ins l).
Proof.
  revert l. induction ins as [|x r IH]; cbn; intros l S; auto. apply IH. rewrite add_insert; auto. now apply insert_before_sorted.
Qed.

Lemma find_insert s x l r : sorted l -> find_by s l = Some r -> find_by s (insert_before key x l) = Some (pick s r x).
Proof.
  unfold sorted. intros S. revert r. induction S as [|a l S IH F]; intros r; cbn; [discriminate|].
  destruct l as [|b l].
  - intros [= <-]. unfold pick. cbn. repeat (qcase; cbn); try reflexivity; exfalso; lra.
  - inversion F as [|b' l' HB FB]; subst. cbn [insert_before] in *.
    pose proof (Forall_inv S) as _ || idtac.
    destruct (Qltb_spec s (key b)) as [SB|SB].
    + intros [= <-]. destruct (Qltb_spec (key x) (key a)).
      * cbn. unfold pick. repeat (qcase; cbn); try reflexivity; exfalso; lra.
      * destruct (Qltb_spec (key x) (key b)); cbn; unfold pick; repeat (qcase; cbn); try reflexivity; exfalso; lra.
    + intros R. specialize (IH _ R).
      assert (RS : key r <= s /\ key b <= key r).
      { clear IH. assert (SS : sorted (b :: l)) by exact S. clear - SS SB R. revert b SS SB R. induction l as [|c l IH]; cbn; intros b SS SB R.
        - injection R as <-. lra.
        - destruct (Qltb_spec s (key c)); [injection R as <-; lra|]. unfold sorted in SS. inversion SS as [|? ? S2 F2]; subst.
          inversion F2; subst. destruct (IH c S2 ltac:(lra) R). lra. }
      destruct (Qltb_spec (key x) (key a)).
      * cbn [find_by]. destruct (Qltb_spec s (key a)); [lra|]. destruct (Qltb_spec s (key b)); [lra|].
        cbn [find_by] in R. rewrite R. unfold pick. repeat qcase; try reflexivity; exfalso; lra.
      * destruct (Qltb_spec (key x) (key b)).
        -- cbn [find_by]. destruct (Qltb_spec s (key x)).
           ++ exfalso. lra.
           ++ destruct (Qltb_spec s (key b)); [lra|]. cbn [find_by] in R. rewrite R. unfold pick. repeat qcase; try reflexivity; exfalso; lra.
        -- cbn [find_by]. destruct (Qltb_spec s (key b)); [lra|]. exact IH.
Qed.

Lemma store_governs s ins : ins <> [] -> exists r, GetRecordByS key (fold_left (AddRecord key) ins []) s = Some r /\ governs s ins r.
Proof.
  induction ins as [|x ins IH] using rev_ind; [congruence|]. intros _. rewrite fold_left_app. cbn [fold_left].
  assert (S : sorted (fold_left (AddRecord key) ins [])) by (apply store_sorted; constructor).
  rewrite get_find, add_insert by exact S. destruct ins as [|y ins].
  - exists x. split; [reflexivity|]. apply governs_one.
  - destruct IH as (r & R & G); [discriminate|]. exists (pick s r x). split; [|now apply governs_snoc].
    rewrite get_find in R. now apply find_insert.
Qed.

(** the governing record is unique up to its start: at any s *)
Lemma governs_key_unique s ins r r' : governs s ins r -> governs s ins r' -> key r == key r'.
Proof.
  intros G G'. pose proof (governs_in _ _ _ G) as I. pose proof (governs_in _ _ _ G') as I'.
  destruct (Qlt_le_dec s (key r)) as [L|L], (Qlt_le_dec s (key r')) as [L'|L'].
  - destruct (governs_min _ _ _ G L _ I'), (governs_min _ _ _ G' L' _ I). lra.
  - destruct (governs_min _ _ _ G L _ I'). lra.
  - destruct (governs_min _ _ _ G' L' _ I). lra.
  - pose proof (governs_max _ _ _ G L _ I' L'). pose proof (governs_max _ _ _ G' L' _ I L). lra.
Qed.

(** all declared records are stored, each as often as declared *)
Lemma store_perm x l : exists l1 l2, l = l1 ++ l2 /\ insert_before key x l = l1 ++ x :: l2.
Proof.
  induction l as [|a r (l1 & l2 & -> & E)]; cbn; [exists [], []; auto|]. destruct (Qltb _ _).
  - exists [], (a :: l1 ++ l2). auto.
  - exists (a :: l1), l2. rewrite E. auto.
Qed.
End Rec.

Section RecLast.
Context {A : Type} (key : A -> Q).
(** As [governs], but of equal starts the last declared one counts in either case. *)
Definition governs_last (s : Q) (ins : list A) (r : A) : Prop :=
  exists l1 l2, ins = l1 ++ r :: l2 /\
    ((key r <= s /\ (forall x, In x l1 -> key x <= s -> key x <= key r) /\ (forall x, In x l2 -> key x <= s -> key x < key r)) \/
     ((forall x, In x ins -> s < key x) /\ (forall x, In x l1 -> key r <= key x) /\ (forall x, In x l2 -> key r < key x))).
Definition pick_last (s : Q) (r x : A) : A :=
  if Qleb (key x) s then (if Qleb (key r) s then (if Qleb (key r) (key x) then x else r) else x)
  else (if Qleb (key r) s then r else if Qleb (key x) (key r) then x else r).

Lemma governs_last_one s x : governs_last s [x] x.
Proof.
  exists [], []. split; [auto|]. destruct (Qlt_le_dec s (key x)).
  - right. repeat split; intros y Y; cbn in Y; try tauto. destruct Y as [<-|[]]; auto.
  - left. repeat split; intros; cbn in *; tauto.
Qed.
Lemma governs_last_snoc s ins r x : governs_last s ins r -> governs_last s (ins ++ [x]) (pick_last s r x).
Proof.
  intros G.
  assert (MN : s < key r -> forall y, In y ins -> s < key y /\ key r <= key y).
  { destruct G as (l1 & l2 & -> & G). intros L y Y. destruct G as [(K & _)|(K & G1 & G2)]; [lra|].
    split; [auto|]. apply in_app_iff in Y. destruct Y as [Y|[<-|Y]]; [specialize (G1 _ Y)| |specialize (G2 _ Y)]; lra. }
  assert (MX : key r <= s -> forall y, In y ins -> key y <= s -> key y <= key r).
  { destruct G as (l1 & l2 & -> & G). intros L y Y YS. apply in_app_iff in Y. destruct G as [(K & G1 & G2)|(K & _)].
    - destruct Y as [Y|[<-|Y]]; [specialize (G1 _ Y YS)| |specialize (G2 _ Y YS)]; lra.
    - specialize (K r). rewrite in_app_iff in K. cbn in K. assert (s < key r) by tauto. lra. }
  assert (NEW : (key x <= s -> forall y, In y ins -> key y <= s -> key y <= key x) ->
                (s < key x -> forall y, In y ins -> s < key y /\ key x <= key y) -> governs_last s (ins ++ [x]) x).
  { intros H1 H2. exists ins, []. split; [auto|]. destruct (Qlt_le_dec s (key x)) as [L|L].
    - right. repeat split.
      + intros y Y. rewrite in_app_iff in Y. cbn in Y. destruct Y as [Y|[<-|[]]]; auto. now apply H2.
      + intros y Y. now apply H2.
      + intros y [].
    - left. repeat split; auto; try (now apply H1). intros y []. }
  assert (OLD : (key r <= s -> key x <= s -> key x < key r) -> (s < key r -> s < key x /\ key r < key x) -> governs_last s (ins ++ [x]) r).
  { intros H1 H2. destruct G as (l1 & l2 & -> & G). exists l1, (l2 ++ [x]). split; [now rewrite <- app_assoc|].
    destruct G as [(K & G1 & G2)|(K & G1 & G2)].
    - left. repeat split; auto. intros y Y. rewrite in_app_iff in Y. cbn in Y. destruct Y as [Y|[<-|[]]]; auto.
    - right. assert (KR : s < key r) by (apply K; rewrite in_app_iff; cbn; auto). destruct (H2 KR). repeat split; auto.
      + intros y Y. rewrite in_app_iff in Y. cbn in Y. destruct Y as [Y|[<-|[]]]; auto.
      + intros y Y. rewrite in_app_iff in Y. cbn in Y. destruct Y as [Y|[<-|[]]]; auto. }
  unfold pick_last. repeat qcase; first [apply NEW | apply OLD]; intros; try lra; try (split; try lra);
    try (match goal with Y : In _ _ |- _ => first [specialize (MX ltac:(lra) _ Y ltac:(lra)) | specialize (MN ltac:(lra) _ Y)] end); lra.
Qed.

(** insertion that overwrites an equal start *)
Fixpoint insert_over (x : A) (l : list A) : list A :=
  match l with
  | [] => [x]
  | a :: r => if Qltb (key x) (key a) then x :: a :: r
              else if Qltb (key a) (key x) then a :: insert_over x r
              else x :: r
  end.
Definition ssorted (l : list A) : Prop := StronglySorted (fun a b => key a < key b) l.

Lemma insert_over_in x l y : In y (insert_over x l) -> y = x \/ In y l.
Proof.
  induction l as [|a r IH]; cbn; [intuition congruence|]. destruct (Qltb _ _); cbn; [intuition congruence|].
  destruct (Qltb _ _); cbn; intuition congruence.
Qed.
Lemma insert_over_sorted x l : ssorted l -> ssorted (insert_over x l).
Proof.
  unfold ssorted. induction 1 as [|a r S IH F]; cbn; [repeat constructor|]. qcase; [|qcase].
  - constructor; [constructor; auto|]. constructor; [lra|]. eapply Forall_impl; [|exact F]. cbn. intros; lra.
  - constructor; auto. rewrite Forall_forall in *. intros y Y. apply insert_over_in in Y. destruct Y as [->|Y]; auto; lra.
  - constructor; auto. eapply Forall_impl; [|exact F]. cbn. intros; lra.
Qed.
Lemma find_insert_over s x l r : ssorted l -> find_by key s l = Some r -> find_by key s (insert_over x l) = Some (pick_last s r x).
Proof.
  unfold ssorted. intros S. revert r. induction S as [|a l S IH F]; intros r; cbn; [discriminate|].
  destruct l as [|b l].
  - intros [= <-]. unfold pick_last. cbn. repeat (qcase; cbn); try reflexivity; exfalso; lra.
  - inversion F as [|b' l' HB FB]; subst. cbn [insert_over] in *.
    destruct (Qltb_spec s (key b)) as [SB|SB].
    + intros [= <-]. destruct (Qltb_spec (key x) (key a)).
      * cbn. unfold pick_last. repeat (qcase; cbn); try reflexivity; exfalso; lra.
      * destruct (Qltb_spec (key a) (key x)).
        -- destruct (Qltb_spec (key x) (key b)); cbn; unfold pick_last; [repeat (qcase; cbn); try reflexivity; exfalso; lra|].
           destruct (Qltb_spec (key b) (key x)); cbn; repeat (qcase; cbn); try reflexivity; exfalso; lra.
        -- cbn; unfold pick_last; repeat (qcase; cbn); try reflexivity; exfalso; lra.
    + intros R. specialize (IH _ R).
      assert (RS : key r <= s /\ key b <= key r).
      { clear IH. clear - S SB R. revert b S SB R. induction l as [|c l IH]; cbn; intros b SS SB R.
        - injection R as <-. lra.
        - destruct (Qltb_spec s (key c)); [injection R as <-; lra|]. inversion SS as [|? ? S2 F2]; subst.
          inversion F2; subst. destruct (IH c S2 ltac:(lra) R). lra. }
      destruct (Qltb_spec (key x) (key a)); [|destruct (Qltb_spec (key a) (key x))].
      * cbn [find_by]. destruct (Qltb_spec s (key a)); [lra|]. destruct (Qltb_spec s (key b)); [lra|].
        cbn [find_by] in R. rewrite R. unfold pick_last. repeat qcase; try reflexivity; exfalso; lra.
      * destruct (Qltb_spec (key x) (key b)); [|destruct (Qltb_spec (key b) (key x))].
        -- cbn [find_by]. destruct (Qltb_spec s (key x)).
           ++ exfalso. lra.
           ++ destruct (Qltb_spec s (key b)); [lra|]. cbn [find_by] in R. rewrite R. unfold pick_last. repeat qcase; try reflexivity; exfalso; lra.
        -- cbn [find_by]. destruct (Qltb_spec s (key b)); [lra|]. exact IH.
        -- cbn [find_by]. destruct (Qltb_spec s (key x)); [lra|]. exact IH.
      * cbn [find_by]. destruct (Qltb_spec s (key b)); [lra|]. cbn [find_by] in R. rewrite R.
        unfold pick_last. repeat qcase; try reflexivity; exfalso; lra.
Qed.
Lemma fold_over_sorted ins l : ssorted l -> ssorted (fold_left (fun l x => insert_over x l) ins l).
Proof. revert l. induction ins as [|x r IH]; cbn; intros l S; auto. apply IH. now apply insert_over_sorted. Qed.
Lemma over_governs s ins : ins <> [] ->
  exists r, find_by key s (fold_left (fun l x => insert_over x l) ins []) = Some r /\ governs_last s ins r.
Proof.
  induction ins as [|x ins IH] using rev_ind; [congruence|]. intros _. rewrite fold_left_app. cbn [fold_left].
  assert (S : ssorted (fold_left (fun l x => insert_over x l) ins [])) by (apply fold_over_sorted; constructor).
  destruct ins as [|y ins].
  - exists x. split; [reflexivity|]. apply governs_last_one.
  - destruct IH as (r & R & G); [discriminate|]. exists (pick_last s r x). split; [|now apply governs_last_snoc].
    now apply find_insert_over.
Qed.
Lemma fold_over_in ins l y : In y (fold_left (fun l x => insert_over x l) ins l) -> In y ins \/ In y l.
Proof.
  revert l. induction ins as [|x r IH]; cbn; intros l H; auto. apply IH in H. destruct H as [H|H]; auto.
  apply insert_over_in in H. intuition.
Qed.

(** friction records: starts are equal or at least 1e-6 apart *)
Definition separated (ins : list A) : Prop := forall x y, In x ins -> In y ins -> key x == key y \/ SMALL <= Qabs (key x - key y).

Lemma near_eq x a : (key x == key a \/ SMALL <= Qabs (key x - key a)) -> NEAR_NUMBERS (key x) (key a) = Qeqb (key x) (key a).
Proof.
  intros H. unfold NEAR_NUMBERS. pose proof SMALL_pos. destruct (Qeqb_spec (key x) (key a)) as [E|E].
  - assert (Z : key x - key a == 0) by lra. rewrite Qltb_lt. rewrite Z. exact SMALL_pos.
  - apply Qltb_ge. destruct H; [contradiction|auto].
Qed.
Lemma insert_material_over x l : (forall a, In a l -> key x == key a \/ SMALL <= Qabs (key x - key a)) ->
  insert_material key x l = insert_over x l.
Proof.
  induction l as [|a r IH]; cbn [insert_material insert_over]; intros H; auto.
  rewrite near_eq by (apply H; left; auto). rewrite IH by (intros b B; apply H; right; auto).
  repeat qcase; try reflexivity; exfalso; lra.
Qed.
Lemma insert_over_last x l : (forall a, In a l -> key a < key x) -> insert_over x l = l ++ [x].
Proof.
  induction l as [|a r IH]; cbn; intros H; auto. pose proof (H a (or_introl eq_refl)).
  qcase; [lra|]. qcase; [|lra]. rewrite IH; auto.
Qed.
Lemma ssorted_last l b t : ssorted (l ++ [b]) -> In t (l ++ [b]) -> key t <= key b.
Proof.
  unfold ssorted. induction l as [|a r IH]; cbn; intros S T.
  - destruct T as [<-|[]]; lra.
  - inversion S; subst. destruct T as [<-|T]; auto. rewrite Forall_forall in H2. apply Qlt_le_weak. apply H2. rewrite in_app_iff. cbn. auto.
Qed.
Lemma add_material_over l x : ssorted l -> (forall a, In a l -> key x == key a \/ SMALL <= Qabs (key x - key a)) ->
  AddLaneMaterial key l x = insert_over x l.
Proof.
  intros S H. unfold AddLaneMaterial. destruct (rev l) as [|b r] eqn:E.
  - apply (f_equal (@rev A)) in E. rewrite rev_involutive in E. now subst.
  - apply (f_equal (@rev A)) in E. rewrite rev_involutive in E. cbn in E. subst l.
    qcase; [now apply insert_material_over|]. symmetry. apply insert_over_last. intros y Y.
    pose proof (ssorted_last _ _ _ S Y). unfold SMALL in *. lra.
Qed.
Lemma material_store ins l : ssorted l -> separated (l ++ ins) ->
  fold_left (AddLaneMaterial key) ins l = fold_left (fun l x => insert_over x l) ins l.
Proof.
  revert l. induction ins as [|x r IH]; cbn [fold_left]; intros l S SEP; auto.
  rewrite add_material_over; auto.
  2: { intros a IA. apply SEP; rewrite in_app_iff; cbn; auto. }
  apply IH; [now apply insert_over_sorted|]. intros u v U V. apply SEP; rewrite in_app_iff in *; cbn [In].
  - destruct U as [U|U]; auto. apply insert_over_in in U. intuition.
  - destruct V as [V|V]; auto. apply insert_over_in in V. intuition.
Qed.
Lemma material_governs s ins : ins <> [] -> separated ins ->
  exists r, GetRecordByS key (fold_left (AddLaneMaterial key) ins []) s = Some r /\ governs_last s ins r.
Proof.
  intros N S. rewrite material_store; [|constructor|exact S]. rewrite get_find. now apply over_governs.
Qed.
End RecLast.

(** road type entries *)
Lemma road_type_over {T} (ins : list (Q * T)) l : fold_left AddRoadType ins l = fold_left (fun l x => insert_over fst x l) ins l.
Proof.
  revert l. induction ins as [|x r IH]; cbn; intros l; auto. rewrite IH. f_equal.
  induction l as [|a l IHl]; cbn; auto. rewrite IHl. auto.
Qed.
Lemma ub_find {A} (key : A -> Q) s : forall (l : list A) a, ssorted key (a :: l) -> key a <= s ->
  nth_error (a :: l) (upper_bound (fun e => Qltb s (key e)) l) = find_by key s (a :: l).
Proof.
  induction l as [|b l IH]; intros a S L; [reflexivity|].
  transitivity (if Qltb s (key b) then Some a else find_by key s (b :: l)); [|reflexivity].
  cbn [upper_bound]. qcase; [reflexivity|]. rewrite <- IH; [reflexivity| |lra]. now inversion S.
Qed.
Lemma type_find {T} (l : list (Q * T)) s : ssorted fst l -> GetRoadTypeEntryByS l s = option_map snd (find_by fst s l).
Proof.
  intros S. destruct l as [|a l]; [reflexivity|]. cbn [GetRoadTypeEntryByS upper_bound]. qcase.
  - destruct l as [|b l]; [reflexivity|]. cbn. inversion S as [|? ? S2 F]; subst. inversion F; subst. qcase; [reflexivity|lra].
  - rewrite ub_find; auto. lra.
Qed.
Lemma road_type_governs {T} (ins : list (Q * T)) s : ins <> [] ->
  exists r, GetRoadTypeEntryByS (fold_left AddRoadType ins []) s = Some (snd r) /\ governs_last fst s ins r.
Proof.
  intros N. rewrite road_type_over. rewrite type_find by (apply fold_over_sorted; constructor).
  destruct (over_governs fst s ins N) as (r & R & G). exists r. rewrite R. auto.
Qed.

(** ** Lane offsets and elevations: records declared in ascending order *)

Definition ascending (l : list span) : Prop := StronglySorted (fun a b => sp_s a < sp_s b) l.

(** start and polynomial of a record: what the file declares *)
Definition decl (e : span) : Q * poly := (sp_s e, sp_poly e).

Lemma set_last_decl len l : map decl (set_last_length len l) = map decl l.
Proof. induction l as [|a [|b r] IH]; [reflexivity|reflexivity|]. cbn [set_last_length map] in *. now rewrite IH. Qed.
Lemma add_elevation_decl L l e : map decl (AddElevation L l e) = map decl l ++ [decl e].
Proof. unfold AddElevation. rewrite map_app, set_last_decl. reflexivity. Qed.
Lemma store_elevation_decl L ins l : map decl (fold_left (AddElevation L) ins l) = map decl l ++ map decl ins.
Proof.
  revert l. induction ins as [|e r IH]; cbn [fold_left map]; intros l; [now rewrite app_nil_r|].
  rewrite IH, add_elevation_decl, <- app_assoc. reflexivity.
Qed.

(** every record ends where the next one starts, the last one at the end of the road *)
Fixpoint chained (L : Q) (l : list span) : Prop :=
  match l with
  | [] => True
  | a :: r => match r with
              | [] => sp_length a = L - sp_s a
              | b :: _ => sp_length a = sp_s b - sp_s a /\ chained L r
              end
  end.
Lemma back_s_cons a b l : back_s (a :: b :: l) = back_s (b :: l).
Proof. unfold back_s. cbn [rev]. destruct (rev l); reflexivity. Qed.
Lemma chained_snoc L l e : chained L l -> chained L (AddElevation L l e).
Proof.
  unfold AddElevation. intros C. induction l as [|a l IH]; cbn [set_last_length app]; [reflexivity|].
  destruct l as [|b l].
  - cbn. auto.
  - cbn [set_last_length app chained] in *. destruct C as [C1 C2]. specialize (IH C2). rewrite back_s_cons.
    destruct l as [|c l]; cbn in *; auto.
Qed.
Lemma store_elevation_chained L ins : chained L (fold_left (AddElevation L) ins []).
Proof.
  assert (H : forall l, chained L l -> chained L (fold_left (AddElevation L) ins l)).
  { induction ins as [|e r IH]; cbn; auto. intros l C. apply IH. now apply chained_snoc. }
  apply H. exact I.
Qed.

(** lane offset *)
Lemma lane_offset_find l s : lane_offset_at l s = find_by sp_s s l.
Proof. induction l as [|a [|b r] IH]; [reflexivity|reflexivity|]. cbn [lane_offset_at find_by] in *. now rewrite IH. Qed.

(** the record governing s in an ascending list *)
Lemma ascending_governs l s : ascending l -> l <> [] -> exists r, find_by sp_s s l = Some r /\ governs sp_s s l r.
Proof.
  intros S. induction S as [|a l S IH F]; [congruence|]. intros _. destruct l as [|b l].
  - exists a. split; [reflexivity|]. apply governs_one.
  - cbn [find_by]. inversion F as [|? ? AB FB]; subst. qcase.
    + exists a. split; [reflexivity|]. exists [], (b :: l). split; [reflexivity|].
      assert (BIG : forall x, In x (b :: l) -> s < sp_s x).
      { intros x [<-|X]; auto. inversion S as [|? ? S2 F2]; subst. rewrite Forall_forall in F2. specialize (F2 _ X). lra. }
      rewrite Forall_forall in F. destruct (Qlt_le_dec s (sp_s a)).
      * right. repeat split; try (intros x []; fail).
        -- intros x [<-|X]; auto.
        -- intros x X. specialize (F _ X). lra.
      * left. repeat split; auto; try (intros x []; fail). intros x X XS. specialize (BIG _ X). lra.
    + destruct IH as (r & R & G); [discriminate|]. exists r. split; [exact R|].
      pose proof (governs_max _ _ _ _ G) as MX. pose proof (governs_min _ _ _ _ G) as MN.
      assert (RS : sp_s r <= s). { destruct (Qlt_le_dec s (sp_s r)) as [Z|Z]; auto. destruct (MN Z b (or_introl eq_refl)). lra. }
      pose proof (MX RS b (or_introl eq_refl) ltac:(lra)) as BR.
      destruct G as (l1 & l2 & E & [(K & G1 & G2)|(K & _)]).
      * exists (a :: l1), l2. split; [now rewrite E|]. left. repeat split; auto.
        intros x [<-|X] XS; auto. lra.
      * specialize (K b (or_introl eq_refl)). lra.
Qed.

(** the start and the polynomial determine the value: lists with the same declarations are looked up alike *)
Lemma find_decl s l l' : map decl l = map decl l' -> option_map decl (find_by sp_s s l) = option_map decl (find_by sp_s s l').
Proof.
  revert l'. induction l as [|a l IH]; intros [|a' l'] E; try discriminate; [reflexivity|].
  injection E as E1 E2 E3. destruct l as [|b l], l' as [|b' l']; try discriminate.
  - cbn. unfold decl. congruence.
  - pose proof (IH _ E3) as IH'. cbn [find_by]. injection E3 as F1 F2 F3. rewrite F1. destruct (Qltb s (sp_s b')).
    + cbn. unfold decl. congruence.
    + exact IH'.
Qed.

(** what AddLaneOffset stores: the declared records, preceded by a record at 0 if the first one starts later *)
Definition offset_decls (ins : list span) : list span :=
  match ins with
  | [] => []
  | e :: _ => if Qltb SMALL (sp_s e)
              then Span 0 0 (Poly (pa (sp_poly e)) (pb (sp_poly e)) (pc (sp_poly e)) (pd (sp_poly e)) 1) :: ins
              else ins
  end.
Lemma add_offset_decl L l e : l <> [] -> map decl (AddLaneOffset L l e) = map decl l ++ [decl e].
Proof. intros N. unfold AddLaneOffset. destruct l; [congruence|]. rewrite map_app, set_last_decl. reflexivity. Qed.
Lemma store_offset_decl L ins : map decl (fold_left (AddLaneOffset L) ins []) = map decl (offset_decls ins).
Proof.
  destruct ins as [|e r]; [reflexivity|]. cbn [fold_left offset_decls].
  assert (H : forall ins l, l <> [] -> map decl (fold_left (AddLaneOffset L) ins l) = map decl l ++ map decl ins).
  { clear. induction ins as [|e r IH]; cbn [fold_left map]; intros l N; [now rewrite app_nil_r|].
    rewrite IH; [rewrite add_offset_decl by auto; rewrite <- app_assoc; reflexivity|].
    unfold AddLaneOffset. destruct l; [congruence|]. destruct (set_last_length _ _); discriminate. }
  rewrite H.
  - unfold AddLaneOffset. destruct (Qltb _ _); reflexivity.
  - unfold AddLaneOffset. destruct (Qltb _ _); discriminate.
Qed.
Lemma offset_decls_ascending ins : ascending ins -> ascending (offset_decls ins).
Proof.
  intros S. destruct ins as [|e r]; auto. cbn. qcase; auto. constructor; auto. cbn [sp_s]. pose proof SMALL_pos.
  inversion S; subst. constructor; [lra|]. eapply Forall_impl; [|eassumption]. cbn. intros; lra.
Qed.
Lemma lane_offset_value L ins s : ascending ins -> ins <> [] ->
  exists r, governs sp_s s (offset_decls ins) r /\
    GetLaneOffset (fold_left (AddLaneOffset L) ins []) s = Evaluate (sp_poly r) (s - sp_s r) /\
    GetLaneOffsetPrim (fold_left (AddLaneOffset L) ins []) s = EvaluatePrim (sp_poly r) (s - sp_s r).
Proof.
  intros S N. destruct (ascending_governs (offset_decls ins) s) as (r & R & G).
  - now apply offset_decls_ascending.
  - destruct ins; [congruence|]. cbn. destruct (Qltb _ _); discriminate.
  - exists r. split; [exact G|]. pose proof (find_decl s _ _ (store_offset_decl L ins)) as D. rewrite R in D. cbn in D.
    unfold GetLaneOffset, GetLaneOffsetPrim. rewrite lane_offset_find.
    destruct (find_by sp_s s (fold_left _ _ _)) as [x|]; [|discriminate]. cbn in D. unfold decl in D. injection D as -> ->. auto.
Qed.
Lemma lane_offset_none L s : GetLaneOffset (fold_left (AddLaneOffset L) [] []) s = 0.
Proof. reflexivity. Qed.

(** elevation search *)
Section ElevSearch.
Variables (L : Q) (l : list span) (s tol : Q).
Hypothesis C : chained L l.
Hypothesis TOL : 0 <= tol.
Hypothesis ASC : ascending l.
Hypothesis INR : forall e, In e l -> sp_s e <= L.

Lemma chained_nth i a b : nth_error l i = Some a -> nth_error l (S i) = Some b -> sp_end a == sp_s b.
Proof.
  revert i a b. clear TOL ASC INR. induction l as [|x r IH]; intros i a b; [destruct i; discriminate|].
  destruct r as [|y r]; [destruct i as [|[]]; discriminate|].
  cbn [chained] in C. destruct C as [C1 C2]. destruct i as [|i].
  - cbn. intros [= <-] [= <-]. unfold sp_end. rewrite C1. lra.
  - cbn [nth_error]. intros. eapply IH; eauto.
Qed.

Lemma length_nonneg i a : nth_error l i = Some a -> sp_s a <= sp_end a.
Proof.
  intros A. destruct (nth_error l (S i)) as [b|] eqn:B.
  - rewrite (chained_nth _ _ _ A B). clear - ASC A B. revert i A B. unfold ascending in ASC. induction ASC as [|x r S IH F]; intros i A B.
    + destruct i; discriminate.
    + destruct i as [|i].
      * cbn in A. injection A as ->. destruct r as [|y r]; [discriminate|]. cbn in B. injection B as ->. inversion F; subst. lra.
      * cbn [nth_error] in A, B. eapply IH; eauto.
  - specialize (INR _ (nth_error_In _ _ A)). unfold sp_end.
    assert (E : sp_length a = L - sp_s a).
    { clear - C A B. revert i A B. induction l as [|x r IH]; intros i A B; [destruct i; discriminate|].
      destruct r as [|y r].
      - destruct i as [|i]; [|destruct i; discriminate]. cbn in A. injection A as ->. exact C.
      - destruct C as [C1 C2]. destruct i as [|i]; [discriminate|]. cbn [nth_error] in *. eapply IH; eauto. }
    rewrite E. lra.
Qed.

(** [k] is right for s up to the tolerance *)
Definition elev_ok (k : nat) : Prop :=
  (k < List.length l)%nat /\
  (forall e, (0 < k)%nat -> nth_error l k = Some e -> sp_s e - tol <= s) /\
  (forall e, nth_error l (S k) = Some e -> s < sp_s e \/ s <= sp_s e - tol).

Lemma elev_fwd_ok fuel i a : nth_error l i = Some a -> sp_end a - tol < s -> (List.length l <= i + fuel)%nat ->
  let k := elev_fwd l s tol fuel i in
  (k < List.length l)%nat /\ (forall e, (i < k)%nat -> nth_error l k = Some e -> sp_s e - tol < s) /\ (i <= k)%nat /\
  (forall e, nth_error l (S k) = Some e -> s <= sp_s e - tol).
Proof.
  cbn zeta. revert i a. induction fuel as [|f IH]; intros i a A E LEN.
  - assert (nth_error l i <> None) by congruence. apply nth_error_Some in H. lia.
  - cbn [elev_fwd]. rewrite A. destruct (Qltb_spec (sp_end a - tol) s); [|lra]. cbn [andb].
    assert (IL : (i < List.length l)%nat) by (apply nth_error_Some; congruence).
    destruct (Nat.ltb_spec i (List.length l - 1)).
    + destruct (nth_error l (S i)) as [b|] eqn:B; [|apply nth_error_None in B; lia].
      pose proof (chained_nth _ _ _ A B) as AB.
      destruct (Qlt_le_dec (sp_end b - tol) s) as [Z|Z].
      * destruct (IH (S i) b B Z ltac:(lia)) as (K1 & K2 & K3 & K4).
        split; [exact K1|]. split; [|split; [lia|exact K4]]. intros e _ EE.
        destruct (Nat.eq_dec (elev_fwd l s tol f (S i)) (S i)) as [EQ|NE].
        -- rewrite EQ, B in EE. injection EE as <-. lra.
        -- apply K2; auto. lia.
      * assert (K : elev_fwd l s tol f (S i) = S i).
        { destruct f; [reflexivity|]. cbn [elev_fwd]. rewrite B. destruct (Qltb_spec (sp_end b - tol) s); [lra|reflexivity]. }
        rewrite K. split; [lia|]. split; [|split; [lia|]].
        -- intros e _ EE. rewrite B in EE. injection EE as <-. lra.
        -- intros e EE. pose proof (chained_nth _ _ _ B EE). lra.
    + split; [lia|]. split; [intros; lia|]. split; [lia|]. intros e EE.
      assert (nth_error l (S i) <> None) by congruence. apply nth_error_Some in H0. lia.
Qed.
Lemma elev_bwd_ok i a : nth_error l i = Some a -> s < sp_s a ->
  let k := elev_bwd l s i in
  (k < List.length l)%nat /\ (k <= i)%nat /\ (forall e, (0 < k)%nat -> nth_error l k = Some e -> sp_s e <= s) /\
  (forall e, (k < i)%nat -> nth_error l (S k) = Some e -> s < sp_s e).
Proof.
  cbn zeta. revert a. induction i as [|i IH]; intros a A E.
  - cbn. assert (nth_error l 0 <> None) by congruence. apply nth_error_Some in H. repeat split; intros; lia.
  - cbn [elev_bwd]. rewrite A. destruct (Qltb_spec s (sp_s a)); [|lra].
    assert (IL : (S i < List.length l)%nat) by (apply nth_error_Some; congruence).
    destruct (nth_error l i) as [b|] eqn:B; [|apply nth_error_None in B; lia].
    destruct (Qlt_le_dec s (sp_s b)) as [Z|Z].
    + destruct (IH b eq_refl Z) as (K1 & K2 & K3 & K4). repeat split; auto.
      intros e KI EE. destruct (Nat.eq_dec (elev_bwd l s i) i) as [EQ|NE].
      * rewrite EQ, A in EE. injection EE as <-. auto.
      * apply K4; auto. lia.
    + assert (K : elev_bwd l s i = i).
      { destruct i; [reflexivity|]. cbn [elev_bwd]. rewrite B. destruct (Qltb_spec s (sp_s b)); [lra|reflexivity]. }
      rewrite K. repeat split; try lia.
      * intros e _ EE. rewrite B in EE. injection EE as <-. lra.
      * intros e _ EE. rewrite A in EE. injection EE as <-. auto.
Qed.
Lemma elev_search_ok index : l <> [] -> exists k, elev_search l s tol index = Some k /\ elev_ok k.
Proof.
  intros N. unfold elev_search. assert (LEN : (0 < List.length l)%nat) by (destruct l; [congruence|cbn; lia]).
  destruct (Nat.ltb_spec 0 (List.length l)); [|lia].
  set (i := if (List.length l <=? index)%nat then O else index).
  assert (IL : (i < List.length l)%nat) by (unfold i; destruct (Nat.leb_spec (List.length l) index); lia). clearbody i.
  destruct (nth_error l i) as [a|] eqn:A; [|apply nth_error_None in A; lia].
  eexists. split; [reflexivity|]. destruct (Qltb_spec (sp_end a - tol) s) as [F|F].
  - destruct (elev_fwd_ok (List.length l) i a A F ltac:(lia)) as (K1 & K2 & K3 & K4).
    set (k := elev_fwd _ _ _ _ _) in *. clearbody k. split; [auto|]. split.
    + intros e K0 EE. destruct (Nat.eq_dec k i) as [->|NE].
      * rewrite A in EE. injection EE as <-. pose proof (length_nonneg _ _ A). lra.
      * apply Qlt_le_weak. apply K2; auto. lia.
    + intros e EE. specialize (K4 _ EE). auto.
  - destruct (Qltb_spec s (sp_s a)) as [B|B].
    + destruct (elev_bwd_ok i a A B) as (K1 & K2 & K3 & K4). set (k := elev_bwd _ _ _) in *. clearbody k.
      split; [auto|]. split.
      * intros e K0 EE. specialize (K3 _ K0 EE). lra.
      * intros e EE. destruct (Nat.eq_dec k i) as [->|NE].
        -- pose proof (chained_nth _ _ _ A EE). pose proof (length_nonneg _ _ A). left. lra.
        -- left. apply K4; auto. lia.
    + split; [auto|]. split.
      * intros e K0 EE. rewrite A in EE. injection EE as <-. lra.
      * intros e EE. pose proof (chained_nth _ _ _ A EE). right. lra.
Qed.
End ElevSearch.

Lemma ascending_decl l l' : map decl l = map decl l' -> ascending l -> ascending l'.
Proof.
  unfold ascending. revert l'. induction l as [|a l IH]; intros [|a' l'] E S; try discriminate; [constructor|].
  injection E as E1 E2 E3. inversion S; subst. constructor; [eapply IH; eauto|].
  rewrite Forall_forall in *. intros x X.
  assert (D : In (decl x) (map decl l')) by (now apply in_map). rewrite <- E3 in D. apply in_map_iff in D.
  destruct D as (y & D & Y). unfold decl in D. injection D as D1 D2. rewrite <- E1, <- D1. auto.
Qed.
Lemma decl_starts l l' (P : Q -> Prop) : map decl l = map decl l' -> (forall e, In e l -> P (sp_s e)) -> forall e, In e l' -> P (sp_s e).
Proof.
  intros E H x X. assert (D : In (decl x) (map decl l')) by (now apply in_map). rewrite <- E in D. apply in_map_iff in D.
  destruct D as (y & D & Y). unfold decl in D. injection D as D1 D2. rewrite <- D1. auto.
Qed.
Lemma find_at l s k e : ascending l -> nth_error l k = Some e -> ((0 < k)%nat -> sp_s e <= s) ->
  (forall n, nth_error l (S k) = Some n -> s < sp_s n) -> find_by sp_s s l = Some e.
Proof.
  unfold ascending. intros S. revert k. induction S as [|a l S IH F]; intros k E LO HI; [destruct k; discriminate|].
  destruct l as [|b l].
  - destruct k as [|k]; [cbn in E; injection E as ->; reflexivity|destruct k; discriminate].
  - cbn [find_by]. destruct k as [|k].
    + cbn in E. injection E as ->. specialize (HI b eq_refl). qcase; [reflexivity|lra].
    + cbn [nth_error] in *. specialize (LO ltac:(lia)). qcase.
      * exfalso. inversion S as [|? ? S2 F2]; subst. destruct k as [|k]; [cbn in E; injection E as ->; lra|].
        apply nth_error_In in E. rewrite Forall_forall in F2. destruct E as [->|E]; [lra|]. specialize (F2 _ E). lra.
      * eapply IH; eauto.
Qed.

Section Elevation.
Variables (L : Q) (ins : list span) (s : Q).
Hypothesis ASC : ascending ins.
Hypothesis INR : forall e, In e ins -> sp_s e <= L.
Hypothesis NE : ins <> [].
Let l := fold_left (AddElevation L) ins [].

Lemma stored_decl : map decl ins = map decl l.
Proof. unfold l. now rewrite store_elevation_decl. Qed.
Lemma stored_ne : l <> [].
Proof. intros E. pose proof stored_decl as D. rewrite E in D. destruct ins; [congruence|discriminate]. Qed.
Lemma stored_search tol index : 0 <= tol -> exists k, elev_search l s tol index = Some k /\ elev_ok l s tol k.
Proof.
  intros T. eapply elev_search_ok with (L := L); auto.
  - apply store_elevation_chained.
  - eapply ascending_decl; [exact stored_decl|auto].
  - eapply (decl_starts ins l (fun q => q <= L)); [exact stored_decl|auto].
  - exact stored_ne.
Qed.
(** where the search stops exactly, the record that governs s is used *)
Lemma elev_exact tol index : 0 <= tol ->
  (forall e, In e ins -> s < sp_s e -> s + tol < sp_s e) -> (tol == 0 -> forall e, In e ins -> ~ sp_s e == s) ->
  exists k e r, elev_search l s tol index = Some k /\ nth_error l k = Some e /\ decl e = decl r /\
    governs sp_s s ins r.
Proof.
  intros T FAR NB. destruct (stored_search tol index T) as (k & K & KL & LO & HI).
  destruct (nth_error l k) as [e|] eqn:E; [|apply nth_error_None in E; lia].
  assert (FAR' : forall e, In e l -> s < sp_s e -> s + tol < sp_s e).
  { apply (decl_starts ins l (fun q => s < q -> s + tol < q)); [exact stored_decl|auto]. }
  assert (NB' : tol == 0 -> forall e, In e l -> ~ sp_s e == s).
  { intros T0. apply (decl_starts ins l (fun q => ~ q == s)); [exact stored_decl|auto]. }
  assert (FND : find_by sp_s s l = Some e).
  { apply find_at with (k := k); auto.
    - eapply ascending_decl; [exact stored_decl|auto].
    - intros K0. specialize (LO e K0 eq_refl). destruct (Qlt_le_dec s (sp_s e)) as [Z|Z]; auto.
      pose proof (FAR' e (nth_error_In _ _ E) Z). lra.
    - intros n N. destruct (HI n N) as [Z|Z]; auto. destruct (Qlt_le_dec 0 tol); [lra|].
      assert (T0 : tol == 0) by lra. pose proof (NB' T0 n (nth_error_In _ _ N)) as NN.
      destruct (Qlt_le_dec s (sp_s n)); auto. exfalso. apply NN. lra. }
  pose proof (find_decl s _ _ stored_decl) as D. rewrite FND in D.
  destruct (ascending_governs ins s ASC NE) as (r & R & G). rewrite R in D. cbn in D. injection D as D1 D2.
  exists k, e, r. repeat split; auto. unfold decl. congruence.
Qed.
Lemma elevation_value index : (forall e, In e ins -> s < sp_s e -> s + SMALL < sp_s e) ->
  exists r k, governs sp_s s ins r /\
    GetZAndPitchByS l s index = Some (Evaluate (sp_poly r) (s - sp_s r), EvaluatePrim (sp_poly r) (s - sp_s r),
                                      EvaluatePrimPrim (sp_poly r) (s - sp_s r), k).
Proof.
  intros FAR. destruct (elev_exact SMALL index) as (k & e & r & K & E & D & G); auto.
  - pose proof SMALL_pos; lra.
  - intros Z. pose proof SMALL_pos; lra.
  - exists r, k. split; [exact G|]. unfold GetZAndPitchByS. rewrite K, E. unfold decl in D. injection D as -> ->. reflexivity.
Qed.
Lemma roll_value index : (forall e, In e ins -> ~ sp_s e == s) ->
  exists r k, governs sp_s s ins r /\
    UpdateRollByS l s index = Some (Evaluate (sp_poly r) (s - sp_s r), EvaluatePrim (sp_poly r) (s - sp_s r), k).
Proof.
  intros NB. destruct (elev_exact 0 index) as (k & e & r & K & E & D & G); auto.
  - lra.
  - intros; lra.
  - exists r, k. split; [exact G|]. unfold UpdateRollByS. rewrite K, E. unfold decl in D. injection D as -> ->. reflexivity.
Qed.
(** in any case the record used governs a position not more than the tolerance ahead, or ends at s *)
Lemma elevation_near index : exists k e, nth_error l k = Some e /\
  GetZAndPitchByS l s index = Some (Evaluate (sp_poly e) (s - sp_s e), EvaluatePrim (sp_poly e) (s - sp_s e),
                                    EvaluatePrimPrim (sp_poly e) (s - sp_s e), k) /\
  ((0 < k)%nat -> sp_s e - SMALL <= s) /\ (forall n, nth_error l (S k) = Some n -> s < sp_s n).
Proof.
  destruct (stored_search SMALL index) as (k & K & KL & LO & HI); [pose proof SMALL_pos; lra|].
  destruct (nth_error l k) as [e|] eqn:E; [|apply nth_error_None in E; lia].
  exists k, e. split; [auto|]. split; [unfold GetZAndPitchByS; now rewrite K, E|]. split; auto.
  intros n N. pose proof SMALL_pos. destruct (HI n N); lra.
Qed.
Lemma roll_near index : exists k e, nth_error l k = Some e /\
  UpdateRollByS l s index = Some (Evaluate (sp_poly e) (s - sp_s e), EvaluatePrim (sp_poly e) (s - sp_s e), k) /\
  ((0 < k)%nat -> sp_s e <= s) /\ (forall n, nth_error l (S k) = Some n -> s <= sp_s n).
Proof.
  destruct (stored_search 0 index) as (k & K & KL & LO & HI); [lra|].
  destruct (nth_error l k) as [e|] eqn:E; [|apply nth_error_None in E; lia].
  exists k, e. split; [auto|]. split; [unfold UpdateRollByS; now rewrite K, E|]. split; auto.
  - intros K0. specialize (LO _ K0 eq_refl). lra.
  - intros n N. destruct (HI n N); lra.
Qed.
End Elevation.

(** polynomials: exact Taylor expansion, so [EvaluatePrim], [EvaluatePrimPrim] are the first two derivatives in the scaled
    argument *)
Lemma taylor f p h :
  Evaluate f (p + h) == Evaluate f p + (h * p_scale f) * EvaluatePrim f p + (h * p_scale f) * (h * p_scale f) / 2 * EvaluatePrimPrim f p
                        + (h * p_scale f) * (h * p_scale f) * (h * p_scale f) * pd f.
Proof. unfold Evaluate, EvaluatePrim, EvaluatePrimPrim. cbn zeta. field. Qed.
Lemma taylor_prim f p h :
  EvaluatePrim f (p + h) == EvaluatePrim f p + (h * p_scale f) * EvaluatePrimPrim f p + 3 * (h * p_scale f) * (h * p_scale f) * pd f.
Proof. unfold EvaluatePrim, EvaluatePrimPrim. cbn zeta. ring. Qed.
