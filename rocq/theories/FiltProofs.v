(** The filter of the vertices of a trajectory. *)
From Verif Require Import QAux LaneModel PolyModel.
From Coq Require Import PeanoNat.
Local Open Scope nat_scope.
Local Open Scope Q_scope.

Section Filter.
Variable dist : Q -> Q -> Q -> Q -> Q.
Variable diff : Q -> Q -> Q.
Variable radius : Q.

(** [b] is near [a], in place and heading. *)
Definition near (a b : tvertex) : bool := negb (VerticesUnique dist diff a b radius (1 # 10)).

(** ** What is expected: the vertices kept after [a], where [b] is looked at and [r] follows *)
Fixpoint thin (a b : tvertex) (r : list tvertex) : list tvertex :=
  match r with
  | [] => [b]
  | c :: r =>
      if near a b then
        if near a c then thin a c r
        else
          (if Qltb (tv_time c - tv_time a) (1 + SMALL) then [] else [at_time a (tv_time b)]) ++ c ::
          match r with [] => [] | b' :: r' => thin c b' r' end
      else b :: thin b c r
  end.

(** ** Updates in place *)

Lemma upd_length l i v : List.length (upd l i v) = List.length l.
Proof. revert i. induction l as [|x l IH]; intros [|i]; cbn; auto. Qed.
Lemma upd_same l i v : (i < List.length l)%nat -> nth_error (upd l i v) i = Some v.
Proof. revert i. induction l as [|x l IH]; intros [|i] B; cbn in *; auto; try lia. apply IH. lia. Qed.
Lemma upd_other l i j v : i <> j -> nth_error (upd l i v) j = nth_error l j.
Proof. revert i j. induction l as [|x l IH]; intros [|i] [|j] N; cbn; auto; try lia. Qed.
Lemma upd_skipn l i v n : (i < n)%nat -> skipn n (upd l i v) = skipn n l.
Proof. revert i n. induction l as [|x l IH]; intros [|i] [|n] B; cbn; auto; try lia. apply IH. lia. Qed.
Lemma upd_firstn l i v n : (n <= i)%nat -> firstn n (upd l i v) = firstn n l.
Proof. revert i n. induction l as [|x l IH]; intros [|i] [|n] B; cbn; auto; try lia. f_equal. apply IH. lia. Qed.
Lemma upd_next l i v : (i < List.length l)%nat -> firstn (S i) (upd l i v) = firstn i l ++ [v].
Proof. revert i. induction l as [|x l IH]; intros [|i] B; cbn in *; auto; try lia. f_equal. apply IH. lia. Qed.

Lemma skipn_nth (l : list tvertex) i v : nth_error l i = Some v -> skipn i l = v :: skipn (S i) l.
Proof. revert i. induction l as [|x l IH]; intros [|i] E; cbn in *; try discriminate; [congruence|]. apply IH. auto. Qed.

Lemma nth_some (l : list tvertex) i : (i < List.length l)%nat -> exists v, nth_error l i = Some v.
Proof. intro H. destruct (nth_error l i) eqn:E; eauto. apply nth_error_None in E. lia. Qed.

Lemma firstn_upd_2 l i v n : (i < n)%nat -> firstn n (upd l i v) = upd (firstn n l) i v.
Proof. revert i n. induction l as [|x l IH]; intros [|i] [|n] B; cbn; auto; try lia. f_equal. apply IH. lia. Qed.

(** The list at the end of the loop. *)
Definition finish (r : option (list tvertex * nat * nat)) : option (list tvertex) :=
  match r with
  | None => None
  | Some (l, a, b) => match nth_error l b with Some vb => Some (firstn (S (S a)) (upd l (S a) vb)) | None => Some (firstn (S a) l) end
  end.

Definition rest (l : list tvertex) (a b c : nat) : list tvertex :=
  match nth_error l a, nth_error l b with Some va, Some vb => thin va vb (skipn c l) | _, _ => [] end.

Lemma loop_spec fuel : forall l a b c, (a < b)%nat -> (b < c)%nat -> (List.length l < c + fuel)%nat -> (a < List.length l)%nat -> (fuel <> 0)%nat ->
  (c = S b \/ forall va vb, nth_error l a = Some va -> nth_error l b = Some vb -> near va vb = true) ->
  (b < List.length l \/ List.length l <= c)%nat ->
  finish (filter_loop dist diff fuel radius l a b c) = Some (firstn (S a) l ++ rest l a b c).
Proof.
  induction fuel as [|fuel IH]; intros l a b c AB BC F AL NF J K; [lia|]. cbn [filter_loop].
  destruct (nth_some l a AL) as [va Va].
  destruct (Nat.ltb_spec c (List.length l)) as [C|C].
  - destruct (nth_some l b ltac:(lia)) as [vb Vb]. destruct (nth_some l c C) as [vc Vc]. rewrite Va, Vb, Vc.
    unfold rest. rewrite Va, Vb, (skipn_nth _ _ _ Vc). cbn [thin].
    change (negb (VerticesUnique dist diff va vb radius (1 # 10))) with (near va vb).
    change (negb (VerticesUnique dist diff va vc radius (1 # 10))) with (near va vc).
    destruct (near va vb) eqn:Nb.
    + destruct (near va vc) eqn:Nc.
      * rewrite (IH (upd l b vc) a b (S c)); rewrite ?upd_length; try lia.
        -- rewrite upd_firstn by lia. f_equal. f_equal. unfold rest. rewrite upd_other by lia. rewrite Va, upd_same by lia. rewrite upd_skipn by lia. reflexivity.
        -- right. intros x y X Y. rewrite upd_other in X by lia. rewrite upd_same in Y by lia. congruence.
      * destruct (Qltb (tv_time vc - tv_time va) (1 + SMALL)) eqn:T.
        -- rewrite (IH (upd l (S a) vc) (S a) (S c) (S (S c))); rewrite ?upd_length; try lia.
           rewrite upd_next by lia. rewrite <- app_assoc. cbn [app]. f_equal. f_equal. f_equal.
           unfold rest. rewrite upd_same by lia. rewrite upd_other by lia. rewrite upd_skipn by lia.
           destruct (nth_error l (S c)) as [vd|] eqn:Vd.
           ++ rewrite (skipn_nth _ _ _ Vd). reflexivity.
           ++ apply nth_error_None in Vd. rewrite skipn_all2 by lia. reflexivity.
        -- cbv zeta. set (vs := at_time va (tv_time vb)). set (l1 := upd (upd l b vs) (S a) vs).
           assert (L1: List.length l1 = List.length l) by (unfold l1; rewrite !upd_length; auto).
           assert (Vc1: nth_error l1 c = Some vc) by (unfold l1; rewrite !upd_other by lia; auto). rewrite Vc1.
           rewrite (IH (upd l1 (S (S a)) vc) (S (S a)) (S c) (S (S c))); rewrite ?upd_length; try lia.
           rewrite upd_next by lia. unfold l1 at 1. rewrite upd_next by (rewrite upd_length; lia). rewrite upd_firstn by lia. rewrite <- !app_assoc. cbn [app].
           f_equal. f_equal. f_equal. f_equal.
           unfold rest. rewrite upd_same by lia. rewrite upd_other by lia. rewrite upd_skipn by lia.
           assert (E: nth_error l1 (S c) = nth_error l (S c)) by (unfold l1; rewrite !upd_other by lia; auto). rewrite E.
           assert (E2: skipn (S (S c)) l1 = skipn (S (S c)) l) by (unfold l1; rewrite !upd_skipn by lia; auto). rewrite E2.
           destruct (nth_error l (S c)) as [vd|] eqn:Vd.
           ++ rewrite (skipn_nth _ _ _ Vd). reflexivity.
           ++ apply nth_error_None in Vd. rewrite (skipn_all2 (n := S c)) by lia. reflexivity.
    + destruct J as [J|J]; [|rewrite (J va vb Va Vb) in Nb; discriminate]. subst c.
      rewrite (IH (upd l (S a) vb) (S a) (S b) (S (S b))); rewrite ?upd_length; try lia.
      rewrite upd_next by lia. rewrite <- app_assoc. cbn [app]. f_equal. f_equal. f_equal.
      unfold rest. rewrite upd_same by lia. rewrite upd_other by lia. rewrite Vc, upd_skipn by lia. reflexivity.
  - cbn [finish]. unfold rest. rewrite Va. rewrite skipn_all2 by lia.
    destruct (nth_error l b) as [vb|] eqn:Vb.
    + assert (b < List.length l)%nat by (apply nth_error_Some; congruence). rewrite upd_next by lia. reflexivity.
    + rewrite app_nil_r. reflexivity.
Qed.

Lemma filter_spec a b c r : SMALL < radius -> FinalizeVertices dist diff radius (a :: b :: c :: r) = Some (a :: thin a b (c :: r)).
Proof.
  intro R. unfold FinalizeVertices. apply Qltb_lt in R. rewrite R, andb_true_r.
  set (l := a :: b :: c :: r). assert (L: (2 < List.length l)%nat) by (cbn; lia). destruct (Nat.ltb_spec 2 (List.length l)) as [_|X]; [|lia].
  pose proof (loop_spec (List.length l) l 0 1 2 ltac:(lia) ltac:(lia) ltac:(lia) ltac:(lia) ltac:(lia) ltac:(auto) ltac:(lia)) as H.
  exact H.
Qed.

Lemma filter_off l : (List.length l <= 2)%nat \/ radius <= SMALL -> FinalizeVertices dist diff radius l = Some l.
Proof.
  unfold FinalizeVertices. intros [H|H].
  - destruct (Nat.ltb_spec 2 (List.length l)); [lia|]. reflexivity.
  - apply Qltb_ge in H. rewrite H, andb_false_r. reflexivity.
Qed.

(** ** What is kept *)

(** The rule of recursion of [thin]. *)
Lemma thin_ind (P : tvertex -> tvertex -> list tvertex -> list tvertex -> Prop) :
  (forall a b, P a b [] [b]) ->
  (forall a b c r, near a b = true -> near a c = true -> P a c r (thin a c r) -> P a b (c :: r) (thin a c r)) ->
  (forall a b c st, near a b = true -> near a c = false -> st = (if Qltb (tv_time c - tv_time a) (1 + SMALL) then [] else [at_time a (tv_time b)]) -> P a b [c] (st ++ [c])) ->
  (forall a b c d r st, near a b = true -> near a c = false -> st = (if Qltb (tv_time c - tv_time a) (1 + SMALL) then [] else [at_time a (tv_time b)]) ->
     P c d r (thin c d r) -> P a b (c :: d :: r) (st ++ c :: thin c d r)) ->
  (forall a b c r, near a b = false -> P b c r (thin b c r) -> P a b (c :: r) (b :: thin b c r)) ->
  forall r a b, P a b r (thin a b r).
Proof.
  intros H1 H2 H3 H4 H5. assert (G: forall n r, (List.length r <= n)%nat -> forall a b, P a b r (thin a b r)).
  { induction n as [|n IH]; intros r B a b.
    - destruct r; [apply H1|cbn in B; lia].
    - destruct r as [|c r]; [apply H1|]. cbn [thin]. cbn in B.
      destruct (near a b) eqn:Nb; [destruct (near a c) eqn:Nc|].
      + apply H2; auto. apply IH. lia.
      + destruct r as [|d r]; [apply H3; auto|]. apply H4; auto. apply IH. cbn in B. lia.
      + apply H5; auto. apply IH. lia. }
  intros r a b. apply (G (List.length r) r (Nat.le_refl _)).
Qed.

(** One list is what is left of another when some elements are dropped. *)
Inductive subseq {A} : list A -> list A -> Prop :=
  | sub_nil : forall l, subseq [] l
  | sub_take : forall x k l, subseq k l -> subseq (x :: k) (x :: l)
  | sub_drop : forall x k l, subseq k l -> subseq k (x :: l).

Lemma subseq_refl {A} (l : list A) : subseq l l.
Proof. induction l; constructor; auto. Qed.

Lemma thin_times r a b : subseq (map tv_time (thin a b r)) (map tv_time (b :: r)).
Proof.
  apply (thin_ind (fun a b r k => subseq (map tv_time k) (map tv_time (b :: r)))).
  - intros. apply subseq_refl.
  - intros. cbn [map]. apply sub_drop. auto.
  - intros a' b' c st _ _ ->. destruct (Qltb _ _); cbn; [apply sub_drop; apply subseq_refl | apply subseq_refl].
  - intros a' b' c d r' st _ _ -> H. destruct (Qltb _ _); cbn [app map] in *.
    + apply sub_drop, sub_take, H. + cbn. apply sub_take, sub_take, H.
  - intros. cbn [map]. apply sub_take. auto.
Qed.

Lemma thin_last r a b : exists k x, thin a b r = k ++ [x] /\ exists k', b :: r = k' ++ [x].
Proof.
  apply (thin_ind (fun a b r k => exists k1 x, k = k1 ++ [x] /\ exists k', b :: r = k' ++ [x])).
  - intros. exists [], b0. split; auto. exists []. auto.
  - intros a' b' c r' _ _ (k & x & -> & k' & E). exists k, x. split; auto. exists (b' :: k'). rewrite E. reflexivity.
  - intros a' b' c st _ _ _. exists st, c. split; auto. exists [b']. auto.
  - intros a' b' c d r' st _ _ _ (k & x & E & k' & E'). exists (st ++ c :: k), x. split.
    + rewrite E, <- app_assoc. reflexivity. + exists (b' :: c :: k'). rewrite E'. reflexivity.
  - intros a' b' c r' _ (k & x & E & k' & E'). exists (b' :: k), x. split. + rewrite E. reflexivity. + exists (b' :: k'). rewrite E'. reflexivity.
Qed.

(** Each vertex kept is one of the trajectory, or the one before it at a later time (a stand-still). *)
Definition stands (x y : tvertex) : Prop := y = at_time x (tv_time y).
Definition origin (L : list tvertex) (x : tvertex) (k : list tvertex) : Prop :=
  forall i y, nth_error k i = Some y -> In y L \/ exists w, nth_error (x :: k) i = Some w /\ stands w y.

Lemma origin_app L x st c k : (forall y, In y st -> stands x y) -> (List.length st <= 1)%nat -> In c L -> origin L c k -> origin L x (st ++ c :: k).
Proof.
  intros Hs Ls Hc Hk i y E. destruct st as [|s [|]]; [| |cbn in Ls; lia].
  - cbn [app] in E. destruct i as [|i]; cbn in E; [injection E as <-; auto|]. destruct (Hk i y E) as [H|(w & W & S)]; auto. right. exists w. split; auto.
  - cbn [app] in E. destruct i as [|[|i]]; cbn in E.
    + injection E as <-. right. exists x. split; auto. apply Hs. left. auto.
    + injection E as <-. auto.
    + destruct (Hk i y E) as [H|(w & W & S)]; auto. right. exists w. split; auto.
Qed.
Lemma origin_mono L L' x k : (forall y, In y L -> In y L') -> origin L x k -> origin L' x k.
Proof. intros H O i y E. destruct (O i y E) as [K|K]; auto. Qed.
Lemma origin_nil L x : origin L x [].
Proof. intros [|i] y; discriminate. Qed.
Lemma still_in a b c y : In y (if Qltb (tv_time c - tv_time a) (1 + SMALL) then [] else [at_time a (tv_time b)]) -> stands a y.
Proof. destruct (Qltb _ _); cbn; [tauto|]. intros [<-|[]]. reflexivity. Qed.
Lemma still_len a b c : (List.length (if Qltb (tv_time c - tv_time a) (1 + SMALL) then [] else [at_time a (tv_time b)]) <= 1)%nat.
Proof. destruct (Qltb _ _); cbn; lia. Qed.

Lemma thin_origin r a b : origin (b :: r) a (thin a b r).
Proof.
  apply (thin_ind (fun a b r k => origin (b :: r) a k)).
  - intros a' b' [|i] y E; cbn in E; [injection E as <-; left; left; auto|destruct i; discriminate].
  - intros a' b' c r' _ _ H. eapply origin_mono; [|exact H]. intros y Y. right. auto.
  - intros a' b' c st _ _ ->. apply origin_app; [apply still_in|apply still_len|right; left; auto|apply origin_nil].
  - intros a' b' c d r' st _ _ -> H. apply origin_app; [apply still_in|apply still_len|right; left; auto|]. eapply origin_mono; [|exact H]. intros y Y. right. right. auto.
  - intros a' b' c r' _ H. apply (origin_app (b' :: c :: r') a' [] b' (thin b' c r')); [intros y []|cbn; lia|left; auto|]. eapply origin_mono; [|exact H]. intros y Y. right. auto.
Qed.

(** Neighbours kept are apart, except at a stand-still and before the last vertex. *)
Definition spaced (x : tvertex) (k : list tvertex) : Prop :=
  forall i u w, nth_error (x :: k) i = Some u -> nth_error k i = Some w -> near u w = false \/ stands u w \/ S i = List.length k.

Lemma near_at a t c : near (at_time a t) c = near a c.
Proof. reflexivity. Qed.

Lemma spaced_cons x y k : near x y = false \/ stands x y \/ k = [] -> spaced y k -> spaced x (y :: k).
Proof.
  intros H S [|i] u w U W.
  - cbn in U, W. injection U as <-. injection W as <-. destruct H as [H|[H| ->]]; auto.
  - change (nth_error (y :: k) i = Some u) in U. cbn [nth_error] in W. destruct (S i u w U W) as [D|[D|D]]; auto. right. right. cbn. lia.
Qed.
Lemma spaced_nil x : spaced x [].
Proof. intros [|i] u w U W; discriminate. Qed.

Lemma spaced_still a b c k : near a c = false -> spaced c k ->
  spaced a ((if Qltb (tv_time c - tv_time a) (1 + SMALL) then [] else [at_time a (tv_time b)]) ++ c :: k).
Proof.
  intros N S. destruct (Qltb _ _); cbn [app].
  - apply spaced_cons; auto.
  - apply spaced_cons; [right; left; reflexivity|]. apply spaced_cons; auto.
Qed.

Lemma thin_spaced r a b : spaced a (thin a b r).
Proof.
  apply (thin_ind (fun a b r k => spaced a k)).
  - intros. apply spaced_cons; [auto|apply spaced_nil].
  - auto.
  - intros a' b' c st _ N ->. apply spaced_still; auto. apply spaced_nil.
  - intros a' b' c d r' st _ N -> H. apply spaced_still; auto.
  - intros a' b' c r' N H. apply spaced_cons; auto.
Qed.

(** A run of vertices near the first one. *)
Lemma thin_run a c r : forall bs b, (forall x, In x (b :: bs) -> near a x = true) -> near a c = false ->
  thin a b (bs ++ c :: r) =
    (if Qltb (tv_time c - tv_time a) (1 + SMALL) then [] else [at_time a (tv_time (last (b :: bs) b))]) ++ c :: match r with [] => [] | b' :: r' => thin c b' r' end.
Proof.
  induction bs as [|b1 bs IH]; intros b N C.
  - cbn [app thin last]. rewrite (N b) by (left; auto). rewrite C. reflexivity.
  - cbn [app thin]. rewrite (N b) by (left; auto). rewrite (N b1) by (right; left; auto). rewrite (IH b1); [|intros x X; apply N; right; auto|auto].
    assert (E: last (b :: b1 :: bs) b = last (b1 :: bs) b1).
    { assert (G: forall (l : list tvertex) x d d', last (x :: l) d = last (x :: l) d'). { induction l as [|y l IHl]; intros; auto. cbn [last] in *. apply (IHl y). }
      change (last (b :: b1 :: bs) b) with (last (b1 :: bs) b). apply G. }
    rewrite E. reflexivity.
Qed.

(** All vertices apart: nothing is dropped. *)
Lemma thin_all r : forall a b, (forall i u w, nth_error (a :: b :: r) i = Some u -> nth_error (b :: r) i = Some w -> near u w = false) -> thin a b r = b :: r.
Proof.
  induction r as [|c r IH]; intros a b H; cbn [thin]; auto. rewrite (H 0%nat a b) by reflexivity. f_equal. apply IH. intros i u w U W. apply (H (S i)); auto.
Qed.

End Filter.
