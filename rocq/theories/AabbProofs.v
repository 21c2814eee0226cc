(** * Proofs about the tree of bounding boxes *)
From Coq Require Import Permutation.
From Verif Require Import QAux AabbModel.
Local Open Scope nat_scope.
Local Open Scope Q_scope.

(** ** What is claimed *)

(** Box [m] covers box [b]. *)
Definition covers (m b : box) : Prop :=
  p_x (blhc m) <= p_x (blhc b) /\ p_y (blhc m) <= p_y (blhc b) /\ p_x (urhc b) <= p_x (urhc m) /\ p_y (urhc b) <= p_y (urhc m).

(** [m] is the smallest box that covers all of [l]. *)
Definition hull (m : box) (l : list box) : Prop := Forall (covers m) l /\ forall k, Forall (covers k) l -> covers k m.

(** Two boxes have a point in common. *)
Definition inside (x y : Q) (b : box) : Prop := p_x (blhc b) <= x <= p_x (urhc b) /\ p_y (blhc b) <= y <= p_y (urhc b).
Definition upright (b : box) : Prop := p_x (blhc b) <= p_x (urhc b) /\ p_y (blhc b) <= p_y (urhc b).

(** Trees as the heap should hold them, their leaves, and the boxes being smallest. *)
Inductive tree := Leaf (b : box) | Fork (m : box) (l r : tree).
Fixpoint leaves (t : tree) : list box := match t with Leaf b => [b] | Fork _ l r => leaves l ++ leaves r end.
Fixpoint tidy (t : tree) : Prop := match t with Leaf _ => True | Fork m l r => hull m (leaves l ++ leaves r) /\ tidy l /\ tidy r end.
Fixpoint depth (t : tree) : nat := match t with Leaf _ => 0 | Fork _ l r => S (Nat.max (depth l) (depth r)) end.

(** The heap [h] holds [t] at [i], all nodes but that from [lo] up to [hi]. *)
Fixpoint holds (h : heap) (i : nat) (t : tree) (lo hi : nat) : Prop :=
  match t with
  | Leaf b => nth_error h i = Some (Node (Some b) [])
  | Fork m l r => exists j k, nth_error h i = Some (Node (Some m) [j; k]) /\ (lo <= j < hi)%nat /\ (lo <= k < hi)%nat /\ holds h j l lo hi /\ holds h k r lo hi
  end.

(** Between [a] and [b] the elements of [v] may have changed places, elsewhere not. *)
Definition shuffled (v w : list box) (a b : nat) : Prop := firstn a w = firstn a v /\ skipn b w = skipn b v /\ Permutation v w.
Definition seg (v : list box) (a b : nat) : list box := firstn (b - a) (skipn a v).

(** The pairs of boxes that have a point in common. *)
Definition touching (l m : list box) : list (box * box) := filter (fun p => collide (fst p) (snd p)) (list_prod l m).

(** ** Boxes *)

Lemma min_le : forall a b c, c <= min a b <-> c <= a /\ c <= b.
Proof. intros a b c. unfold min. destruct (Qltb_spec b a); split; intros; try split; try lra. Qed.
Lemma max_le : forall a b c, max a b <= c <-> a <= c /\ b <= c.
Proof. intros a b c. unfold max. destruct (Qltb_spec a b); split; intros; try split; try lra. Qed.
Lemma min_is : forall a b, min a b <= a /\ min a b <= b. Proof. intros a b. apply min_le. lra. Qed.
Lemma max_is : forall a b, a <= max a b /\ b <= max a b. Proof. intros a b. apply max_le. lra. Qed.

Lemma covers_refl : forall b, covers b b. Proof. intros b. unfold covers. lra. Qed.
Lemma covers_trans : forall a b c, covers a b -> covers b c -> covers a c. Proof. unfold covers. intros. lra. Qed.

Lemma merge1_covers : forall m b k, covers k (merge1 m b) <-> covers k m /\ covers k b.
Proof. intros m b k. unfold covers, merge1. cbn [blhc urhc p_x p_y]. rewrite !min_le, !max_le. tauto. Qed.

Lemma fold_covers : forall r m k, covers k (fold_left merge1 r m) <-> covers k m /\ Forall (covers k) r.
Proof.
  induction r as [|b r IH]; intros m k; cbn [fold_left].
  - split; [intros H; split; [exact H|constructor]|tauto].
  - rewrite IH, merge1_covers. split; [intros ((A & B) & C); split; [exact A|constructor; assumption]|]. intros (A & C). inversion C; subst. tauto.
Qed.

Lemma merge_hull : forall v a b m, merge v a b = Some m -> hull m (seg v a b).
Proof.
  intros v a b m. unfold merge, seg. destruct (firstn (b - a) (skipn a v)) as [|x r]; [discriminate|]. intros E. injection E as <-.
  set (m := fold_left _ _ _). assert (G : forall k, covers k m <-> Forall (covers k) (x :: r)).
  { intros k. unfold m. rewrite fold_covers. split.
    - intros (A & B). constructor; [exact A|exact B].
    - intros H. inversion H; subst. split; assumption. }
  split; [apply G; apply covers_refl|]. intros k. apply G.
Qed.

Lemma merge_none : forall v a b m, merge v a b = Some m -> b_triangle m = None.
Proof.
  intros v a b m. unfold merge. destruct (firstn (b - a) (skipn a v)) as [|x r]; [discriminate|]. intros E. injection E as <-.
  assert (G : forall r m, b_triangle m = None -> b_triangle (fold_left merge1 r m) = None) by (clear; induction r; intros m H; cbn [fold_left]; auto). apply G. reflexivity.
Qed.

Lemma collide_sym : forall a b, collide a b = collide b a.
Proof.
  intros a b. unfold collide. f_equal. destruct (Qltb (p_x (urhc a)) _), (Qltb (p_x (urhc b)) _), (Qltb (p_y (urhc a)) _), (Qltb (p_y (urhc b)) _); reflexivity.
Qed.

Lemma collide_iff : forall a b, collide a b = true <-> p_x (blhc b) <= p_x (urhc a) /\ p_x (blhc a) <= p_x (urhc b) /\ p_y (blhc b) <= p_y (urhc a) /\ p_y (blhc a) <= p_y (urhc b).
Proof. intros a b. unfold collide. rewrite negb_true_iff, !orb_false_iff, !Qltb_ge. tauto. Qed.

Lemma collide_common : forall a b, upright a -> upright b -> (collide a b = true <-> exists x y, inside x y a /\ inside x y b).
Proof.
  intros a b (UA1 & UA2) (UB1 & UB2). rewrite collide_iff. split.
  - intros (H1 & H2 & H3 & H4). exists (max (p_x (blhc a)) (p_x (blhc b))), (max (p_y (blhc a)) (p_y (blhc b))).
    pose proof (max_is (p_x (blhc a)) (p_x (blhc b))). pose proof (max_is (p_y (blhc a)) (p_y (blhc b))).
    unfold inside. repeat split; try lra; apply max_le; lra.
  - intros (x & y & (A1 & A2) & (B1 & B2)). lra.
Qed.

Lemma collide_covers : forall a b m n, covers m a -> covers n b -> collide a b = true -> collide m n = true.
Proof. intros a b m n MA NB. rewrite !collide_iff. unfold covers in *. intros. lra. Qed.

(** A point of a triangle is in its box. *)
Definition within (x y : Q) (t : triangle) : Prop := exists u v w, 0 <= u /\ 0 <= v /\ 0 <= w /\ u + v + w == 1 /\
  x == u * p_x (t_a t) + v * p_x (t_b t) + w * p_x (t_c t) /\ y == u * p_y (t_a t) + v * p_y (t_b t) + w * p_y (t_c t).

Lemma mean_between : forall u v w a b c, 0 <= u -> 0 <= v -> 0 <= w -> u + v + w == 1 -> min a (min b c) <= u * a + v * b + w * c <= max a (max b c).
Proof.
  intros u v w a b c U V W E. set (lo := min a (min b c)). set (hi := max a (max b c)).
  assert (A : lo <= a /\ lo <= b /\ lo <= c) by (unfold lo; destruct (min_is a (min b c)); destruct (min_is b c); lra).
  assert (B : a <= hi /\ b <= hi /\ c <= hi) by (unfold hi; destruct (max_is a (max b c)); destruct (max_is b c); lra).
  assert (F : forall u x y, 0 <= u -> x <= y -> u * x <= u * y) by (clear; intros u x y U H; rewrite !(Qmult_comm u); apply Qmult_le_compat_r; assumption).
  clearbody lo hi. destruct A as (A1 & A2 & A3). destruct B as (B1 & B2 & B3).
  pose proof (F u lo a U A1). pose proof (F v lo b V A2). pose proof (F w lo c W A3). pose proof (F u a hi U B1). pose proof (F v b hi V B2). pose proof (F w c hi W B3).
  assert (EL : u * lo + v * lo + w * lo == lo) by (setoid_replace (u * lo + v * lo + w * lo) with ((u + v + w) * lo) by ring; rewrite E; ring).
  assert (EH : u * hi + v * hi + w * hi == hi) by (setoid_replace (u * hi + v * hi + w * hi) with ((u + v + w) * hi) by ring; rewrite E; ring).
  lra.
Qed.

Lemma triangle_box : forall t x y, within x y t -> inside x y (BBox t).
Proof.
  intros t x y (u & v & w & U & V & W & E & X & Y). unfold inside, BBox. cbn [blhc urhc p_x p_y]. rewrite X, Y. split; apply mean_between; assumption.
Qed.

Lemma inside_collide : forall a b x y, inside x y a -> inside x y b -> collide a b = true.
Proof. intros a b x y (A1 & A2) (B1 & B2). rewrite collide_iff. lra. Qed.

(** ** Parts of vectors *)
Local Open Scope nat_scope.

Lemma skip_skip : forall (l : list box) x y, skipn x (skipn y l) = skipn (x + y) l.
Proof.
  intros l x y. revert l. induction y as [|y IH]; intros l; [now rewrite Nat.add_0_r|]. destruct l as [|a l]; [now rewrite !skipn_nil|].
  rewrite Nat.add_succ_r. cbn [skipn]. apply IH.
Qed.

Lemma shuffled_refl : forall v a b, shuffled v v a b. Proof. intros. repeat split. reflexivity. Qed.
Lemma shuffled_trans : forall u v w a b, shuffled u v a b -> shuffled v w a b -> shuffled u w a b.
Proof. intros u v w a b (A & B & C) (D & E & F). split; [congruence|]. split; [congruence|]. eapply Permutation_trans; eassumption. Qed.
Lemma shuffled_wider : forall v w a b c d, shuffled v w a b -> c <= a -> b <= d -> shuffled v w c d.
Proof.
  intros v w a b c d (A & B & C) CA BD. split; [|split; [|exact C]].
  - replace c with (Nat.min c a) by lia. rewrite <- !firstn_firstn. congruence.
  - replace d with ((d - b) + b) by lia. rewrite <- !skip_skip. congruence.
Qed.
Lemma shuffled_length : forall v w a b, shuffled v w a b -> List.length w = List.length v.
Proof. intros v w a b (_ & _ & C). symmetry. now apply Permutation_length. Qed.

Lemma three : forall (v : list box) a b, a <= b -> v = firstn a v ++ seg v a b ++ skipn b v.
Proof.
  intros v a b AB. unfold seg. rewrite <- (firstn_skipn a v) at 1. f_equal. rewrite <- (firstn_skipn (b - a) (skipn a v)) at 1. f_equal. rewrite skip_skip. f_equal. lia.
Qed.

Lemma shuffled_seg : forall v w a b, a <= b -> shuffled v w a b -> Permutation (seg v a b) (seg w a b).
Proof.
  intros v w a b AB (A & B & C). rewrite (three v a b AB), (three w a b AB), A, B in C. apply Permutation_app_inv_l in C. now apply Permutation_app_inv_r in C.
Qed.

Lemma seg_before : forall v w a b c, shuffled v w b c -> seg w a b = seg v a b.
Proof.
  intros v w a b c (A & _). unfold seg. rewrite !firstn_skipn_comm. destruct (Nat.le_gt_cases a b) as [L|L].
  - replace (a + (b - a)) with b by lia. now rewrite A.
  - replace (b - a) with 0 by lia. rewrite Nat.add_0_r. assert (G : forall l : list box, skipn a (firstn a l) = []) by (intros l; apply skipn_all2; rewrite firstn_length; lia). now rewrite !G.
Qed.

Lemma seg_split : forall v a b c, a <= b <= c -> seg v a c = seg v a b ++ seg v b c.
Proof.
  intros v a b c (AB & BC). unfold seg. replace (skipn b v) with (skipn (b - a) (skipn a v)) by (rewrite skip_skip; f_equal; lia).
  replace (c - b) with ((c - a) - (b - a)) by lia. set (u := skipn a v). set (n := c - a). set (k := b - a). assert (K : k <= n) by (unfold k, n; lia). clearbody u n k.
  rewrite <- (firstn_skipn k (firstn n u)). rewrite firstn_firstn, skipn_firstn_comm. replace (Nat.min k n) with k by lia. reflexivity.
Qed.

Lemma seg_one : forall v a b, b - a = 1 -> forall x, nth_error v a = Some x -> seg v a b = [x].
Proof.
  intros v a b AB x H. unfold seg. rewrite AB. apply nth_error_split in H. destruct H as (l1 & l2 & -> & L). rewrite skipn_app, (skipn_all2 l1) by lia. rewrite L, Nat.sub_diag. reflexivity.
Qed.

Lemma put_at : forall l1 x l2 b, put (l1 ++ x :: l2) (List.length l1) b = l1 ++ b :: l2.
Proof. induction l1 as [|y l1 IH]; intros; cbn; [reflexivity|]. now rewrite IH. Qed.

Lemma swap_is : forall v i j, i < j -> j < List.length v -> exists w x y, iter_swap v i j = Some w /\ nth_error v i = Some x /\ nth_error v j = Some y /\
  nth_error w i = Some y /\ nth_error w j = Some x /\ (forall k, k <> i -> k <> j -> nth_error w k = nth_error v k) /\ shuffled v w i (S j).
Proof.
  intros v i j IJ JL. destruct (nth_error v i) as [x|] eqn:X; [|apply nth_error_None in X; lia].
  apply nth_error_split in X. destruct X as (l1 & r & -> & L1). destruct (nth_error (l1 ++ x :: r) j) as [y|] eqn:Y; [|apply nth_error_None in Y; lia].
  rewrite nth_error_app2 in Y by lia. replace (j - List.length l1) with (S (j - i - 1)) in Y by lia. cbn [nth_error] in Y. apply nth_error_split in Y. destruct Y as (l2 & l3 & -> & L2).
  assert (E1 : nth_error (l1 ++ x :: l2 ++ y :: l3) i = Some x) by (rewrite nth_error_app2, <- L1, Nat.sub_diag by lia; reflexivity).
  assert (E2 : nth_error (l1 ++ x :: l2 ++ y :: l3) j = Some y).
  { rewrite nth_error_app2 by lia. replace (j - List.length l1) with (S (j - i - 1)) by lia. cbn [nth_error]. rewrite nth_error_app2, <- L2, Nat.sub_diag by lia. reflexivity. }
  exists (l1 ++ y :: l2 ++ x :: l3), x, y. split.
  - unfold iter_swap. rewrite E1, E2. f_equal. replace i with (List.length l1) by exact L1. rewrite put_at. replace j with (List.length (l1 ++ y :: l2)) by (rewrite app_length; cbn; lia).
    change (l1 ++ y :: l2 ++ y :: l3) with (l1 ++ (y :: l2) ++ y :: l3). rewrite app_assoc, put_at, <- app_assoc. reflexivity.
  - split; [reflexivity|]. split; [reflexivity|]. split; [rewrite nth_error_app2, <- L1, Nat.sub_diag by lia; reflexivity|]. split.
    + rewrite nth_error_app2 by lia. replace (j - List.length l1) with (S (j - i - 1)) by lia. cbn [nth_error]. rewrite nth_error_app2, <- L2, Nat.sub_diag by lia. reflexivity.
    + split.
      * intros k KI KJ. destruct (Nat.lt_ge_cases k i) as [K|K]; [rewrite !nth_error_app1 by lia; reflexivity|]. rewrite !(nth_error_app2 l1) by lia.
        destruct (k - List.length l1) as [|m] eqn:M; [lia|]. cbn [nth_error]. destruct (Nat.lt_ge_cases m (List.length l2)) as [Q1|Q1]; [rewrite !nth_error_app1 by lia; reflexivity|].
        rewrite !(nth_error_app2 l2) by lia. destruct (m - List.length l2) as [|q] eqn:MQ; [lia|]. reflexivity.
      * split; [rewrite !firstn_app, <- L1, Nat.sub_diag; reflexivity|]. split.
        -- change (l1 ++ y :: l2 ++ x :: l3) with (l1 ++ (y :: l2) ++ [x] ++ l3). change (l1 ++ x :: l2 ++ y :: l3) with (l1 ++ (x :: l2) ++ [y] ++ l3).
           assert (G : forall (p q s l : list box), List.length p + List.length q + List.length s = S j -> skipn (S j) (p ++ q ++ s ++ l) = l).
           { intros p q s l LL. rewrite (app_assoc q), (app_assoc p). rewrite skipn_app, skipn_all2 by (rewrite !app_length; lia). rewrite !app_length.
             replace (S j - (List.length p + (List.length q + List.length s))) with 0 by lia. reflexivity. }
           rewrite !G; [reflexivity|cbn; lia|cbn; lia].
        -- apply Permutation_app_head. change (x :: l2 ++ y :: l3) with ((x :: l2) ++ y :: l3). etransitivity; [symmetry; apply Permutation_middle|]. cbn. apply perm_skip.
           apply Permutation_middle.
Qed.

(** ** Dividing *)

Definition all_at (v : list box) (a b : nat) (P : box -> Prop) : Prop := forall k, a <= k < b -> exists x, nth_error v k = Some x /\ P x.

Lemma scan_up_is : forall n c v f, f + n <= List.length v -> exists g, scan_up n c v f = Some g /\ f <= g <= f + n /\ all_at v f g (fun x => c x = true) /\
  (g < f + n -> exists x, nth_error v g = Some x /\ c x = false).
Proof.
  induction n as [|n IH]; intros c v f L; cbn [scan_up].
  - exists f. split; [reflexivity|]. split; [lia|]. split; [intros k K; lia|lia].
  - destruct (nth_error v f) as [x|] eqn:X; [|apply nth_error_None in X; lia]. destruct (c x) eqn:C.
    + destruct (IH c v (S f)) as (g & G & B & A & N); [lia|]. exists g. split; [exact G|]. split; [lia|]. split.
      * intros k K. destruct (Nat.eq_dec k f) as [->|NE]; [exists x; auto|]. apply A. lia.
      * intros K. apply N. lia.
    + exists f. split; [reflexivity|]. split; [lia|]. split; [intros k K; lia|]. intros _. exists x. auto.
Qed.

Lemma scan_down_is : forall n c v l, l < List.length v -> n <= l -> exists g, scan_down n c v l = Some g /\ l - n <= g <= l /\ all_at v (S g) (S l) (fun x => c x = false) /\
  (l - n < g -> exists x, nth_error v g = Some x /\ c x = true).
Proof.
  induction n as [|n IH]; intros c v l L N; cbn [scan_down].
  - exists l. split; [reflexivity|]. split; [lia|]. split; [intros k K; lia|lia].
  - destruct (nth_error v l) as [x|] eqn:X; [|apply nth_error_None in X; lia]. destruct (c x) eqn:C.
    + exists l. split; [reflexivity|]. split; [lia|]. split; [intros k K; lia|]. intros _. exists x. auto.
    + destruct (IH c v (l - 1)) as (g & G & B & A & M); [lia|lia|]. exists g. split; [exact G|]. split; [lia|]. split.
      * intros k K. destruct (Nat.eq_dec k l) as [->|NE]; [exists x; auto|]. apply A. lia.
      * intros K. apply M. lia.
Qed.

Lemma divide_loop_is : forall fuel c v a f l b, l - f < fuel -> a <= f <= l -> l <= b -> b <= List.length v -> f < b ->
  all_at v a f (fun x => c x = true) -> all_at v l b (fun x => c x = false) ->
  exists w cut, divide_loop fuel c v f l = Some (w, cut) /\ shuffled v w a b /\ a <= cut <= b /\ all_at w a cut (fun x => c x = true) /\ all_at w cut b (fun x => c x = false).
Proof.
  induction fuel as [|fuel IH]; intros c v a f l b FU AF LB BL FB HA HB; [lia|]. cbn [divide_loop].
  destruct (scan_up_is (l - f) c v f) as (g & -> & G & A1 & N1); [lia|].
  assert (HA1 : all_at v a g (fun x => c x = true)) by (intros k K; destruct (Nat.lt_ge_cases k f); [apply HA; lia|apply A1; lia]).
  destruct (Nat.eq_dec g l) as [->|GL].
  - replace (l - 1 - l) with 0 by lia. cbn [scan_down]. replace (l <? l - 1) with false by (symmetry; apply Nat.ltb_ge; lia).
    exists v, l. split; [reflexivity|]. split; [apply shuffled_refl|]. split; [lia|]. auto.
  - destruct N1 as (x & NX & CX); [lia|]. destruct (scan_down_is (l - 1 - g) c v (l - 1)) as (e & -> & E & A2 & N2); [lia|lia|].
    assert (HB1 : all_at v (S e) b (fun x => c x = false)) by (intros k K; destruct (Nat.lt_ge_cases k l); [apply A2; lia|apply HB; lia]).
    destruct (g <? e) eqn:GE; [apply Nat.ltb_lt in GE|apply Nat.ltb_ge in GE].
    + destruct N2 as (y & NY & CY); [lia|]. destruct (swap_is v g e) as (w & x' & y' & -> & X' & Y' & WX & WY & WO & SH); [lia|lia|].
      rewrite NX in X'. injection X' as <-. rewrite NY in Y'. injection Y' as <-.
      destruct (IH c w a (S g) e b) as (u & cut & D & SU & CB & UA & UB); try lia.
      * rewrite (shuffled_length _ _ _ _ SH). lia.
      * intros k K. destruct (Nat.eq_dec k g) as [->|NE]; [exists y; auto|]. rewrite WO by lia. apply HA1. lia.
      * intros k K. destruct (Nat.eq_dec k e) as [->|NE]; [exists x; auto|]. rewrite WO by lia. apply HB1. lia.
      * exists u, cut. split; [exact D|]. split; [eapply shuffled_trans; [|exact SU]; eapply shuffled_wider; [exact SH|lia|lia]|]. auto.
    + exists v, g. split; [reflexivity|]. split; [apply shuffled_refl|]. split; [lia|]. split; [exact HA1|].
      intros k K. destruct (Nat.eq_dec k g) as [->|NE]; [exists x; auto|]. apply HB1. lia.
Qed.

Lemma divide_is : forall v a b m, a < b -> b <= List.length v -> exists w cut, divide v a b m = Some (w, cut) /\ shuffled v w a b /\ a <= cut <= b /\
  (1 < b - a -> all_at w a cut (fun x => compare_by m x = true) /\ all_at w cut b (fun x => compare_by m x = false)).
Proof.
  intros v a b m AB BL. unfold divide. replace (b - a =? 0) with false by (symmetry; apply Nat.eqb_neq; lia).
  destruct (b - a =? 1) eqn:E; [apply Nat.eqb_eq in E|apply Nat.eqb_neq in E].
  - exists v, b. split; [reflexivity|]. split; [apply shuffled_refl|]. split; [lia|lia].
  - destruct (divide_loop_is (S (b - a)) (compare_by m) v a a b b) as (w & cut & D & SH & C & A1 & A2); try lia; try (intros k K; lia).
    exists w, cut. split; [exact D|]. split; [exact SH|]. split; [lia|]. intros _. auto.
Qed.

(** ** Building *)

Lemma set_length : forall h i x, List.length (set_node h i x) = List.length h.
Proof. induction h as [|y h IH]; intros [|i] x; cbn; auto. Qed.
Lemma set_same : forall h i x, i < List.length h -> nth_error (set_node h i x) i = Some x.
Proof. induction h as [|y h IH]; intros [|i] x L; cbn in *; try lia; auto. apply IH. lia. Qed.
Lemma set_other : forall h i x k, k <> i -> nth_error (set_node h i x) k = nth_error h k.
Proof. induction h as [|y h IH]; intros [|i] x [|k] N; cbn; auto; try lia. Qed.

Lemma holds_ext : forall t h g i lo hi, (forall k, k = i \/ lo <= k < hi -> nth_error g k = nth_error h k) -> holds h i t lo hi -> holds g i t lo hi.
Proof.
  induction t as [b|m l IHl r IHr]; intros h g i lo hi E H; cbn [holds] in *.
  - rewrite E by auto. exact H.
  - destruct H as (j & k & N & J & K & HL & HR). exists j, k. rewrite E by auto. split; [exact N|]. split; [exact J|]. split; [exact K|]. split.
    + apply (IHl h); [|exact HL]. intros q [->|Q1]; apply E; auto.
    + apply (IHr h); [|exact HR]. intros q [->|Q1]; apply E; auto.
Qed.

Lemma holds_wider : forall t h i lo hi lo' hi', lo' <= lo -> hi <= hi' -> holds h i t lo hi -> holds h i t lo' hi'.
Proof.
  induction t as [b|m l IHl r IHr]; intros h i lo hi lo' hi' A B H; cbn [holds] in *; [exact H|].
  destruct H as (j & k & N & J & K & HL & HR). exists j, k. split; [exact N|]. split; [lia|]. split; [lia|]. split; [eapply IHl|eapply IHr]; eauto.
Qed.

(** What happens once the part of the vector that the loop works on is done. *)
Definition go_on (fuel : nat) (v : list box) (stack : list record) (h : heap) (leafs nodes : nat) : option built :=
  match stack with [] => Some (v, h, leafs, nodes) | (f, l, t) :: stack => build_loop fuel v f l t stack h leafs nodes end.

Lemma hull_perm : forall m l k, Permutation l k -> hull m l -> hull m k.
Proof.
  intros m l k P (A & B). split; [eapply Permutation_Forall; eassumption|]. intros q F. apply B. eapply Permutation_Forall; [symmetry; exact P|exact F].
Qed.

Lemma seg_length : forall v a b, b <= List.length v -> List.length (seg v a b) = b - a.
Proof. intros v a b L. unfold seg. rewrite firstn_length, skipn_length. lia. Qed.

Lemma build_part : forall n v a b cur stack h leafs nodes fuel old, b - a = n -> 1 <= n -> b <= List.length v -> nth_error h cur = Some (Node old []) ->
  exists w g t, build_loop (2 * n - 1 + fuel) v a b cur stack h leafs nodes = go_on fuel w stack g (leafs + n) (nodes + 2 * (n - 1)) /\
    shuffled v w a b /\ List.length g = List.length h + 2 * (n - 1) /\ (forall k, k < List.length h -> k <> cur -> nth_error g k = nth_error h k) /\
    holds g cur t (List.length h) (List.length g) /\ leaves t = seg w a b /\ tidy t.
Proof.
  induction n as [n IH] using lt_wf_ind. intros v a b cur stack h leafs nodes fuel old BA N1 BL NC.
  assert (CL : cur < List.length h) by (apply nth_error_Some; congruence).
  replace (2 * n - 1 + fuel) with (S (2 * n - 2 + fuel)) by lia. cbn [build_loop]. replace (a <? b) with true by (symmetry; apply Nat.ltb_lt; lia). rewrite NC, BA. cbn [n_kids].
  destruct (n =? 1) eqn:E; [apply Nat.eqb_eq in E|apply Nat.eqb_neq in E].
  - destruct (nth_error v a) as [x|] eqn:X; [|apply nth_error_None in X; lia]. exists v, (set_node h cur (Node (Some x) [])), (Leaf x). rewrite E. change (2 * (1 - 1)) with 0. replace (2 * 1 - 2 + fuel) with fuel by lia. rewrite !Nat.add_0_r, Nat.add_1_r.
    split; [destruct stack as [|((f, l), t) stack]; reflexivity|]. split; [apply shuffled_refl|]. split; [apply set_length|]. split; [intros k K KC; now apply set_other|].
    split; [cbn; now apply set_same|]. split; [cbn; symmetry; apply seg_one; [lia|exact X]|exact I].
  - destruct (merge v a b) as [m|] eqn:M.
    2: { exfalso. unfold merge in M. fold (seg v a b) in M. destruct (seg v a b) eqn:S1; [|discriminate]. pose proof (seg_length v a b BL) as SL. rewrite S1 in SL. cbn in SL. lia. }
    destruct (divide_is v a b m) as (w & cut0 & -> & SH & CB & _); [lia|lia|].
    set (cut := if (0 <? cut0 - a) && (0 <? b - cut0) then cut0 else a + n / 2).
    assert (CC : a < cut < b).
    { unfold cut. destruct (0 <? cut0 - a) eqn:C1; destruct (0 <? b - cut0) eqn:C2; cbn [andb];
        try (apply Nat.ltb_lt in C1; apply Nat.ltb_lt in C2; lia);
        (pose proof (Nat.div_lt n 2); pose proof (Nat.div_le_lower_bound n 2 1); lia). }
    clearbody cut. set (L := List.length h). set (h1 := set_node _ _ _).
    assert (H1L : List.length h1 = L + 2) by (unfold h1; rewrite set_length, app_length; reflexivity).
    assert (H1O : forall k, k < L -> k <> cur -> nth_error h1 k = nth_error h k) by (intros k K KC; unfold h1; rewrite set_other by exact KC; now apply nth_error_app1).
    assert (H1C : nth_error h1 cur = Some (Node (Some m) [L; S L])) by (unfold h1; apply set_same; rewrite app_length; cbn; lia).
    assert (H1P : nth_error h1 L = Some (Node None [])).
    { unfold h1. rewrite set_other by (unfold L; lia). rewrite nth_error_app2 by (unfold L; lia). unfold L. now rewrite Nat.sub_diag. }
    assert (H1N : nth_error h1 (S L) = Some (Node None [])).
    { unfold h1. rewrite set_other by (unfold L; lia). rewrite nth_error_app2 by (unfold L; lia). unfold L. replace (S (List.length h) - List.length h) with 1 by lia. reflexivity. }
    pose proof (shuffled_length _ _ _ _ SH) as WL.
    replace (2 * n - 2 + fuel) with (2 * (cut - a) - 1 + (2 * (b - cut) - 1 + fuel)) by lia.
    destruct (IH (cut - a) ltac:(lia) w a cut L ((cut, b, S L) :: stack) h1 leafs (nodes + 2) (2 * (b - cut) - 1 + fuel) None) as (w2 & h2 & t1 & B1 & SH1 & L2 & O2 & R1 & LV1 & T1); try lia; auto.
    rewrite B1. cbn [go_on].
    pose proof (shuffled_length _ _ _ _ SH1) as WL2.
    destruct (IH (b - cut) ltac:(lia) w2 cut b (S L) stack h2 (leafs + (cut - a)) (nodes + 2 + 2 * (cut - a - 1)) fuel None) as (w3 & h3 & t2 & B2 & SH2 & L3 & O3 & R2 & LV2 & T2); try lia.
    { rewrite O2 by lia. exact H1N. }
    exists w3, h3, (Fork m t1 t2). rewrite B2. replace (leafs + (cut - a) + (b - cut)) with (leafs + n) by lia.
    replace (nodes + 2 + 2 * (cut - a - 1) + 2 * (b - cut - 1)) with (nodes + 2 * (n - 1)) by lia. split; [reflexivity|].
    assert (SHA : shuffled v w3 a b).
    { eapply shuffled_trans; [exact SH|]. eapply shuffled_trans; [eapply shuffled_wider; [exact SH1|lia|lia]|]. eapply shuffled_wider; [exact SH2|lia|lia]. }
    split; [exact SHA|]. split; [rewrite L3, L2, H1L; unfold L; lia|]. split.
    { intros k K KC. rewrite O3, O2, H1O by (unfold L in *; lia). reflexivity. }
    assert (LV : leaves t1 ++ leaves t2 = seg w3 a b) by (rewrite LV1, LV2, <- (seg_before w2 w3 a cut b SH2); symmetry; apply seg_split; lia).
    split; [|split; [exact LV|]].
    + cbn [holds]. exists L, (S L). rewrite O3, O2 by (unfold L in *; lia). split; [exact H1C|]. split; [unfold L; lia|]. split; [unfold L; lia|]. split.
      * apply (holds_wider t1 h3 L (List.length h1) (List.length h2)); [unfold L in *; lia|lia|]. apply (holds_ext t1 h2); [|exact R1]. intros k K. apply O3; lia.
      * apply (holds_wider t2 h3 (S L) (List.length h2) (List.length h3)); [unfold L in *; lia|lia|exact R2].
    + cbn [tidy]. rewrite LV. split; [|split; assumption]. apply (hull_perm m (seg v a b)); [apply shuffled_seg; [lia|exact SHA]|now apply merge_hull].
Qed.

Lemma build_is : forall old counts v, v <> [] -> exists w g t, build old counts v = Some (w, g, List.length v, 2 * List.length v - 1) /\
  Permutation v w /\ holds g 0 t 1 (List.length g) /\ leaves t = w /\ tidy t.
Proof.
  intros old counts v NE. unfold build. assert (L : 1 <= List.length v) by (destruct v; [congruence|cbn; lia]).
  destruct (build_part (List.length v) v 0 (List.length v) 0 [] [Node old []] 0 1 1 old) as (w & g & t & B & SH & _ & _ & H & LV & T); try lia; [reflexivity|].
  exists w, g, t. replace (2 * List.length v - 1 + 1) with (2 * List.length v) in B by lia. cbn [go_on] in B.
  replace (1 + 2 * (List.length v - 1)) with (2 * List.length v - 1) in B by lia. destruct v as [|x v]; [congruence|]. split; [exact B|].
  split; [apply SH|]. split; [exact H|]. split; [|exact T]. rewrite LV. unfold seg. rewrite Nat.sub_0_r. cbn [skipn]. apply firstn_all2. rewrite (shuffled_length _ _ _ _ SH). lia.
Qed.

(** ** Intersecting *)

Definition box_of (t : tree) : box := match t with Leaf b => b | Fork m _ _ => m end.

Lemma box_covers : forall t b, tidy t -> In b (leaves t) -> covers (box_of t) b.
Proof.
  intros [c|m l r] b T I; cbn in *.
  - destruct I as [->|[]]. apply covers_refl.
  - destruct T as ((F & _) & _). rewrite Forall_forall in F. now apply F.
Qed.

Lemma prod_app_l : forall (l k m : list box), list_prod (l ++ k) m = list_prod l m ++ list_prod k m.
Proof. induction l as [|x l IH]; intros k m; cbn [list_prod app]; [reflexivity|]. now rewrite IH, app_assoc. Qed.

Lemma prod_app_r : forall (l m k : list box), Permutation (list_prod l (m ++ k)) (list_prod l m ++ list_prod l k).
Proof.
  induction l as [|x l IH]; intros m k; cbn [list_prod]; [constructor|]. rewrite map_app, IH, <- !app_assoc. apply Permutation_app_head. rewrite !app_assoc.
  apply Permutation_app_tail. apply Permutation_app_comm.
Qed.

Lemma filter_perm : forall (f : box * box -> bool) l k, Permutation l k -> Permutation (filter f l) (filter f k).
Proof.
  intros f l k P. induction P; cbn [filter].
  - constructor.
  - destruct (f x); [now constructor|assumption].
  - destruct (f x), (f y); try reflexivity. constructor.
  - eapply Permutation_trans; eassumption.
Qed.

Lemma touching_app_l : forall l k m, touching (l ++ k) m = touching l m ++ touching k m.
Proof. intros l k m. unfold touching. now rewrite prod_app_l, filter_app. Qed.
Lemma touching_app_r : forall l m k, Permutation (touching l (m ++ k)) (touching l m ++ touching l k).
Proof. intros l m k. unfold touching. rewrite <- filter_app. apply filter_perm, prod_app_r. Qed.

Lemma touching_none : forall s t, tidy s -> tidy t -> collide (box_of t) (box_of s) = false -> touching (leaves s) (leaves t) = [].
Proof.
  intros s t TS TT C. unfold touching. destruct (filter _ _) as [|(a, b) l] eqn:F; [reflexivity|]. exfalso.
  assert (I : In (a, b) (filter (fun p => collide (fst p) (snd p)) (list_prod (leaves s) (leaves t)))) by (rewrite F; now left).
  apply filter_In in I. destruct I as (I & K). apply in_prod_iff in I. destruct I as (IA & IB). cbn in K.
  rewrite collide_sym in C. rewrite (collide_covers a b (box_of s) (box_of t)) in C; [discriminate| | |exact K]; now apply box_covers.
Qed.

Lemma intersect_is : forall fuel s t h i lo hi g j lo' hi', holds h i s lo hi -> holds g j t lo' hi' -> tidy s -> tidy t -> depth s + depth t < fuel ->
  exists l, intersect fuel h i g j = Some l /\ Permutation l (touching (leaves s) (leaves t)).
Proof.
  induction fuel as [|fuel IH]; intros s t h i lo hi g j lo' hi' HS HT TS TT FU; [lia|]. cbn [intersect].
  destruct (collide (box_of t) (box_of s)) eqn:C.
  2: { exists []. rewrite (touching_none s t TS TT C). split; [|constructor].
       destruct s as [a|a s1 s2]; destruct t as [b|b t1 t2]; cbn [holds box_of] in *.
       - rewrite HS, HT. cbn [n_box n_kids]. now rewrite C.
       - destruct HT as (j1 & j2 & -> & _). rewrite HS. cbn [n_box n_kids]. now rewrite C.
       - destruct HS as (i1 & i2 & -> & _). rewrite HT. cbn [n_box n_kids]. now rewrite C.
       - destruct HS as (i1 & i2 & -> & _). destruct HT as (j1 & j2 & -> & _). cbn [n_box n_kids]. now rewrite C. }
  destruct s as [a|a s1 s2]; destruct t as [b|b t1 t2]; cbn [box_of depth tidy leaves] in *.
  - cbn [holds] in *. rewrite HS, HT. cbn [n_box n_kids]. rewrite C. exists [(a, b)]. split; [reflexivity|]. unfold touching. cbn. rewrite collide_sym, C. reflexivity.
  - destruct HT as (j1 & j2 & NJ & _ & _ & T1 & T2). pose proof HS as HS'. cbn [holds] in HS'. rewrite HS', NJ. cbn [n_box n_kids]. rewrite C. destruct TT as (_ & TT1 & TT2).
    destruct (IH (Leaf a) t1 h i lo hi g j1 lo' hi' HS T1 I TT1) as (l1 & E1 & P1); [cbn; lia|]. destruct (IH (Leaf a) t2 h i lo hi g j2 lo' hi' HS T2 I TT2) as (l2 & E2 & P2); [cbn; lia|].
    cbn [each]. rewrite E1, E2. exists (l1 ++ l2 ++ []). split; [reflexivity|]. rewrite app_nil_r. cbn [leaves] in *. rewrite touching_app_r. now apply Permutation_app.
  - destruct HS as (i1 & i2 & NI & _ & _ & S1 & S2). pose proof HT as HT'. cbn [holds] in HT'. rewrite NI, HT'. cbn [n_box n_kids]. rewrite C. destruct TS as (_ & TS1 & TS2).
    destruct (IH s1 (Leaf b) h i1 lo hi g j lo' hi' S1 HT TS1 I) as (l1 & E1 & P1); [cbn; lia|]. destruct (IH s2 (Leaf b) h i2 lo hi g j lo' hi' S2 HT TS2 I) as (l2 & E2 & P2); [cbn; lia|].
    cbn [each]. rewrite E1, E2. exists (l1 ++ l2 ++ []). split; [reflexivity|]. rewrite app_nil_r. cbn [leaves] in *. rewrite touching_app_l. now apply Permutation_app.
  - destruct HS as (i1 & i2 & NI & _ & _ & S1 & S2). destruct HT as (j1 & j2 & NJ & _ & _ & T1 & T2). rewrite NI, NJ. cbn [n_box n_kids]. rewrite C.
    destruct TS as (_ & TS1 & TS2). destruct TT as (_ & TT1 & TT2).
    destruct (IH s1 t1 h i1 lo hi g j1 lo' hi' S1 T1 TS1 TT1) as (l11 & E11 & P11); [lia|]. destruct (IH s1 t2 h i1 lo hi g j2 lo' hi' S1 T2 TS1 TT2) as (l12 & E12 & P12); [lia|].
    destruct (IH s2 t1 h i2 lo hi g j1 lo' hi' S2 T1 TS2 TT1) as (l21 & E21 & P21); [lia|]. destruct (IH s2 t2 h i2 lo hi g j2 lo' hi' S2 T2 TS2 TT2) as (l22 & E22 & P22); [lia|].
    cbn [each]. rewrite E11, E12, E21, E22. exists ((l11 ++ l12 ++ []) ++ (l21 ++ l22 ++ []) ++ []). split; [reflexivity|]. rewrite !app_nil_r, touching_app_l.
    apply Permutation_app; (etransitivity; [|symmetry; apply touching_app_r]); now apply Permutation_app.
Qed.

Lemma depth_leaves : forall t, depth t < List.length (leaves t).
Proof.
  induction t as [b|m l IHl r IHr]; cbn [depth leaves List.length]; [lia|]. rewrite app_length. lia.
Qed.
