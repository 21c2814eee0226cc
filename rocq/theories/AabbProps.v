(** * C64: the tree of bounding boxes finds every pair of boxes that meet *)
From Coq Require Import Permutation.
From Verif Require Import QAux AabbModel AabbProofs.
Local Open Scope nat_scope.
Local Open Scope Q_scope.

(** The box of a triangle is the smallest that contains its corners, and contains all its points. *)
Theorem C64_box : forall t, b_triangle (BBox t) = Some t /\ (forall x y, within x y t -> inside x y (BBox t)) /\
  (forall k, inside (p_x (t_a t)) (p_y (t_a t)) k -> inside (p_x (t_b t)) (p_y (t_b t)) k -> inside (p_x (t_c t)) (p_y (t_c t)) k -> covers k (BBox t)).
Proof.
  intros t. split; [reflexivity|]. split; [apply triangle_box|]. intros k (A1 & A2) (B1 & B2) (C1 & C2). unfold covers, BBox. cbn [blhc urhc p_x p_y]. rewrite !min_le, !max_le. lra.
Qed.

Example C64_box_ex : exists x y, within x y (Triangle 0 1 (Point 0 0) (Point 4 0) (Point 0 4) None) /\ x == 1 /\ y == 1.
Proof. exists 1, 1. split; [|split; reflexivity]. exists (1 # 2), (1 # 4), (1 # 4). cbn. repeat split; lra. Qed.

(** Two boxes collide just when they have a point in common. *)
Theorem C64_collide : forall a b, collide a b = collide b a /\ (upright a -> upright b -> (collide a b = true <-> exists x y, inside x y a /\ inside x y b)).
Proof. intros a b. split; [apply collide_sym|]. intros A B. now apply collide_common. Qed.

Example C64_collide_ex : collide (Box (Point 0 0) (Point 1 1) None) (Box (Point 1 1) (Point 2 2) None) = true /\ collide (Box (Point 0 0) (Point 1 1) None) (Box (Point 0 (3 # 2)) (Point 2 2) None) = false.
Proof. split; reflexivity. Qed.

(** Dividing a part of the vector moves boxes only within it, and those with the smaller middle to the front. *)
Theorem C64_divide : forall v a b m, (a < b)%nat -> (b <= List.length v)%nat -> exists w cut, divide v a b m = Some (w, cut) /\ (a <= cut <= b)%nat /\
  firstn a w = firstn a v /\ skipn b w = skipn b v /\ Permutation v w /\
  ((1 < b - a)%nat -> forall k, (a <= k < b)%nat -> exists x, nth_error w k = Some x /\ compare_by m x = (k <? cut)%nat).
Proof.
  intros v a b m AB BL. destruct (divide_is v a b m AB BL) as (w & cut & D & (S1 & S2 & S3) & C & H). exists w, cut.
  split; [exact D|]. split; [exact C|]. split; [exact S1|]. split; [exact S2|]. split; [exact S3|]. intros N k K. destruct (H N) as (H1 & H2).
  destruct (k <? cut)%nat eqn:E; [apply Nat.ltb_lt in E; apply H1; lia|apply Nat.ltb_ge in E; apply H2; lia].
Qed.

Definition unit_box (x : Q) : box := Box (Point x 0) (Point (x + 1) 1) None.

Example C64_divide_ex : divide (map unit_box [5; 0; 7; 1; 6]) 0 5 (Box (Point 0 0) (Point 8 1) None) = Some (map unit_box [1; 0; 7; 5; 6], 2%nat).
Proof. vm_compute. reflexivity. Qed.

(** What goes first: boxes whose middle is below that of the common box, along its longer side. *)
Theorem C64_axis : forall m x, compare_by m x = true <->
  let dx := p_x (urhc m) - p_x (blhc m) in let dy := p_y (urhc m) - p_y (blhc m) in
  (dy < dx /\ p_x (blhc x) + p_x (urhc x) < p_x (blhc m) + p_x (urhc m)) \/ (dx <= dy /\ p_y (blhc x) + p_y (urhc x) < p_y (blhc m) + p_y (urhc m)).
Proof.
  assert (H : forall x y, Qltb (x / 2) (y / 2) = true <-> x < y).
  { intros x y. rewrite Qltb_lt. unfold Qdiv. split; intros H; [apply Qmult_lt_r with (z := / 2); [reflexivity|exact H]|apply Qmult_lt_r; [reflexivity|exact H]]. }
  intros m x. unfold compare_by, midPointX, midPointY. cbv zeta. destruct (Qltb _ (p_x (urhc m) - p_x (blhc m))) eqn:E.
  - apply Qltb_lt in E. rewrite H. lra.
  - apply Qltb_ge in E. rewrite H. lra.
Qed.
Example C64_axis_ex : compare_by (Box (Point 0 0) (Point 8 2) None) (Box (Point 0 0) (Point 1 2) None) = true /\ compare_by (Box (Point 0 0) (Point 2 8) None) (Box (Point 0 6) (Point 1 7) None) = false.
Proof. split; reflexivity. Qed.

(** Nothing to divide; a tree without box and children is empty, no other. *)
Theorem C64_nothing : (forall v a m, divide v a a m = Some (v, a)) /\
  forall h i x, nth_error h i = Some x -> (empty h i = Some true <-> n_box x = None /\ n_kids x = []).
Proof.
  split.
  - intros v a m. unfold divide. rewrite Nat.sub_diag. reflexivity.
  - intros h i x E. unfold empty. rewrite E. destruct (n_box x), (n_kids x); split; intros H; try discriminate; try (destruct H; discriminate); auto.
Qed.
Example C64_nothing_ex : empty [Node None [1%nat]] 0 = Some false /\ empty [Node None []] 0 = Some true.
Proof. split; reflexivity. Qed.

(** Building ends, with one leaf for every box and a binary tree above them in which every node has the smallest box that covers its leaves, whatever the
    tree held before. *)
Theorem C64_build : forall old counts v, v <> [] -> exists w h t, build old counts v = Some (w, h, List.length v, (2 * List.length v - 1)%nat) /\
  Permutation v w /\ holds h 0 t 1 (List.length h) /\ leaves t = w /\ tidy t.
Proof. exact build_is. Qed.

Example C64_build_ex : build None (0, 0)%nat (map unit_box [5; 0; 7]) =
  Some (map unit_box [0; 5; 7],
        [Node (Some (Box (Point 0 0) (Point (7 + 1) 1) None)) [1; 2]%nat; Node (Some (unit_box 0)) [];
         Node (Some (Box (Point 5 0) (Point (7 + 1) 1) None)) [3; 4]%nat; Node (Some (unit_box 5)) []; Node (Some (unit_box 7)) []], 3%nat, 5%nat).
Proof. vm_compute. reflexivity. Qed.

(** The candidates of two trees are the pairs of boxes that collide, each once. *)
Theorem C64_intersect : forall o1 c1 v1 o2 c2 v2 w1 h1 n1 m1 w2 h2 n2 m2 fuel, v1 <> [] -> v2 <> [] ->
  build o1 c1 v1 = Some (w1, h1, n1, m1) -> build o2 c2 v2 = Some (w2, h2, n2, m2) -> (List.length v1 + List.length v2 <= fuel)%nat ->
  exists l, intersect fuel h1 0 h2 0 = Some l /\ Permutation l (filter (fun p => collide (fst p) (snd p)) (list_prod v1 v2)).
Proof.
  intros o1 c1 v1 o2 c2 v2 w1 h1 n1 m1 w2 h2 n2 m2 fuel N1 N2 B1 B2 FU.
  destruct (build_is o1 c1 v1 N1) as (x1 & g1 & t1 & E1 & P1 & H1 & L1 & T1). rewrite B1 in E1. injection E1 as <- <- _ _.
  destruct (build_is o2 c2 v2 N2) as (x2 & g2 & t2 & E2 & P2 & H2 & L2 & T2). rewrite B2 in E2. injection E2 as <- <- _ _.
  pose proof (depth_leaves t1) as D1. pose proof (depth_leaves t2) as D2. rewrite L1 in D1. rewrite L2 in D2. rewrite <- (Permutation_length P1) in D1. rewrite <- (Permutation_length P2) in D2.
  destruct (intersect_is fuel t1 t2 h1 0 1 (List.length h1) h2 0 1 (List.length h2) H1 H2 T1 T2) as (l & E & P); [lia|].
  exists l. split; [exact E|]. rewrite P. unfold touching. apply filter_perm. rewrite L1, L2. clear - P1 P2.
  transitivity (list_prod v1 w2).
  - clear P2. induction P1; cbn [list_prod].
    + constructor.
    + now apply Permutation_app_head.
    + rewrite !app_assoc. apply Permutation_app_tail, Permutation_app_comm.
    + etransitivity; eassumption.
  - clear P1. induction v1 as [|x v1 IH]; cbn [list_prod]; [constructor|]. apply Permutation_app; [|exact IH]. now apply Permutation_map, Permutation_sym.
Qed.

Example C64_intersect_ex : exists w1 h1 n1 m1 w2 h2 n2 m2, build None (0, 0)%nat (map unit_box [5; 0; 7; 1; 6]) = Some (w1, h1, n1, m1) /\
  build None (0, 0)%nat (map unit_box [9; (1 # 2)]) = Some (w2, h2, n2, m2) /\
  intersect 7 h1 0 h2 0 = Some [(unit_box 0, unit_box (1 # 2)); (unit_box 1, unit_box (1 # 2))].
Proof. do 8 eexists. split; [vm_compute; reflexivity|]. split; vm_compute; reflexivity. Qed.

(** So a triangle with a geometry is found if it has a point in common with one of the others, as far as the test of two triangles finds that. *)
Theorem C64_finds : forall hit ts us w1 h1 n1 m1 w2 h2 n2 m2 fuel l, ts <> [] -> us <> [] ->
  (forall u, In u us -> t_geometry u = None) ->
  (forall t u, In t ts -> In u us -> hit t u = true -> exists x y, within x y t /\ within x y u) ->
  build None (0, 0)%nat (map BBox ts) = Some (w1, h1, n1, m1) -> build None (0, 0)%nat (map BBox us) = Some (w2, h2, n2, m2) ->
  (List.length ts + List.length us <= fuel)%nat -> intersect fuel h1 0 h2 0 = Some l ->
  forall t, In t (processCandidates hit l) <-> In t ts /\ exists u, In u us /\ hit t u = true.
Proof.
  intros hit ts us w1 h1 n1 m1 w2 h2 n2 m2 fuel l NT NU GU HIT B1 B2 FU E t.
  destruct (C64_intersect None (0, 0)%nat (map BBox ts) None (0, 0)%nat (map BBox us) w1 h1 n1 m1 w2 h2 n2 m2 fuel) as (k & EK & P); auto.
  - destruct ts; [congruence|discriminate].
  - destruct us; [congruence|discriminate].
  - now rewrite !map_length.
  - rewrite E in EK. injection EK as <-. unfold processCandidates. rewrite in_flat_map. split.
    + intros ((a, b) & I & J). apply (Permutation_in _ P) in I. apply filter_In in I. destruct I as (I & _). apply in_prod_iff in I. destruct I as (IA & IB).
      apply in_map_iff in IA. destruct IA as (t' & <- & IT). apply in_map_iff in IB. destruct IB as (u & <- & IU). unfold processCandidate in J. cbn [fst snd BBox b_triangle] in J.
      destruct (hit t' u) eqn:H; [|destruct J]. rewrite (GU u IU) in J. destruct J as [->|[]]. split; [exact IT|]. exists u. auto.
    + intros (IT & u & IU & H). exists (BBox t, BBox u). split.
      * apply (Permutation_in _ (Permutation_sym P)). apply filter_In. split; [apply in_prod; now apply in_map|]. cbn [fst snd].
        destruct (HIT t u IT IU H) as (x & y & WT & WU). apply (inside_collide _ _ x y); now apply triangle_box.
      * unfold processCandidate. cbn [fst snd BBox b_triangle]. rewrite H, (GU u IU). now left.
Qed.

Example C64_finds_ex : exists w1 h1 n1 m1 w2 h2 n2 m2 l, let t := Triangle 0 1 (Point 0 0) (Point 4 0) (Point 0 4) (Some 1%nat) in let u := Triangle 0 1 (Point 1 1) (Point 4 4) (Point 0 4) None in
  build None (0, 0)%nat (map BBox [t]) = Some (w1, h1, n1, m1) /\ build None (0, 0)%nat (map BBox [u]) = Some (w2, h2, n2, m2) /\ intersect 2 h1 0 h2 0 = Some l /\ processCandidates (fun _ _ => true) l = [t].
Proof. do 9 eexists. cbv zeta. split; [vm_compute; reflexivity|]. split; [vm_compute; reflexivity|]. split; vm_compute; reflexivity. Qed.

(** Built again from nothing, a tree keeps its old box and counts, and that box is offered as a candidate. *)
Theorem C64_rebuild_refuted : exists old counts h n m, build (Some old) counts [] = Some ([], h, n, m) /\ n <> 0%nat /\ empty h 0 = Some false /\
  intersect 2 h 0 [Node (Some old) []] 0 = Some [(old, old)].
Proof. exists (unit_box 0), (3, 5)%nat, [Node (Some (unit_box 0)) []], 3%nat, 5%nat. repeat split. discriminate. Qed.

Example C64_rebuild_refuted_ex : empty [Node None []] 0 = Some true. Proof. reflexivity. Qed.

(** A triangle that meets two others is found twice. *)
Theorem C64_twice_refuted : exists t u1 u2 w1 h1 n1 m1 w2 h2 n2 m2 l, build None (0, 0)%nat (map BBox [t]) = Some (w1, h1, n1, m1) /\
  build None (0, 0)%nat (map BBox [u1; u2]) = Some (w2, h2, n2, m2) /\ intersect 3 h1 0 h2 0 = Some l /\ processCandidates (fun _ _ => true) l = [t; t].
Proof.
  exists (Triangle 0 1 (Point 0 0) (Point 4 0) (Point 0 4) (Some 1%nat)), (Triangle 0 1 (Point 1 1) (Point 4 4) (Point 0 4) None), (Triangle 0 1 (Point 0 1) (Point 4 4) (Point 0 4) None).
  do 9 eexists. split; [vm_compute; reflexivity|]. split; [vm_compute; reflexivity|]. split; vm_compute; reflexivity.
Qed.

Example C64_twice_refuted_ex : processCandidates (fun _ _ => true) [] = []. Proof. reflexivity. Qed.

Print Assumptions C64_box.
Print Assumptions C64_collide.
Print Assumptions C64_divide.
Print Assumptions C64_axis.
Print Assumptions C64_nothing.
Print Assumptions C64_build.
Print Assumptions C64_intersect.
Print Assumptions C64_finds.
Print Assumptions C64_rebuild_refuted.
Print Assumptions C64_twice_refuted.
