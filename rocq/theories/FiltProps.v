(** C51: the filter of trajectory vertices. *)
From Verif Require Import QAux LaneModel PolyModel FiltProofs.
From Coq Require Import PeanoNat.
Local Open Scope nat_scope.
Local Open Scope Q_scope.

(** The filter is off with two vertices or less, and for a radius of 0. *)
Theorem C51_off dist diff radius l : (List.length l <= 2)%nat \/ radius <= SMALL -> FinalizeVertices dist diff radius l = Some l.
Proof. exact (filter_off dist diff radius l). Qed.

(** The loop in place does what [thin] says, without access out of bounds. *)
Theorem C51_filter dist diff radius a b c r : SMALL < radius -> FinalizeVertices dist diff radius (a :: b :: c :: r) = Some (a :: thin dist diff radius a b (c :: r)).
Proof. exact (filter_spec dist diff radius a b c r). Qed.

Lemma filter_cases dist diff radius l : l <> [] -> exists k a r, FinalizeVertices dist diff radius l = Some (a :: k) /\ l = a :: r /\
  (k = r \/ exists b r', r = b :: r' /\ k = thin dist diff radius a b r').
Proof.
  intro NE. destruct l as [|a [|b [|c r]]]; [congruence| | |].
  - exists [], a, []. split; [apply filter_off; left; cbn; lia|auto].
  - exists [b], a, [b]. split; [apply filter_off; left; cbn; lia|auto].
  - destruct (Qlt_le_dec SMALL radius) as [H|H].
    + exists (thin dist diff radius a b (c :: r)), a, (b :: c :: r). split; [apply filter_spec; auto|]. split; auto. right. exists b, (c :: r). auto.
    + exists (b :: c :: r), a, (b :: c :: r). split; [apply filter_off; auto|auto].
Qed.

(** First and last vertex are kept, whatever the radius. *)
Theorem C51_ends dist diff radius l : l <> [] -> exists k, FinalizeVertices dist diff radius l = Some k /\ head k = head l /\ forall d, last k d = last l d.
Proof.
  intro NE. destruct (filter_cases dist diff radius l NE) as (k & a & r & E & -> & [-> | (b & r' & -> & ->)]).
  - eexists. split; [exact E|]. auto.
  - eexists. split; [exact E|]. split; [reflexivity|]. intro d. destruct (thin_last dist diff radius r' a b) as (k & x & -> & k' & ->).
    change (a :: k ++ [x]) with ((a :: k) ++ [x]). change (a :: k' ++ [x]) with ((a :: k') ++ [x]). rewrite !last_last. reflexivity.
Qed.

(** The times are a subsequence of the times before: none is made up, and their order is kept. *)
Theorem C51_times dist diff radius l : exists k, FinalizeVertices dist diff radius l = Some k /\ subseq (map tv_time k) (map tv_time l).
Proof.
  destruct l as [|a l]; [exists []; split; [apply filter_off; left; cbn; lia|constructor]|].
  destruct (filter_cases dist diff radius (a :: l) ltac:(discriminate)) as (k & a' & r & E & L & C). injection L as <- <-. eexists. split; [exact E|].
  destruct C as [-> | (b & r' & -> & ->)]; [apply subseq_refl|]. cbn [map]. constructor. exact (thin_times dist diff radius r' a b).
Qed.

(** Every vertex left is one of those before, or the one ahead of it with a later time, for a stop. *)
Theorem C51_vertices dist diff radius l : exists k, FinalizeVertices dist diff radius l = Some k /\
  forall i y, nth_error k i = Some y -> In y l \/ exists j w, i = S j /\ nth_error k j = Some w /\ y = at_time w (tv_time y).
Proof.
  destruct l as [|a l]; [exists []; split; [apply filter_off; left; cbn; lia|intros [|i] y X; discriminate]|].
  destruct (filter_cases dist diff radius (a :: l) ltac:(discriminate)) as (k & a' & r & E & L & C). injection L as <- <-. eexists. split; [exact E|].
  destruct C as [-> | (b & r' & -> & ->)].
  - intros i y Y. left. apply (nth_error_In _ _ Y).
  - intros [|i] y Y; [injection Y as <-; left; left; reflexivity|]. cbn [nth_error] in Y. destruct (thin_origin dist diff radius r' a b i y Y) as [H|(w & W & H)].
    + left. right. exact H.
    + right. exists i, w. auto.
Qed.

(** When two vertices count as one: both at a normal place, no further than the radius, no more turned than the threshold. *)
Theorem C51_same dist diff a b radius turn : VerticesUnique dist diff a b radius turn = false <->
  tv_normal a = true /\ tv_normal b = true /\ dist (tv_x a) (tv_y a) (tv_x b) (tv_y b) < radius + SMALL /\ diff (tv_h a) (tv_h b) < turn + SMALL.
Proof.
  unfold VerticesUnique. destruct (tv_normal a), (tv_normal b); cbn [negb orb]; try (split; [discriminate|intros (A & B & _); discriminate]).
  destruct (Qltb_spec (dist (tv_x a) (tv_y a) (tv_x b) (tv_y b)) (radius + SMALL)), (Qltb_spec (diff (tv_h a) (tv_h b)) (turn + SMALL)); cbn [andb];
    (split; [first [discriminate|intro; repeat split; assumption]|intros (_ & _ & A & B); first [reflexivity|exfalso; lra]]).
Qed.

(** Two vertices that follow each other are apart afterwards, but for a stop and the last one. *)
Theorem C51_spaced dist diff radius a b c r : SMALL < radius -> exists k, FinalizeVertices dist diff radius (a :: b :: c :: r) = Some k /\
  forall i u w, nth_error k i = Some u -> nth_error k (S i) = Some w ->
    VerticesUnique dist diff u w radius (1 # 10) = true \/ w = at_time u (tv_time w) \/ S (S i) = List.length k.
Proof.
  intro R. eexists. split; [apply filter_spec; exact R|]. intros i u w U W. cbn [nth_error] in W.
  destruct (thin_spaced dist diff radius (c :: r) a b i u w U W) as [H|[H|H]]; auto.
  - left. unfold near in H. destruct (VerticesUnique dist diff u w radius (1 # 10)); [reflexivity|discriminate].
  - right. right. cbn [List.length]. lia.
Qed.

(** A run of vertices near to the first is left out; if it lasts more than a second (from the first to the first one apart), it becomes a stop at
    the place of the first until the time of the last. *)
Theorem C51_stop dist diff radius a b bs c r : SMALL < radius -> (forall x, In x (b :: bs) -> VerticesUnique dist diff a x radius (1 # 10) = false) ->
  VerticesUnique dist diff a c radius (1 # 10) = true -> exists k,
  FinalizeVertices dist diff radius (a :: b :: bs ++ c :: r) = Some (a :: (if Qltb (tv_time c - tv_time a) (1 + SMALL) then [] else [at_time a (tv_time (last (b :: bs) b))]) ++ c :: k) /\
  k = match r with [] => [] | b' :: r' => thin dist diff radius c b' r' end.
Proof.
  intros R N C. eexists. split; [|reflexivity]. rewrite <- thin_run.
  - destruct bs as [|x bs]; cbn [app]; apply filter_spec; exact R.
  - intros x X. unfold near. rewrite (N x X). reflexivity.
  - unfold near. rewrite C. reflexivity.
Qed.

(** Nothing is left out if each vertex is apart from the next. *)
Theorem C51_apart dist diff radius l : (forall i u w, nth_error l i = Some u -> nth_error l (S i) = Some w -> VerticesUnique dist diff u w radius (1 # 10) = true) ->
  FinalizeVertices dist diff radius l = Some l.
Proof.
  intro H. destruct l as [|a [|b [|c r]]]; try (apply filter_off; left; cbn; lia).
  destruct (Qlt_le_dec SMALL radius) as [R|R]; [|apply filter_off; auto]. rewrite filter_spec by exact R. do 2 f_equal. apply thin_all.
  intros i u w U W. unfold near. rewrite (H i u w U W). reflexivity.
Qed.

(** ** What does not hold *)

Definition tv (x h t : Q) : tvertex := TVertex true x 0 0 h 0 0 0 0 0%Z 0%N t.
Definition dst (a b c d : Q) : Q := Qabs (a - c) + Qabs (b - d).

(** The difference of headings is taken with its sign: a vertex with a turn to the left is left out, one with the same turn to the right is kept. *)
Theorem C51_turn_refuted : FinalizeVertices dst Qminus 1 [tv 0 0 0; tv 0 (-1) (1 # 2); tv 5 0 1] = Some [tv 0 0 0; tv 0 (-1) (1 # 2); tv 5 0 1] /\
  FinalizeVertices dst Qminus 1 [tv 0 0 0; tv 0 1 (1 # 2); tv 5 0 1] = Some [tv 0 0 0; tv 5 0 1].
Proof. split; reflexivity. Qed.

(** The last vertex may be near to the one ahead of it, the filter does not remove it. *)
Theorem C51_last_refuted : exists k, FinalizeVertices dst Qminus 1 [tv 0 0 0; tv 5 0 1; tv (51 # 10) 0 2] = Some k /\
  exists i u w, nth_error k i = Some u /\ nth_error k (S i) = Some w /\ VerticesUnique dst Qminus u w 1 (1 # 10) = false /\ tv_x u < tv_x w.
Proof. eexists. split; [reflexivity|]. exists 1%nat. eexists _, _. split; [reflexivity|]. split; [reflexivity|]. split; reflexivity. Qed.

(** A stop is not shortened to where the object leaves: it ends at the time of the last vertex near, but a slow drift over more than
    the radius is kept as a drift in steps. *)
Theorem C51_drift_refuted : FinalizeVertices dst Qminus 1 [tv 0 0 0; tv (1 # 2) 0 1; tv 1 0 2; tv (3 # 2) 0 3; tv 2 0 4] = Some [tv 0 0 0; tv 0 0 2; tv (3 # 2) 0 3; tv 2 0 4].
Proof. reflexivity. Qed.

(** ** Examples *)

Definition run : list tvertex := [tv 0 0 0; tv (1 # 10) 0 1; tv (2 # 10) 0 2; tv 5 0 3; tv 9 0 4].
Example C51_off_ex : FinalizeVertices dst Qminus 0 run = Some run.
Proof. apply C51_off. right. discriminate. Qed.
Example C51_filter_ex : FinalizeVertices dst Qminus 1 run = Some [tv 0 0 0; tv 0 0 2; tv 5 0 3; tv 9 0 4].
Proof. reflexivity. Qed.
Example C51_ends_ex : exists k, FinalizeVertices dst Qminus 1 run = Some k /\ head k = Some (tv 0 0 0) /\ last k (tv 7 7 7) = tv 9 0 4.
Proof. destruct (C51_ends dst Qminus 1 run ltac:(discriminate)) as (k & E & H & L). exists k. split; auto. split; [exact H|]. rewrite L. reflexivity. Qed.
Example C51_times_ex : exists k, FinalizeVertices dst Qminus 1 run = Some k /\ map tv_time k = [0; 2; 3; 4].
Proof. eexists. split; reflexivity. Qed.
Example C51_vertices_ex : nth_error [tv 0 0 0; tv 0 0 2] 1 = Some (at_time (tv 0 0 0) 2).
Proof. reflexivity. Qed.
Example C51_same_ex : VerticesUnique dst Qminus (tv 0 0 0) (tv (1 # 2) 0 3) 1 (1 # 10) = false.
Proof. apply C51_same. repeat split; vm_compute; reflexivity. Qed.
Example C51_spaced_ex : VerticesUnique dst Qminus (tv 0 0 0) (tv 5 0 3) 1 (1 # 10) = true.
Proof. reflexivity. Qed.
Example C51_stop_ex : exists k, FinalizeVertices dst Qminus 1 run = Some (tv 0 0 0 :: tv 0 0 2 :: tv 5 0 3 :: k) /\ k = [tv 9 0 4].
Proof.
  destruct (C51_stop dst Qminus 1 (tv 0 0 0) (tv (1 # 10) 0 1) [tv (2 # 10) 0 2] (tv 5 0 3) [tv 9 0 4] eq_refl) as (k & E & K).
  - intros x [<-|[<-|[]]]; reflexivity.
  - reflexivity.
  - exists k. split; [exact E|exact K].
Qed.
Example C51_apart_ex : FinalizeVertices dst Qminus 1 [tv 0 0 0; tv 5 0 1; tv 9 0 2] = Some [tv 0 0 0; tv 5 0 1; tv 9 0 2].
Proof.
  apply C51_apart. intros [|[|[|i]]] u w U W; cbn in U, W; try discriminate; try (destruct i; discriminate); injection U as <-; injection W as <-; reflexivity.
Qed.

Print Assumptions C51_off.
Print Assumptions C51_filter.
Print Assumptions C51_ends.
Print Assumptions C51_times.
Print Assumptions C51_vertices.
Print Assumptions C51_spaced.
Print Assumptions C51_stop.
Print Assumptions C51_apart.
Print Assumptions C51_turn_refuted.
Print Assumptions C51_last_refuted.
Print Assumptions C51_drift_refuted.

Print Assumptions C51_same.
