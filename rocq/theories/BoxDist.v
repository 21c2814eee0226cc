(** * Bounding boxes: distance of two boxes that do not overlap, lemmas *)
From Coq Require Import Reals Bool List Lra Lia.
From Verif Require Import AngModel GeoModel GeoProofs BoxModel BoxProofs.
Import ListNotations.
Open Scope R_scope.

(** ** Leaving a rectangle *)

Lemma exit1 l h x X : l <= x <= h -> exists k, 0 <= k <= 1 /\ (forall j, 0 <= j <= k -> l <= x + j * (X - x) <= h) /\
  (k = 1 /\ l <= X <= h \/ x + k * (X - x) = l \/ x + k * (X - x) = h).
Proof.
  intro H. destruct (Rlt_dec X l) as [L|L].
  - exists ((x - l) / (x - X)). assert (P: 0 < x - X) by lra. split; [split; [apply le_div; lra|apply div_le; lra]|].
    assert (E: (x - l) / (x - X) * (x - X) = x - l) by (field; lra). split; [|right; left; lra].
    intros j J. assert (0 <= j * (x - X) <= (x - l) / (x - X) * (x - X)) by (split; [apply Rmult_le_pos; lra|apply Rmult_le_compat_r; lra]). lra.
  - destruct (Rlt_dec h X) as [G|G].
    + exists ((h - x) / (X - x)). assert (P: 0 < X - x) by lra. split; [split; [apply le_div; lra|apply div_le; lra]|].
      assert (E: (h - x) / (X - x) * (X - x) = h - x) by (field; lra). split; [|right; right; lra].
      intros j J. assert (0 <= j * (X - x) <= (h - x) / (X - x) * (X - x)) by (split; [apply Rmult_le_pos; lra|apply Rmult_le_compat_r; lra]). lra.
    + exists 1. split; [lra|]. split; [|left; lra]. intros j J. replace (x + j * (X - x)) with (j * X + (1 - j) * x) by ring.
      assert (j * l <= j * X <= j * h) by (split; apply Rmult_le_compat_l; lra). assert ((1 - j) * l <= (1 - j) * x <= (1 - j) * h) by (split; apply Rmult_le_compat_l; lra). lra.
Qed.

Lemma exit2 l h m n x y X Y : l <= x <= h -> m <= y <= n -> ~ (l <= X <= h /\ m <= Y <= n) ->
  exists k, 0 <= k <= 1 /\ l <= x + k * (X - x) <= h /\ m <= y + k * (Y - y) <= n /\
    (x + k * (X - x) = l \/ x + k * (X - x) = h \/ y + k * (Y - y) = m \/ y + k * (Y - y) = n).
Proof.
  intros Hx Hy N. destruct (exit1 l h x X Hx) as (k1 & K1 & A1 & B1). destruct (exit1 m n y Y Hy) as (k2 & K2 & A2 & B2).
  destruct (Rle_dec k1 k2) as [L|L].
  - exists k1. split; [lra|]. split; [apply A1; lra|]. split; [apply A2; lra|]. destruct B1 as [(E & B1)|[B1|B1]]; auto.
    assert (k2 = 1) by lra. destruct B2 as [(_ & B2)|[B2|B2]]; [exfalso; auto|right; right; left; rewrite E, <- H; exact B2|right; right; right; rewrite E, <- H; exact B2].
  - exists k2. split; [lra|]. split; [apply A1; lra|]. split; [apply A2; lra|]. destruct B2 as [(E & B2)|[B2|B2]]; auto. lra.
Qed.

(** ** Two segments that do not cross *)

Lemma seg_ends ax ay bx b_y cx cy dx dy t s : 0 <= t <= 1 -> 0 <= s <= 1 ->
  (forall x y, on_segment ax ay bx b_y x y -> on_segment cx cy dx dy x y -> False) ->
  exists t' s', 0 <= t' <= 1 /\ 0 <= s' <= 1 /\ (t' = 0 \/ t' = 1 \/ s' = 0 \/ s' = 1) /\
    dist (ax + t' * (bx - ax)) (ay + t' * (b_y - ay)) (cx + s' * (dx - cx)) (cy + s' * (dy - cy)) <=
    dist (ax + t * (bx - ax)) (ay + t * (b_y - ay)) (cx + s * (dx - cx)) (cy + s * (dy - cy)).
Proof.
  intros T S N. set (ex := bx - ax). set (ey := b_y - ay). set (fx := dx - cx). set (fy := dy - cy).
  (* it is enough to name a point outside the square towards which the distance does not grow *)
  assert (K: forall T' S', ~ (0 <= T' <= 1 /\ 0 <= S' <= 1) ->
    (exists c, 0 <= c <= 1 /\ ax + T' * ex - (cx + S' * fx) = c * (ax + t * ex - (cx + s * fx)) /\ ay + T' * ey - (cy + S' * fy) = c * (ay + t * ey - (cy + s * fy))) ->
    exists t' s', 0 <= t' <= 1 /\ 0 <= s' <= 1 /\ (t' = 0 \/ t' = 1 \/ s' = 0 \/ s' = 1) /\
      dist (ax + t' * ex) (ay + t' * ey) (cx + s' * fx) (cy + s' * fy) <= dist (ax + t * ex) (ay + t * ey) (cx + s * fx) (cy + s * fy)).
  { intros T' S' O (c & C & E1 & E2). destruct (exit2 0 1 0 1 t s T' S' T S O) as (k & Kk & X & Y & Z). exists (t + k * (T' - t)), (s + k * (S' - s)).
    split; [exact X|]. split; [exact Y|]. split; [exact Z|]. apply dist_le.
    set (u := ax + t * ex - (cx + s * fx)) in *. set (v := ay + t * ey - (cy + s * fy)) in *.
    replace (ax + (t + k * (T' - t)) * ex - (cx + (s + k * (S' - s)) * fx)) with ((1 - k) * u + k * (ax + T' * ex - (cx + S' * fx))) by (unfold u; ring).
    replace (ay + (t + k * (T' - t)) * ey - (cy + (s + k * (S' - s)) * fy)) with ((1 - k) * v + k * (ay + T' * ey - (cy + S' * fy))) by (unfold v; ring).
    rewrite E1, E2. replace ((1 - k) * u + k * (c * u)) with ((1 - k + k * c) * u) by ring. replace ((1 - k) * v + k * (c * v)) with ((1 - k + k * c) * v) by ring.
    set (g := 1 - k + k * c). assert (G: 0 <= g <= 1). { unfold g. assert (0 <= k * c <= k * 1) by (split; [apply Rmult_le_pos; lra|apply Rmult_le_compat_l; lra]). lra. }
    assert (GG: g * g <= 1) by (replace 1 with (1 * 1) by ring; apply square_le; lra).
    replace (g * u * (g * u) + g * v * (g * v)) with (g * g * (u * u + v * v)) by ring. pose proof (Rle_0_sqr u) as U. pose proof (Rle_0_sqr v) as V. unfold Rsqr in U, V.
    rewrite <- (Rmult_1_l (u * u + v * v)) at 2. apply Rmult_le_compat_r; lra. }
  destruct (Req_dec (ex * fy - ey * fx) 0) as [P|P].
  - destruct (Req_dec ex 0) as [Ex|Ex]; [destruct (Req_dec ey 0) as [Ey|Ey]|].
    + exists 0, s. split; [lra|]. split; [exact S|]. split; [auto|]. apply dist_le. rewrite Ex, Ey. apply Req_le. ring.
    + destruct (Req_dec fy 0) as [Fy|Fy].
      * assert (Fx: fx = 0) by (apply (Rmult_eq_reg_l ey); [rewrite Ex in P; lra|exact Ey]). exists t, 0. split; [exact T|]. split; [lra|]. split; [auto|]. apply dist_le. rewrite Fx, Fy. apply Req_le. ring.
      * apply (K (t + 2) (s + 2 * ey / fy)); [lra|]. exists 1. split; [lra|]. assert (Fx: fx = 0) by (apply (Rmult_eq_reg_l ey); [rewrite Ex in P; lra|exact Ey]).
        rewrite Ex, Fx. split; [ring|field; exact Fy].
    + destruct (Req_dec fx 0) as [Fx|Fx].
      * assert (Fy: fy = 0) by (apply (Rmult_eq_reg_l ex); [rewrite Fx in P; lra|exact Ex]). exists t, 0. split; [exact T|]. split; [lra|]. split; [auto|]. apply dist_le. rewrite Fx, Fy. apply Req_le. ring.
      * apply (K (t + 2) (s + 2 * ex / fx)); [lra|]. exists 1. split; [lra|]. split; [field; exact Fx|].
        assert (Fy: fy = ey * fx / ex) by (apply (Rmult_eq_reg_l ex); [replace (ex * (ey * fx / ex)) with (ey * fx) by (field; exact Ex); lra|exact Ex]).
        rewrite Fy. field. split; assumption.
  - set (T' := ((cx - ax) * fy - (cy - ay) * fx) / (ex * fy - ey * fx)). set (S' := ((cx - ax) * ey - (cy - ay) * ex) / (ex * fy - ey * fx)).
    assert (Z1: ax + T' * ex - (cx + S' * fx) = 0) by (unfold T', S'; field; exact P).
    assert (Z2: ay + T' * ey - (cy + S' * fy) = 0) by (unfold T', S'; field; exact P).
    apply (K T' S').
    + intros (A & B). apply (N (ax + T' * ex) (ay + T' * ey)).
      * exists T'. split; [exact A|]. split; reflexivity.
      * exists S'. split; [exact B|]. split; unfold fx, fy in *; lra.
    + exists 0. split; [lra|]. lra.
Qed.

(** ** Corners and edges *)

Definition corners (o : box) : list (R * R) := map (placed o) (vertices o).

Lemma placed_at o u v : placed o (u, v) = (b_x o + (u * cos (b_h o) - v * sin (b_h o)), b_y o + (u * sin (b_h o) + v * cos (b_h o))).
Proof. reflexivity. Qed.

Lemma covers_coords o x y : covers o x y <-> - (b_len o / 2) <= ahead o x y - b_cx o <= b_len o / 2 /\ - (b_wid o / 2) <= left_of o x y - b_cy o <= b_wid o / 2.
Proof.
  unfold ahead, left_of. split.
  - intros (u & v & U & V & -> & ->). 
    replace ((b_x o + (u * cos (b_h o) - v * sin (b_h o)) - b_x o) * cos (b_h o) + (b_y o + (u * sin (b_h o) + v * cos (b_h o)) - b_y o) * sin (b_h o)) with
      (u * (cos (b_h o) * cos (b_h o) + sin (b_h o) * sin (b_h o))) by ring.
    replace ((b_y o + (u * sin (b_h o) + v * cos (b_h o)) - b_y o) * cos (b_h o) - (b_x o + (u * cos (b_h o) - v * sin (b_h o)) - b_x o) * sin (b_h o)) with
      (v * (cos (b_h o) * cos (b_h o) + sin (b_h o) * sin (b_h o))) by ring. rewrite cs, !Rmult_1_r. auto.
  - intros (U & V). eexists _, _. split; [exact U|]. split; [exact V|]. split.
    + transitivity (b_x o + (x - b_x o) * (cos (b_h o) * cos (b_h o) + sin (b_h o) * sin (b_h o))); [rewrite cs; ring|ring].
    + transitivity (b_y o + (y - b_y o) * (cos (b_h o) * cos (b_h o) + sin (b_h o) * sin (b_h o))); [rewrite cs; ring|ring].
Qed.

Lemma interp l h u : l <= u <= h -> exists t, 0 <= t <= 1 /\ u = l + t * (h - l).
Proof.
  intro H. destruct (Req_dec l h) as [E|E]; [exists 0; split; [lra|lra]|]. exists ((u - l) / (h - l)). split; [split; [apply le_div; lra|apply div_le; lra]|]. field. lra.
Qed.

(** A point of the rim lies on one of the edges. *)
Lemma rim o u v : - (b_len o / 2) <= u - b_cx o <= b_len o / 2 -> - (b_wid o / 2) <= v - b_cy o <= b_wid o / 2 ->
  u = b_cx o - b_len o / 2 \/ u = b_cx o + b_len o / 2 \/ v = b_cy o - b_wid o / 2 \/ v = b_cy o + b_wid o / 2 ->
  exists e, In e (edges o) /\ on_segment (fst (fst e)) (snd (fst e)) (fst (snd e)) (snd (snd e))
    (b_x o + (u * cos (b_h o) - v * sin (b_h o))) (b_y o + (u * sin (b_h o) + v * cos (b_h o))).
Proof.
  intros U V H. destruct (interp (b_cx o - b_len o / 2) (b_cx o + b_len o / 2) u ltac:(lra)) as (t & T & Et). destruct (interp (b_cy o - b_wid o / 2) (b_cy o + b_wid o / 2) v ltac:(lra)) as (s & S & Es).
  destruct H as [H|[H|[H|H]]].
  - exists (placed o (b_cx o - b_len o / 2, b_cy o + b_wid o / 2), placed o (b_cx o - b_len o / 2, b_cy o - b_wid o / 2)). split; [right; left; reflexivity|].
    rewrite !placed_at. cbn [fst snd]. exists (1 - s). split; [lra|]. rewrite H, Es. split; ring.
  - exists (placed o (b_cx o + b_len o / 2, b_cy o - b_wid o / 2), placed o (b_cx o + b_len o / 2, b_cy o + b_wid o / 2)). split; [do 3 right; left; reflexivity|].
    rewrite !placed_at. cbn [fst snd]. exists s. split; [lra|]. rewrite H, Es. split; ring.
  - exists (placed o (b_cx o - b_len o / 2, b_cy o - b_wid o / 2), placed o (b_cx o + b_len o / 2, b_cy o - b_wid o / 2)). split; [do 2 right; left; reflexivity|].
    rewrite !placed_at. cbn [fst snd]. exists t. split; [lra|]. rewrite H, Et. split; ring.
  - exists (placed o (b_cx o + b_len o / 2, b_cy o + b_wid o / 2), placed o (b_cx o - b_len o / 2, b_cy o + b_wid o / 2)). split; [left; reflexivity|].
    rewrite !placed_at. cbn [fst snd]. exists (1 - t). split; [lra|]. rewrite H, Et. split; ring.
Qed.

Lemma corner_covered o c : sized o -> In c (corners o) -> covers o (fst c) (snd c).
Proof.
  intros (L & W) H. unfold corners, vertices in H. cbn [map In] in H.
  destruct H as [<-|[<-|[<-|[<-|[]]]]]; rewrite placed_at; cbn [fst snd]; eexists _, _; (split; [|split; [|split; reflexivity]]); lra.
Qed.

Lemma edge_corners o e : In e (edges o) -> In (fst e) (corners o) /\ In (snd e) (corners o).
Proof.
  unfold edges, corners, vertices. cbn [map combine app In]. intros [<-|[<-|[<-|[<-|[]]]]]; cbn [fst snd]; split; auto 6.
Qed.

Lemma covers_convex o x y x' y' t : covers o x y -> covers o x' y' -> 0 <= t <= 1 -> covers o (x + t * (x' - x)) (y + t * (y' - y)).
Proof.
  rewrite !covers_coords. intros (A & B) (A' & B') T.
  replace (ahead o (x + t * (x' - x)) (y + t * (y' - y)) - b_cx o) with ((1 - t) * (ahead o x y - b_cx o) + t * (ahead o x' y' - b_cx o)) by (unfold ahead; ring).
  replace (left_of o (x + t * (x' - x)) (y + t * (y' - y)) - b_cy o) with ((1 - t) * (left_of o x y - b_cy o) + t * (left_of o x' y' - b_cy o)) by (unfold left_of; ring).
  set (a := ahead o x y - b_cx o) in *. set (a' := ahead o x' y' - b_cx o) in *. set (b := left_of o x y - b_cy o) in *. set (b' := left_of o x' y' - b_cy o) in *.
  assert (K: forall k z z', - k <= z <= k -> - k <= z' <= k -> - k <= (1 - t) * z + t * z' <= k).
  { intros k z z' Z Z'. assert ((1 - t) * (- k) <= (1 - t) * z <= (1 - t) * k) by (split; apply Rmult_le_compat_l; lra). assert (t * (- k) <= t * z' <= t * k) by (split; apply Rmult_le_compat_l; lra). lra. }
  split; apply K; assumption.
Qed.

Lemma edge_covered o e x y : sized o -> In e (edges o) -> on_segment (fst (fst e)) (snd (fst e)) (fst (snd e)) (snd (snd e)) x y -> covers o x y.
Proof.
  intros So E (t & T & -> & ->). destruct (edge_corners o e E) as (A & B). apply covers_convex; [apply corner_covered; assumption|apply corner_covered; assumption|exact T].
Qed.

(** ** The passes over corners and edges *)

Lemma inner p es : forall m, let r := fold_left (fun m e => if Rltb (edge_distance p e) m then edge_distance p e else m) es m in
  r <= m /\ (forall e, In e es -> r <= edge_distance p e) /\ (r = m \/ exists e, In e es /\ r = edge_distance p e).
Proof.
  induction es as [|e es IH]; intro m; cbn [fold_left].
  - cbv zeta. split; [lra|]. split; [intros e []|left; reflexivity].
  - cbv zeta in *. destruct (IH (if Rltb (edge_distance p e) m then edge_distance p e else m)) as (A & B & C).
    set (r := fold_left _ _ _) in *. clearbody r. destruct (Rltb_spec (edge_distance p e) m).
    + split; [lra|]. split; [intros f [<-|F]; [exact A|apply B; exact F]|]. right. destruct C as [C|(f & F & C)]; [exists e; split; [left; reflexivity|exact C]|exists f; split; [right; exact F|exact C]].
    + split; [lra|]. split; [intros f [<-|F]; [lra|apply B; exact F]|]. destruct C as [C|(f & F & C)]; [left; exact C|right; exists f; split; [right; exact F|exact C]].
Qed.

Lemma pass_spec o t m : let r := pass o t m in r <= m /\ (forall p e, In p (corners o) -> In e (edges t) -> r <= edge_distance p e) /\
  (r = m \/ exists p e, In p (corners o) /\ In e (edges t) /\ r = edge_distance p e).
Proof.
  unfold pass. fold (corners o). generalize (corners o). intro ps. revert m. induction ps as [|p ps IH]; intro m; cbn [fold_left].
  - cbv zeta. split; [lra|]. split; [intros p e []|left; reflexivity].
  - cbv zeta in *. pose proof (inner p (edges t) m) as (A & B & C). cbv zeta in A, B, C. set (m1 := fold_left (fun m e => if Rltb (edge_distance p e) m then edge_distance p e else m) (edges t) m) in *. clearbody m1.
    destruct (IH m1) as (A1 & B1 & C1). set (r := fold_left _ ps m1) in *. clearbody r.
    split; [lra|]. split.
    + intros q e [<-|Q] E; [specialize (B e E); lra|apply B1; assumption].
    + destruct C1 as [C1|(q & e & Q & E & C1)]; [|right; exists q, e; split; [right; exact Q|split; assumption]].
      destruct C as [C|(e & E & C)]; [left; congruence|]. right. exists p, e. split; [left; reflexivity|]. split; [exact E|congruence].
Qed.

(** Both passes. *)
Definition passes (o t : box) : R := pass t o (pass o t LARGE_NUMBER).

Lemma passes_spec o t : passes o t <= LARGE_NUMBER /\ (forall p e, In p (corners o) -> In e (edges t) -> passes o t <= edge_distance p e) /\
  (forall p e, In p (corners t) -> In e (edges o) -> passes o t <= edge_distance p e) /\
  (passes o t = LARGE_NUMBER \/ (exists p e, In p (corners o) /\ In e (edges t) /\ passes o t = edge_distance p e) \/
   exists p e, In p (corners t) /\ In e (edges o) /\ passes o t = edge_distance p e).
Proof.
  unfold passes. destruct (pass_spec o t LARGE_NUMBER) as (A & B & C). cbv zeta in *. set (m := pass o t LARGE_NUMBER) in *. clearbody m.
  destruct (pass_spec t o m) as (A1 & B1 & C1). cbv zeta in *. set (r := pass t o m) in *. clearbody r.
  split; [lra|]. split; [intros p e P E; specialize (B p e P E); lra|]. split; [exact B1|].
  destruct C1 as [C1|C1]; [|right; right; exact C1]. destruct C as [C|C]; [left; congruence|right; left]. destruct C as (p & e & P & E & C). exists p, e. repeat split; try assumption. congruence.
Qed.

Lemma edge_point p e : exists x y, on_segment (fst (fst e)) (snd (fst e)) (fst (snd e)) (snd (snd e)) x y /\ edge_distance p e = dist (fst p) (snd p) x y.
Proof.
  pose proof (edge_any (fst p) (snd p) (fst (fst e)) (snd (fst e)) (fst (snd e)) (snd (snd e))) as H. unfold edge_distance.
  destruct (DistanceFromPointToEdge2D _ _ _ _ _ _) as [[d qx] qy]. destruct H as (A & B & _). exists qx, qy. split; [exact A|exact B].
Qed.

(** The distance found is that of two points of the boxes. *)
Lemma passes_attained o t : sized o -> sized t -> passes o t = LARGE_NUMBER \/ exists x y x' y', covers o x y /\ covers t x' y' /\ passes o t = dist x y x' y'.
Proof.
  intros So St. destruct (passes_spec o t) as (_ & _ & _ & [H|[(p & e & P & E & H)|(p & e & P & E & H)]]); [left; exact H| |]; right; destruct (edge_point p e) as (x & y & S & D).
  - exists (fst p), (snd p), x, y. split; [apply corner_covered; assumption|]. split; [apply (edge_covered t e); assumption|]. congruence.
  - exists x, y, (fst p), (snd p). split; [apply (edge_covered o e); assumption|]. split; [apply corner_covered; assumption|]. rewrite dist_sym. congruence.
Qed.

(** How far the distance to an edge may miss the minimum. *)
Definition exact_to (tol : R) (o : box) : Prop := forall p e x y, In e (edges o) -> on_segment (fst (fst e)) (snd (fst e)) (fst (snd e)) (snd (snd e)) x y ->
  edge_distance p e <= dist (fst p) (snd p) x y + tol.

Lemma exact_any o : exact_to (2 * SMALL_NUMBER) o.
Proof.
  intros p e x y E S. unfold edge_distance. pose proof (edge_any (fst p) (snd p) (fst (fst e)) (snd (fst e)) (fst (snd e)) (snd (snd e))) as H.
  destruct (DistanceFromPointToEdge2D _ _ _ _ _ _) as [[d qx] qy]. destruct H as (_ & _ & H). cbn [fst]. apply H. exact S.
Qed.

(** A side of at least twice SMALL_NUMBER has its ends apart in the sense of the code. *)
Lemma apart_turned k h : 2 * SMALL_NUMBER <= k -> SMALL_NUMBER <= Rabs (k * cos h) \/ SMALL_NUMBER <= Rabs (k * sin h).
Proof.
  intro K. assert (Sm: 0 < SMALL_NUMBER) by (unfold SMALL_NUMBER; lra). destruct (Rle_dec SMALL_NUMBER (Rabs (k * cos h))) as [|A]; [left; assumption|]. destruct (Rle_dec SMALL_NUMBER (Rabs (k * sin h))) as [|B]; [right; assumption|].
  exfalso. assert (C: (k * cos h) * (k * cos h) <= SMALL_NUMBER * SMALL_NUMBER) by (apply square_le, abs_le; lra).
  assert (D: (k * sin h) * (k * sin h) <= SMALL_NUMBER * SMALL_NUMBER) by (apply square_le, abs_le; lra).
  assert (E: k * k = (k * cos h) * (k * cos h) + (k * sin h) * (k * sin h)) by (transitivity (k * k * (cos h * cos h + sin h * sin h)); [rewrite cs; ring|ring]).
  assert (F: (2 * SMALL_NUMBER) * (2 * SMALL_NUMBER) <= k * k) by (apply square_le; lra). assert (0 < SMALL_NUMBER * SMALL_NUMBER) by (apply Rmult_lt_0_compat; assumption). lra.
Qed.

Definition real_size (o : box) : Prop := 2 * SMALL_NUMBER <= b_len o /\ 2 * SMALL_NUMBER <= b_wid o.

Lemma real_sized o : real_size o -> sized o.
Proof. intros (L & W). assert (0 < SMALL_NUMBER) by (unfold SMALL_NUMBER; lra). split; lra. Qed.

Lemma edge_apart o e : real_size o -> In e (edges o) -> apart (fst (fst e)) (snd (fst e)) (fst (snd e)) (snd (snd e)).
Proof.
  intros (L & W) E. unfold edges, vertices in E. cbn [map combine app In] in E. unfold apart.
  destruct E as [<-|[<-|[<-|[<-|[]]]]]; rewrite !placed_at; cbn [fst snd].
  - destruct (apart_turned (b_len o) (b_h o) L) as [H|H]; [left|right]; rewrite <- Rabs_Ropp; eapply Rle_trans; try exact H; apply Req_le; f_equal; field.
  - destruct (apart_turned (b_wid o) (b_h o) W) as [H|H]; [right|left]; [rewrite <- Rabs_Ropp|]; eapply Rle_trans; try exact H; apply Req_le; f_equal; field.
  - destruct (apart_turned (b_len o) (b_h o) L) as [H|H]; [left|right]; eapply Rle_trans; try exact H; apply Req_le; f_equal; field.
  - destruct (apart_turned (b_wid o) (b_h o) W) as [H|H]; [right|left]; [|rewrite <- Rabs_Ropp]; eapply Rle_trans; try exact H; apply Req_le; f_equal; field.
Qed.

Lemma exact_real o : real_size o -> exact_to 0 o.
Proof.
  intros RS p e x y E S. unfold edge_distance. pose proof (edge_spec (fst p) (snd p) (fst (fst e)) (snd (fst e)) (fst (snd e)) (snd (snd e)) (edge_apart o e RS E)) as H.
  destruct (DistanceFromPointToEdge2D _ _ _ _ _ _) as [[d qx] qy]. destruct H as (_ & _ & H). cbn [fst]. specialize (H x y S). lra.
Qed.

(** ** The distance is the least *)

(** From a point inside towards one outside there is a point of the rim. *)
Lemma to_rim o x y x' y' : covers o x y -> ~ covers o x' y' -> exists k e, 0 <= k <= 1 /\ In e (edges o) /\
  on_segment (fst (fst e)) (snd (fst e)) (fst (snd e)) (snd (snd e)) (x + k * (x' - x)) (y + k * (y' - y)).
Proof.
  intros A B. rewrite covers_coords in A, B. destruct A as (A1 & A2).
  destruct (exit2 (b_cx o - b_len o / 2) (b_cx o + b_len o / 2) (b_cy o - b_wid o / 2) (b_cy o + b_wid o / 2) (ahead o x y) (left_of o x y) (ahead o x' y') (left_of o x' y')) as (k & K & X & Y & Z); try lra.
  set (u := ahead o x y + k * (ahead o x' y' - ahead o x y)) in *. set (v := left_of o x y + k * (left_of o x' y' - left_of o x y)) in *.
  destruct (rim o u v) as (e & E & S); try lra. exists k, e. split; [exact K|]. split; [exact E|].
  replace (x + k * (x' - x)) with (b_x o + (u * cos (b_h o) - v * sin (b_h o))).
  2: { unfold u, v, ahead, left_of. transitivity (b_x o + (x + k * (x' - x) - b_x o) * (cos (b_h o) * cos (b_h o) + sin (b_h o) * sin (b_h o))); [ring|rewrite cs; ring]. }
  replace (y + k * (y' - y)) with (b_y o + (u * sin (b_h o) + v * cos (b_h o))).
  2: { unfold u, v, ahead, left_of. transitivity (b_y o + (y + k * (y' - y) - b_y o) * (cos (b_h o) * cos (b_h o) + sin (b_h o) * sin (b_h o))); [ring|rewrite cs; ring]. }
  exact S.
Qed.

Lemma dist_shrink x y x' y' k : 0 <= k <= 1 -> dist (x + k * (x' - x)) (y + k * (y' - y)) x' y' <= dist x y x' y'.
Proof.
  intro K. apply dist_le. replace (x + k * (x' - x) - x') with ((1 - k) * (x - x')) by ring. replace (y + k * (y' - y) - y') with ((1 - k) * (y - y')) by ring.
  set (u := x - x'). set (v := y - y'). replace ((1 - k) * u * ((1 - k) * u) + (1 - k) * v * ((1 - k) * v)) with ((1 - k) * (1 - k) * (u * u + v * v)) by ring.
  assert ((1 - k) * (1 - k) <= 1) by (replace 1 with (1 * 1) at 3 by ring; apply square_le; lra).
  pose proof (Rle_0_sqr u) as U. pose proof (Rle_0_sqr v) as V. unfold Rsqr in U, V. rewrite <- (Rmult_1_l (u * u + v * v)) at 2. apply Rmult_le_compat_r; lra.
Qed.

Lemma passes_least tol o t x y x' y' : sized o -> sized t -> exact_to tol o -> exact_to tol t -> (forall a b, covers o a b -> covers t a b -> False) ->
  covers o x y -> covers t x' y' -> passes o t <= dist x y x' y' + tol.
Proof.
  intros So St Xo Xt D A B.
  destruct (to_rim o x y x' y' A (fun H => D x' y' H B)) as (k & e & K & E & S). set (px := x + k * (x' - x)) in *. set (py := y + k * (y' - y)) in *.
  assert (P: covers o px py) by (apply (edge_covered o e); assumption).
  destruct (to_rim t x' y' px py B (fun H => D px py P H)) as (k' & f & K' & F & S'). set (qx := x' + k' * (px - x')) in *. set (qy := y' + k' * (py - y')) in *.
  assert (D1: dist px py qx qy <= dist x y x' y').
  { rewrite dist_sym. eapply Rle_trans; [apply dist_shrink; exact K'|]. rewrite dist_sym. apply dist_shrink; exact K. }
  destruct S as (t0 & T0 & Ex & Ey), S' as (s0 & T1 & Fx & Fy).
  destruct (seg_ends (fst (fst e)) (snd (fst e)) (fst (snd e)) (snd (snd e)) (fst (fst f)) (snd (fst f)) (fst (snd f)) (snd (snd f)) t0 s0 T0 T1) as (t1 & s1 & Y0 & Y1 & Z & L).
  { intros a b Sa Sb. apply (D a b); [apply (edge_covered o e)|apply (edge_covered t f)]; assumption. }
  rewrite <- Ex, <- Ey, <- Fx, <- Fy in L. destruct (passes_spec o t) as (_ & R1 & R2 & _). destruct (edge_corners o e E) as (E1 & E2), (edge_corners t f F) as (F1 & F2).
  set (ux := fst (fst e) + t1 * (fst (snd e) - fst (fst e))) in *. set (uy := snd (fst e) + t1 * (snd (snd e) - snd (fst e))) in *.
  set (vx := fst (fst f) + s1 * (fst (snd f) - fst (fst f))) in *. set (vy := snd (fst f) + s1 * (snd (snd f) - snd (fst f))) in *.
  assert (SE: on_segment (fst (fst e)) (snd (fst e)) (fst (snd e)) (snd (snd e)) ux uy) by (exists t1; split; [exact Y0|split; reflexivity]).
  assert (SF: on_segment (fst (fst f)) (snd (fst f)) (fst (snd f)) (snd (snd f)) vx vy) by (exists s1; split; [exact Y1|split; reflexivity]).
  assert (W1: forall c, In c (corners o) -> ux = fst c -> uy = snd c -> passes o t <= dist x y x' y' + tol).
  { intros c C U1 U2. specialize (R1 c f C F). specialize (Xt c f vx vy F SF). rewrite U1, U2 in L. lra. }
  assert (W2: forall c, In c (corners t) -> vx = fst c -> vy = snd c -> passes o t <= dist x y x' y' + tol).
  { intros c C U1 U2. specialize (R2 c e C E). specialize (Xo c e ux uy E SE). rewrite U1, U2, dist_sym in L. lra. }
  destruct Z as [Z|[Z|[Z|Z]]].
  - apply (W1 (fst e) E1); unfold ux, uy; rewrite Z; ring.
  - apply (W1 (snd e) E2); unfold ux, uy; rewrite Z; ring.
  - apply (W2 (fst f) F1); unfold vx, vy; rewrite Z; ring.
  - apply (W2 (snd f) F2); unfold vx, vy; rewrite Z; ring.
Qed.

Lemma passes_sym o t : passes o t = passes t o.
Proof.
  assert (K: forall a b, passes a b <= passes b a).
  { intros a b. destruct (passes_spec a b) as (A & B & C & _). destruct (passes_spec b a) as (_ & _ & _ & [H|[(p & e & P & E & H)|(p & e & P & E & H)]]); rewrite H; auto. }
  apply Rle_antisym; apply K.
Qed.

(** ** Gaps and distances *)

Lemma unit_le x y x' y' nx ny : nx * nx + ny * ny = 1 -> Rabs ((x' * nx + y' * ny) - (x * nx + y * ny)) <= dist x y x' y'.
Proof.
  intro U. unfold dist. rewrite <- sqrt_Rsqr_abs. apply sqrt_le_1_alt. unfold Rsqr. set (u := x - x'). set (v := y - y').
  replace (x' * nx + y' * ny - (x * nx + y * ny)) with (- (u * nx + v * ny)) by (unfold u, v; ring).
  pose proof (Rle_0_sqr (u * ny - v * nx)) as S. unfold Rsqr in S.
  assert (E: (u * u + v * v) = (u * nx + v * ny) * (u * nx + v * ny) + (u * ny - v * nx) * (u * ny - v * nx)) by (transitivity ((u * u + v * v) * (nx * nx + ny * ny)); [rewrite U; ring|ring]).
  lra.
Qed.

Lemma axis_unit o j : fst (axis o j) * fst (axis o j) + snd (axis o j) * snd (axis o j) = 1.
Proof. destruct j; [rewrite axis_long|rewrite axis_lat]; cbn [fst snd]; rewrite <- (cs (b_h o)); ring. Qed.

Lemma not_clear o t j x y x' y' : sized o -> sized t -> clear o t j = false -> covers o x y -> covers t x' y' -> SMALL_NUMBER < dist x y x' y'.
Proof.
  intros So St H A B. destruct (Rlt_dec SMALL_NUMBER (dist x y x' y')) as [|N]; [assumption|exfalso].
  assert (T: clear o t j = true); [|congruence]. apply clear_spec; try assumption. set (n := axis o j).
  pose proof (unit_le x y x' y' (fst n) (snd n) (axis_unit o j)) as U. pose proof (shadow o (fst n) (snd n) x y So A). pose proof (shadow t (fst n) (snd n) x' y' St B).
  apply Rnot_lt_le in N. assert (V: Rabs (x' * fst n + y' * snd n - (x * fst n + y * snd n)) <= SMALL_NUMBER) by lra. apply abs_le in V. apply abs_le. lra.
Qed.

Lemma miss_apart o t x y x' y' : sized o -> sized t -> hit o t = false -> covers o x y -> covers t x' y' -> SMALL_NUMBER < dist x y x' y'.
Proof.
  intros So St H A B. unfold hit in H. destruct (clear o t false) eqn:C1; [|exact (not_clear o t _ x y x' y' So St C1 A B)].
  destruct (clear o t true) eqn:C2; [|exact (not_clear o t _ x y x' y' So St C2 A B)].
  rewrite dist_sym. destruct (clear t o false) eqn:C3; [|exact (not_clear t o _ x' y' x y St So C3 B A)].
  destruct (clear t o true) eqn:C4; [discriminate|exact (not_clear t o _ x' y' x y St So C4 B A)].
Qed.

Lemma grow_near o e x y : sized o -> 0 <= e -> covers (grow e o) x y -> exists x' y', covers o x' y' /\ dist x y x' y' <= e.
Proof.
  intros (L & W) E (u & v & U & V & -> & ->). cbn [grow b_x b_y b_h b_cx b_cy b_len b_wid] in *.
  assert (C: forall z k, 0 <= k -> - (k + e / 2) <= z <= k + e / 2 -> exists w, - k <= w <= k /\ - (e / 2) <= z - w <= e / 2).
  { intros z k Kk Z. exists (Rmax (- k) (Rmin z k)). unfold Rmax, Rmin. destruct (Rle_dec z k); destruct (Rle_dec (- k) _); lra. }
  destruct (C (u - b_cx o) (b_len o / 2)) as (a & A1 & A2); try lra. destruct (C (v - b_cy o) (b_wid o / 2)) as (b & B1 & B2); try lra.
  exists (b_x o + ((b_cx o + a) * cos (b_h o) - (b_cy o + b) * sin (b_h o))), (b_y o + ((b_cx o + a) * sin (b_h o) + (b_cy o + b) * cos (b_h o))). split.
  - exists (b_cx o + a), (b_cy o + b). repeat split; lra.
  - rewrite <- (sqrt_square e) by exact E. unfold dist. apply sqrt_le_1_alt.
    set (p := u - b_cx o - a) in *. set (q := v - b_cy o - b) in *.
    replace (b_x o + (u * cos (b_h o) - v * sin (b_h o)) - (b_x o + ((b_cx o + a) * cos (b_h o) - (b_cy o + b) * sin (b_h o)))) with (p * cos (b_h o) - q * sin (b_h o)) by (unfold p, q; ring).
    replace (b_y o + (u * sin (b_h o) + v * cos (b_h o)) - (b_y o + ((b_cx o + a) * sin (b_h o) + (b_cy o + b) * cos (b_h o)))) with (p * sin (b_h o) + q * cos (b_h o)) by (unfold p, q; ring).
    rewrite turned. assert (p * p <= e / 2 * (e / 2)) by (apply square_le; lra). assert (q * q <= e / 2 * (e / 2)) by (apply square_le; lra). assert (0 <= e * e) by (apply Rmult_le_pos; exact E). lra.
Qed.

Lemma hit_near o t : sized o -> sized t -> hit o t = true -> exists x y x' y', covers o x y /\ covers t x' y' /\ dist x y x' y' <= 2 * SMALL_NUMBER.
Proof.
  intros So St H. assert (0 < SMALL_NUMBER) by (unfold SMALL_NUMBER; lra). destruct (hit_common o t So St H) as (x & y & A & B).
  destruct (grow_near o SMALL_NUMBER x y So) as (x1 & y1 & A1 & D1); [lra|exact A|]. destruct (grow_near t SMALL_NUMBER x y St) as (x2 & y2 & A2 & D2); [lra|exact B|].
  exists x1, y1, x2, y2. split; [exact A1|]. split; [exact A2|]. rewrite dist_sym in D1. pose proof (dist_triangle x1 y1 x y x2 y2). lra.
Qed.

Lemma dist_pos x y x' y' : 0 <= dist x y x' y'.
Proof. apply sqrt_pos. Qed.

Lemma miss_disjoint o t x y : sized o -> sized t -> hit o t = false -> covers o x y -> covers t x y -> False.
Proof. intros So St H A B. rewrite (common_hit o t x y) in H by assumption. discriminate. Qed.

(** The value of FreeSpaceDistance. *)
Definition space (o t : box) : R := if hit o t then 0 else passes o t.

Lemma space_least tol o t x y x' y' : 0 <= tol -> sized o -> sized t -> exact_to tol o -> exact_to tol t -> covers o x y -> covers t x' y' -> space o t <= dist x y x' y' + tol.
Proof.
  intros T So St Xo Xt A B. unfold space. destruct (hit o t) eqn:H; [pose proof (dist_pos x y x' y'); lra|].
  apply passes_least; try assumption. intros a b. apply miss_disjoint; assumption.
Qed.

Lemma space_attained o t : sized o -> sized t ->
  (space o t = 0 /\ exists x y x' y', covers o x y /\ covers t x' y' /\ dist x y x' y' <= 2 * SMALL_NUMBER) \/
  (SMALL_NUMBER < space o t /\ exists x y x' y', covers o x y /\ covers t x' y' /\ space o t = dist x y x' y') \/ space o t = LARGE_NUMBER.
Proof.
  intros So St. unfold space. destruct (hit o t) eqn:H; [left; split; [reflexivity|apply hit_near; assumption]|right].
  destruct (passes_attained o t So St) as [E|(x & y & x' & y' & A & B & E)]; [right; exact E|left].
  split; [rewrite E; apply (miss_apart o t); assumption|exists x, y, x', y'; auto].
Qed.

(** ** A point *)

Lemma point_spec o x y : sized o -> PointCollision o x y = true <-> covers (grow (2 * SMALL_NUMBER) o) x y.
Proof.
  intro So. rewrite covers_coords. cbn [grow b_x b_y b_h b_cx b_cy b_len b_wid]. unfold PointCollision. cbv zeta. rewrite !span_spec by exact So. rewrite axis_lat, axis_long. cbn [fst snd].
  rewrite half_lat, half_long. unfold GetDotProduct2D.
  assert (EA: ahead (grow (2 * SMALL_NUMBER) o) x y - b_cx o = x * cos (b_h o) + y * sin (b_h o) - mid o (cos (b_h o)) (sin (b_h o))).
  { unfold ahead, mid, ctr_x, ctr_y. cbn [grow b_x b_y b_h]. transitivity (x * cos (b_h o) + y * sin (b_h o) - (b_x o * cos (b_h o) + b_y o * sin (b_h o)) - b_cx o * (cos (b_h o) * cos (b_h o) + sin (b_h o) * sin (b_h o))); [rewrite cs; ring|ring]. }
  assert (EL: left_of (grow (2 * SMALL_NUMBER) o) x y - b_cy o = x * - sin (b_h o) + y * cos (b_h o) - mid o (- sin (b_h o)) (cos (b_h o))).
  { unfold left_of, mid, ctr_x, ctr_y. cbn [grow b_x b_y b_h]. transitivity (y * cos (b_h o) - x * sin (b_h o) - (b_y o * cos (b_h o) - b_x o * sin (b_h o)) - b_cy o * (cos (b_h o) * cos (b_h o) + sin (b_h o) * sin (b_h o))); [rewrite cs; ring|ring]. }
  rewrite EA, EL. set (a := x * cos (b_h o) + y * sin (b_h o)). set (b := x * - sin (b_h o) + y * cos (b_h o)). set (m := mid o (cos (b_h o)) (sin (b_h o))). set (n := mid o (- sin (b_h o)) (cos (b_h o))).
  clearbody a b m n. destruct So as (L & W). assert (0 < SMALL_NUMBER) by (unfold SMALL_NUMBER; lra).
  set (k := b_len o) in *. set (w := b_wid o) in *. clearbody k w. clear EA EL.
  assert (K: forall c d z, 0 <= z -> (Rltb (c - z / 2) (d - SMALL_NUMBER) && Rltb (c + z / 2) (d - SMALL_NUMBER)) || (Rltb (d + SMALL_NUMBER) (c + z / 2) && Rltb (d + SMALL_NUMBER) (c - z / 2)) = false
    <-> - ((z + 2 * SMALL_NUMBER) / 2) <= d - c <= (z + 2 * SMALL_NUMBER) / 2).
  { intros c d z Z. cmp; cbn [andb orb]; split; intro; try discriminate; try reflexivity; lra. }
  rewrite <- (K m a k L), <- (K n b w W).
  destruct ((Rltb (n - w / 2) (b - SMALL_NUMBER) && _) || _); [split; [discriminate|intros (_ & X); discriminate]|].
  destruct ((Rltb (m - k / 2) (a - SMALL_NUMBER) && _) || _); [split; [discriminate|intros (X & _); discriminate]|]. split; auto.
Qed.

(** The result of FreeSpaceDistancePoint: distance and its components seen from the box. *)
Definition point_result (o : box) (x y : R) (r : R * R * R) : Prop := exists qx qy, covers o qx qy /\ fst (fst r) = dist x y qx qy /\
  snd r = ahead o x y - ahead o qx qy /\ snd (fst r) = left_of o x y - left_of o qx qy.

Definition point_step (o : box) (x y : R) (acc : R * R * R) (e : (R * R) * (R * R)) : R * R * R :=
  let '(d, px, py) := DistanceFromPointToEdge2D x y (fst (fst e)) (snd (fst e)) (fst (snd e)) (snd (snd e)) in
  if Rltb d (fst (fst acc)) then let '(lon, lat) := RotateVec2D (x - px) (y - py) (- b_h o) in (d, lat, lon) else acc.

Lemma point_step_spec o x y acc e : let r := point_step o x y acc e in
  fst (fst r) <= fst (fst acc) /\ fst (fst r) <= edge_distance (x, y) e /\
  (r = acc \/ (sized o -> In e (edges o) -> point_result o x y r)).
Proof.
  unfold point_step, edge_distance. cbn [fst snd]. pose proof (edge_any x y (fst (fst e)) (snd (fst e)) (fst (snd e)) (snd (snd e))) as H.
  destruct (DistanceFromPointToEdge2D _ _ _ _ _ _) as [[d px] py]. cbn [fst]. destruct H as (A & B & _).
  destruct (Rltb_spec d (fst (fst acc))) as [L|L]; cbv zeta; [unfold RotateVec2D; cbn [fst snd]|].
  - split; [lra|]. split; [lra|]. right. intros So E. exists px, py. split; [apply (edge_covered o e); assumption|]. cbn [fst snd]. split; [exact B|].
    rewrite cos_neg, sin_neg. unfold ahead, left_of. split; ring.
  - split; [lra|]. split; [lra|]. left. reflexivity.
Qed.

Lemma point_fold o x y es : sized o -> (forall e, In e es -> In e (edges o)) -> forall acc, let r := fold_left (point_step o x y) es acc in
  fst (fst r) <= fst (fst acc) /\ (forall e, In e es -> fst (fst r) <= edge_distance (x, y) e) /\ (r = acc \/ point_result o x y r).
Proof.
  intro So. induction es as [|e es IH]; intros Sub acc; cbn [fold_left]; cbv zeta.
  - split; [lra|]. split; [intros e []|left; reflexivity].
  - destruct (point_step_spec o x y acc e) as (A & B & C). cbv zeta in *. destruct (IH (fun f F => Sub f (or_intror F)) (point_step o x y acc e)) as (A1 & B1 & C1). cbv zeta in *.
    set (r := fold_left _ es _) in *. split; [lra|]. split; [intros f [<-|F]; [lra|apply B1; exact F]|].
    destruct C1 as [C1|C1]; [|right; exact C1]. rewrite C1. destruct C as [C|C]; [left; exact C|right; apply C; [exact So|apply Sub; left; reflexivity]].
Qed.

Lemma point_distance tol o x y : 0 <= tol -> sized o -> exact_to tol o -> let r := FreeSpaceDistancePoint o x y in
  (forall qx qy, covers o qx qy -> fst (fst r) <= dist x y qx qy + tol) /\
  ((r = (0, 0, 0) /\ covers (grow (2 * SMALL_NUMBER) o) x y) \/ point_result o x y r \/ r = (LARGE_NUMBER, LARGE_NUMBER, LARGE_NUMBER)).
Proof.
  intros T So Xo. unfold FreeSpaceDistancePoint. destruct (PointCollision o x y) eqn:P; cbv zeta.
  - split; [intros qx qy _; cbn [fst]; pose proof (dist_pos x y qx qy); lra|]. left. split; [reflexivity|]. apply point_spec; assumption.
  - change (fold_left _ (edges o) (LARGE_NUMBER, LARGE_NUMBER, LARGE_NUMBER)) with (fold_left (point_step o x y) (edges o) (LARGE_NUMBER, LARGE_NUMBER, LARGE_NUMBER)).
    destruct (point_fold o x y (edges o) So (fun e E => E) (LARGE_NUMBER, LARGE_NUMBER, LARGE_NUMBER)) as (A & B & C). cbv zeta in *.
    set (r := fold_left _ _ _) in *. clearbody r. split; [|right; tauto].
    intros qx qy Q. assert (N: ~ covers o x y).
    { intro C'. assert (G: covers (grow (2 * SMALL_NUMBER) o) x y); [|apply point_spec in G; [congruence|exact So]].
      destruct C' as (u & v & U & V & E1 & E2). exists u, v. cbn [grow b_x b_y b_h b_cx b_cy b_len b_wid]. assert (0 < SMALL_NUMBER) by (unfold SMALL_NUMBER; lra). repeat split; try assumption; lra. }
    destruct (to_rim o qx qy x y Q N) as (k & e & K & E & S). specialize (B e E). specialize (Xo (x, y) e _ _ E S). cbn [fst snd] in Xo.
    pose proof (dist_shrink qx qy x y k K) as D. rewrite dist_sym in D. rewrite (dist_sym qx qy x y) in D. lra.
Qed.
