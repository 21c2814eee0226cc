(** Specification and lemmas for [RouteModel]. *)
From Coq Require Import NArith PeanoNat.
From Verif Require Import QAux LaneModel RouteModel.
Local Open Scope nat_scope.
Local Open Scope Q_scope.

Section Route.
Variable road : N -> option Q.

(** A waypoint on an existing road, with a direction. *)
Definition good (w : waypoint) : Prop := (w_dir w = 1 \/ w_dir w = -1)%Z /\ exists len, road (w_track w) = Some len /\ 0 <= w_s w <= len.
(** The distance from the waypoint to the end of its road, and from the start of the road to the waypoint, in the direction of the route. *)
Definition ahead (len : Q) (w : waypoint) : Q := if (w_dir w =? 1)%Z then len - w_s w else w_s w.
Definition behind (len : Q) (w : waypoint) : Q := if (w_dir w =? 1)%Z then w_s w else len - w_s w.
(** Two waypoints on roads that follow each other, or on one road. *)
Definition linked (a b : waypoint) : Prop :=
  (exists la lb, road (w_track a) = Some la /\ road (w_track b) = Some lb /\ w_rs b - w_rs a == ahead la a + behind lb b) \/
  (w_track a = w_track b /\ w_dir a = w_dir b /\ w_rs b - w_rs a == inject_Z (w_dir a) * (w_s b - w_s a) /\ 0 <= w_rs b - w_rs a).
Definition chained (l : list waypoint) : Prop :=
  (forall w, In w l -> good w) /\ (forall i a b, nth_error l i = Some a -> nth_error l (S i) = Some b -> linked a b) /\
  (forall a, nth_error l 0 = Some a -> w_rs a == 0).
(** A point at [x] on the road of a waypoint is at [s] along the route, as measured from the waypoint. *)
Definition along (a : waypoint) (x s : Q) : Prop := inject_Z (w_dir a) * (x - w_s a) == s - w_rs a.

Definition last_wp (l : list waypoint) (e : waypoint) : Prop := nth_error l (List.length l - 1) = Some e.

Lemma passed_spec l s : (passed l s <= List.length l)%nat /\ (forall j w, (j < passed l s)%nat -> nth_error l j = Some w -> w_rs w - SMALL < s) /\
  (forall w, nth_error l (passed l s) = Some w -> s <= w_rs w - SMALL).
Proof.
  induction l as [|w l (I1 & I2 & I3)]; cbn [passed].
  - split; [auto|]. split; [intros j w J; lia|intros w W; discriminate].
  - destruct (Qltb_spec (w_rs w - SMALL) s) as [C|C].
    + split; [cbn; lia|]. split.
      * intros [|j] v J V; [injection V as <-; exact C|]. apply (I2 j); [lia|exact V].
      * intros v V. apply I3. exact V.
    + split; [cbn; lia|]. split; [intros j v J; lia|]. intros v V. injection V as <-. apply Qnot_lt_le; exact C.
Qed.

Lemma dir_pos : inject_Z 1 == 1. Proof. reflexivity. Qed.
Lemma dir_neg : inject_Z (-1) == -(1). Proof. reflexivity. Qed.

(** The place between a waypoint and the next. *)
Lemma locate_spec l i a s : chained l -> nth_error l i = Some a -> w_rs a - SMALL < s ->
  (forall b, nth_error l (S i) = Some b -> s <= w_rs b - SMALL) -> (nth_error l (S i) = None -> s <= w_rs a /\ (w_dir a = (-1)%Z -> SMALL <= w_s a)) ->
  exists b x len, (b = a \/ nth_error l (S i) = Some b) /\ locate road l i a s = Some (w_track b, w_lane b, x) /\ along b x s /\
    road (w_track b) = Some len /\ - SMALL < x <= len + SMALL.
Proof.
  intros (Go & Li & _) A S1 S2 S3. pose proof SMALL_pos as SP. pose proof (Go a (nth_error_In _ _ A)) as (Da & len & La & Ra).
  unfold locate. rewrite La. cbv zeta. set (ds := s - w_rs a).
  assert (Lt: (i < List.length l)%nat) by (apply nth_error_Some; congruence).
  destruct (nth_error l (S i)) as [b|] eqn:B.
  - assert (Lt2: (S i < List.length l)%nat) by (apply nth_error_Some; congruence).
    replace (i <? List.length l - 1)%nat with true by (symmetry; apply Nat.ltb_lt; lia). cbn [andb].
    pose proof (S2 b eq_refl) as S2'. pose proof (Go b (nth_error_In _ _ B)) as (Db & lb & Lb & Rb). rewrite Lb.
    assert (LK := Li i a b A B). unfold linked, ahead, behind in LK.
    destruct Da as [Da | Da]; rewrite Da in *; cbn [Z.eqb Pos.eqb andb orb Z.ltb Z.compare].
    + destruct (Qltb_spec (len + SMALL) (w_s a + ds)) as [C|C]; cbn [andb orb].
      * destruct LK as [(la & lb' & La' & Lb' & LK) | (T & D' & LK & _)].
        2:{ exfalso. rewrite T in La. assert (lb = len) by congruence. subst lb. rewrite dir_pos in LK. unfold ds in C. lra. }
        assert (la = len) by congruence. assert (lb' = lb) by congruence. subst la lb'.
        exists b. eexists _, lb. split; [right; reflexivity|]. split; [reflexivity|]. unfold along.
        destruct Db as [Db | Db]; rewrite Db in *; cbn [Z.eqb Pos.eqb Z.ltb Z.compare] in *; rewrite ?dir_pos, ?dir_neg; unfold ds in *; (split; [lra|split; [exact Lb|lra]]).
      * exists a. eexists _, len. split; [left; reflexivity|]. split; [reflexivity|]. unfold along. rewrite Da, dir_pos. unfold ds in *. split; [lra|split; [exact La|lra]].
    + destruct (Qltb_spec (w_s a) (ds + SMALL)) as [C|C]; cbn [andb orb].
      * destruct LK as [(la & lb' & La' & Lb' & LK) | (T & D' & LK & _)].
        2:{ exfalso. rewrite dir_neg in LK. unfold ds in C. lra. }
        assert (la = len) by congruence. assert (lb' = lb) by congruence. subst la lb'.
        exists b. eexists _, lb. split; [right; reflexivity|]. split; [reflexivity|]. unfold along.
        destruct Db as [Db | Db]; rewrite Db in *; cbn [Z.eqb Pos.eqb Z.ltb Z.compare] in *; rewrite ?dir_pos, ?dir_neg; unfold ds in *; (split; [lra|split; [exact Lb|lra]]).
      * exists a. eexists _, len. split; [left; reflexivity|]. split; [reflexivity|]. unfold along. rewrite Da, dir_neg. unfold ds in *. split; [lra|split; [exact La|lra]].
  - destruct (S3 eq_refl) as (S3a & S3b). assert (Ie: (i = List.length l - 1)%nat) by (apply nth_error_None in B; lia).
    replace (i <? List.length l - 1)%nat with false by (symmetry; apply Nat.ltb_ge; lia). cbn [andb orb].
    destruct Da as [Da | Da]; rewrite Da in *; cbn [Z.eqb Pos.eqb andb orb Z.ltb Z.compare].
    + exists a. eexists _, len. split; [left; reflexivity|]. split; [reflexivity|]. unfold along. rewrite Da, dir_pos. unfold ds in *. split; [lra|split; [exact La|lra]].
    + specialize (S3b eq_refl). destruct (Qltb_spec (w_s a) (ds + SMALL)) as [C|C]; cbn [andb orb]; [exfalso; unfold ds in C; lra|].
      exists a. eexists _, len. split; [left; reflexivity|]. split; [reflexivity|]. unfold along. rewrite Da, dir_neg. unfold ds in *. split; [lra|split; [exact La|lra]].
Qed.

(** The place on the route at path length [s]. *)
Lemma path_inside r s u e : chained (minimal r) -> last_wp (minimal r) e -> rlength r == w_rs e -> (w_dir e = (-1)%Z -> SMALL <= w_s e) ->
  0 <= s <= rlength r ->
  exists i a b x len r', SetPathS road r s u = Some (OK, None, r') /\ nth_error (minimal r) i = Some a /\ (b = a \/ nth_error (minimal r) (S i) = Some b) /\
    w_rs a - SMALL < s /\ (forall c, nth_error (minimal r) (S i) = Some c -> s <= w_rs c - SMALL) /\
    cur r' = Some (w_track b, w_lane b, x) /\ along b x s /\ road (w_track b) = Some len /\ - SMALL < x <= len + SMALL /\
    widx r' = Some i /\ path_s r' = path_s r /\ minimal r' = minimal r /\ rlength r' = rlength r /\ on_route r' = (on_route r || u) /\ all_wp r' = all_wp r.
Proof.
  intros Ch La Le En (S1 & S2). pose proof SMALL_pos as SP. unfold SetPathS.
  destruct (Qltb_spec (rlength r) s) as [C|C]; [lra|]. destruct (Qltb_spec s 0) as [C0|C0]; [lra|]. cbn [orb andb]. clear C C0.
  destruct (minimal r) as [|w0 l0] eqn:M; [unfold last_wp in La; discriminate|]. rewrite <- M in *.
  destruct (passed_spec (minimal r) s) as (P1 & P2 & P3).
  assert (P: (1 <= passed (minimal r) s)%nat).
  { destruct (passed (minimal r) s) eqn:X; [|lia]. exfalso. assert (W0: nth_error (minimal r) 0 = Some w0) by (rewrite M; reflexivity).
    specialize (P3 w0 W0). destruct Ch as (_ & _ & Ch0). specialize (Ch0 w0 W0). lra. }
  set (i := (passed (minimal r) s - 1)%nat) in *. assert (Pi: passed (minimal r) s = S i) by lia.
  destruct (nth_error (minimal r) i) as [a|] eqn:A; [|apply nth_error_None in A; lia].
  assert (R1: w_rs a - SMALL < s) by (apply (P2 i); auto; lia).
  assert (R2: forall c, nth_error (minimal r) (S i) = Some c -> s <= w_rs c - SMALL) by (intros c Cc; apply P3; rewrite Pi; exact Cc).
  assert (R3: nth_error (minimal r) (S i) = None -> s <= w_rs a /\ (w_dir a = (-1)%Z -> SMALL <= w_s a)).
  { intro X. apply nth_error_None in X. assert (i < List.length (minimal r))%nat by (apply nth_error_Some; congruence).
    assert (a = e). { unfold last_wp in La. replace (List.length (minimal r) - 1)%nat with i in La by lia. congruence. } subst a. split; [lra|exact En]. }
  destruct (locate_spec (minimal r) i a s Ch A R1 R2 R3) as (b & x & len & Bb & Lo & Al & Rl & Rx).
  destruct Ch as (Go & _). pose proof (Go a (nth_error_In _ _ A)) as (Da & _).
  replace (w_dir a =? 0)%Z with false by (destruct Da as [-> | ->]; reflexivity). rewrite Lo.
  exists i, a, b, x, len. eexists. split; [reflexivity|]. split; [exact A|]. split; [exact Bb|]. split; [exact R1|]. split; [exact R2|].
  change (on_route (set_cur (Some (w_track b, w_lane b, x)) (set_widx (Some i) r))) with (on_route r).
  destruct (on_route r) eqn:OR, u; cbn; rewrite ?OR; repeat split; auto; apply Rx.
Qed.

(** Outside. *)
Lemma path_outside r s u : s < 0 \/ rlength r < s -> 0 <= rlength r -> u = true \/ on_route r = false ->
  exists d r', SetPathS road r s u = Some (ERROR_END_OF_ROUTE, Some d, r') /\ (s < 0 -> d = - s) /\ (rlength r < s -> d = s - rlength r) /\
    on_route r' = false /\ cur r' = cur r /\ path_s r' = path_s r /\ widx r' = widx r /\ minimal r' = minimal r.
Proof.
  intros O L C. unfold SetPathS. assert (E: Qltb (rlength r) s || Qltb s 0 = true).
  { destruct (Qltb_spec (rlength r) s); [reflexivity|]. destruct (Qltb_spec s 0); [reflexivity|]. lra. }
  rewrite E. cbn [andb]. destruct u.
  - cbn [set_on on_route negb andb]. eexists _, _. split; [reflexivity|]. split; [intro; destruct (Qltb_spec s 0); [reflexivity|lra]|]. split; [intro; destruct (Qltb_spec s 0); [lra|reflexivity]|]. repeat split.
  - destruct C as [C|C]; [discriminate|]. rewrite C. cbn [negb andb]. eexists _, _. split; [reflexivity|]. split; [intro; destruct (Qltb_spec s 0); [reflexivity|lra]|]. split; [intro; destruct (Qltb_spec s 0); [lra|reflexivity]|]. repeat split. exact C.
Qed.

(** SetPathS leaves path_s_ alone. *)
Lemma path_kept r s u c d r' : minimal r <> [] -> SetPathS road r s u = Some (c, d, r') ->
  path_s r' = path_s r /\ minimal r' = minimal r /\ rlength r' = rlength r /\ all_wp r' = all_wp r /\ scenario r' = scenario r /\ invalid r' = invalid r.
Proof.
  intros NE. unfold SetPathS. set (out := Qltb (rlength r) s || Qltb s 0). cbv zeta. set (q := if out && u then set_on false r else r).
  assert (Q: path_s q = path_s r /\ minimal q = minimal r /\ rlength q = rlength r /\ all_wp q = all_wp r /\ scenario q = scenario r /\ invalid q = invalid r) by (unfold q; destruct (out && u); repeat split).
  clearbody q. destruct Q as (Q1 & Q2 & Q3 & Q4 & Q5 & Q6). destruct (out && negb (on_route q)).
  - intro E. injection E as _ _ <-. repeat split; assumption.
  - destruct (minimal q) as [|w l] eqn:M; [congruence|]. rewrite <- M. destruct (nth_error (minimal q) _) as [a|]; [|discriminate].
    destruct (w_dir a =? 0)%Z; [intro E; injection E as _ _ <-; repeat split; congruence|]. destruct (locate road (minimal q) (passed (minimal q) s - 1)%nat a s); [|discriminate].
    intro E. injection E as _ _ <-. destruct (negb _ && u); cbn; repeat split; congruence.
Qed.

(** Equal path lengths give equal places. *)
Lemma Qltb_ext a b c d : a == c -> b == d -> Qltb a b = Qltb c d.
Proof. intros. destruct (Qltb_spec a b), (Qltb_spec c d); auto; lra. Qed.

Definition same_cur (a b : option (N * Z * Q)) : Prop :=
  match a, b with None, None => True | Some (t, l, x), Some (t', l', x') => t = t' /\ l = l' /\ x == x' | _, _ => False end.

Lemma passed_ext l s s' : s == s' -> passed l s = passed l s'.
Proof. intro E. induction l as [|w l IH]; [reflexivity|]. cbn [passed]. rewrite (Qltb_ext (w_rs w - SMALL) s (w_rs w - SMALL) s') by (try reflexivity; exact E). rewrite IH. reflexivity. Qed.

Lemma locate_ext l i a s s' : s == s' -> same_cur (locate road l i a s) (locate road l i a s').
Proof.
  intro E. unfold locate. destruct (road (w_track a)) as [len|]; [|exact I]. cbv zeta.
  rewrite (Qltb_ext (len + SMALL) (w_s a + (s - w_rs a)) (len + SMALL) (w_s a + (s' - w_rs a))) by lra.
  rewrite (Qltb_ext (w_s a) (s - w_rs a + SMALL) (w_s a) (s' - w_rs a + SMALL)) by lra.
  destruct (_ || _).
  - destruct (nth_error l (S i)) as [b|]; [|exact I]. destruct (road (w_track b)) as [lb|]; [|exact I]. cbn. repeat split. destruct (w_dir b <? 0)%Z, (w_dir a <? 0)%Z; lra.
  - cbn. repeat split. destruct (w_dir a =? 1)%Z; lra.
Qed.

Lemma path_ext r s s' u c d r1 : s == s' -> SetPathS road r s u = Some (c, d, r1) ->
  exists d' r2, SetPathS road r s' u = Some (c, d', r2) /\ same_cur (cur r1) (cur r2) /\ widx r1 = widx r2 /\ path_s r1 = path_s r2 /\ on_route r1 = on_route r2.
Proof.
  intro E. unfold SetPathS. rewrite (Qltb_ext (rlength r) s (rlength r) s') by (try reflexivity; exact E). rewrite (Qltb_ext s 0 s' 0) by (try reflexivity; exact E).
  set (out := Qltb (rlength r) s' || Qltb s' 0). cbv zeta. set (q := if out && u then set_on false r else r). clearbody q. clearbody out.
  assert (SC: forall x, same_cur x x). { intros [[[t l] x]|]; cbn; repeat split; reflexivity. }
  destruct (out && negb (on_route q)); [intro F; injection F as <- <- <-; eexists _, _; split; [reflexivity|]; repeat split; apply SC|].
  destruct (minimal q) as [|w l] eqn:M; [intro F; injection F as <- <- <-; eexists _, _; split; [reflexivity|]; repeat split; apply SC|]. rewrite <- M.
  rewrite (passed_ext _ s s' E). destruct (nth_error (minimal q) _) as [a|]; [|discriminate].
  destruct (w_dir a =? 0)%Z; [intro F; injection F as <- <- <-; eexists _, _; split; [reflexivity|]; repeat split; apply SC|].
  pose proof (locate_ext (minimal q) (passed (minimal q) s' - 1)%nat a s s' E) as L.
  destruct (locate road (minimal q) (passed (minimal q) s' - 1)%nat a s) as [[[t ln] x]|]; [|discriminate]. destruct (locate road (minimal q) (passed (minimal q) s' - 1)%nat a s') as [[[t' ln'] x']|]; [|destruct L].
  intro F. injection F as <- <- <-. eexists _, _. split; [reflexivity|]. cbn [on_route set_widx set_cur]. destruct (negb (on_route q) && u); cbn; repeat split; try apply L.
Qed.

(** ** From a place on a road to the route *)

Variable dist : waypoint -> N -> Q -> Q.

(** The waypoints of a road other than that at [i]. *)
Definition only (l : list waypoint) (track : N) (i : nat) : Prop := forall j w, nth_error l j = Some w -> w_track w = track -> j = i.

Lemma track_none r track s c l : forall i, (forall w, In w l -> w_track w <> track) -> track_loop dist r track s i l c = Some c.
Proof.
  induction l as [|w l IH]; intros i H; [reflexivity|]. cbn [track_loop]. unfold track_round.
  destruct (N.eqb_spec (w_track w) track) as [E|E]; [exfalso; apply (H w); [left; reflexivity|exact E]|]. cbn [negb]. apply IH. intros v V. apply H. right. exact V.
Qed.

Lemma track_only r track s c l : forall i k a, nth_error l k = Some a -> only l track k ->
  track_loop dist r track s i l c = track_round r track s (i + k) a (dist a track s) c.
Proof.
  induction l as [|w l IH]; intros i [|k] a K On; try discriminate.
  - injection K as ->. cbn [track_loop]. replace (i + 0)%nat with i by lia. destruct (track_round r track s i a (dist a track s) c) as [c'|]; [|reflexivity].
    apply track_none. intros v V T. apply In_nth_error in V. destruct V as (j & J). specialize (On (S j) v J T). lia.
  - cbn [track_loop]. assert (T: w_track w <> track). { intro T. specialize (On 0%nat w eq_refl T). lia. }
    unfold track_round at 1. destruct (N.eqb_spec (w_track w) track) as [E|E]; [contradiction|]. cbn [negb].
    rewrite (IH (S i) k a K).
    + replace (S i + k)%nat with (i + S k)%nat by lia. reflexivity.
    + intros j v J Tv. specialize (On (S j) v J Tv). lia.
Qed.

(** A point of the route on the road of one waypoint only. *)
Lemma track_inside r k a x s u : nth_error (minimal r) k = Some a -> (w_dir a = 1 \/ w_dir a = -1)%Z -> only (minimal r) (w_track a) k ->
  Qabs (dist a (w_track a) x) <= LARGE - SMALL -> along a x s -> 0 <= s <= rlength r ->
  (k = 0%nat -> w_rs a == 0) -> (k = (List.length (minimal r) - 1)%nat -> w_rs a == rlength r) ->
  exists r', SetTrackS dist r (w_track a) x u = Some (OK, r') /\ path_s r' == s /\ cur r' = Some (w_track a, w_lane a, x) /\ widx r' = Some k /\
    minimal r' = minimal r /\ rlength r' = rlength r /\ (u = true -> on_route r' = true) /\ (u = false -> on_route r' = on_route r) /\ all_wp r' = all_wp r.
Proof.
  intros K D On Di Al S0 E0 E1. unfold SetTrackS. destruct (minimal r) as [|w l] eqn:M; [destruct k; discriminate|]. rewrite <- M in *.
  rewrite (track_only r (w_track a) x _ (minimal r) 0 k a K On). cbn [Nat.add]. unfold track_round. rewrite N.eqb_refl. cbn [negb c_dist].
  destruct (Qltb_spec (LARGE - SMALL) (Qabs (dist a (w_track a) x))) as [C|C]; [lra|]. cbv zeta.
  set (al := if (0 <? w_dir a)%Z then w_rs a + x - w_s a else w_rs a + w_s a - x).
  assert (AL: al == s). { unfold al, along in *. destruct D as [D | D]; rewrite D in *; cbn [Z.ltb Z.compare]; rewrite ?dir_pos, ?dir_neg in Al; lra. }
  clearbody al. assert (CL: CLAMP al 0 (rlength r) == s). { unfold CLAMP, MIN, MAX. destruct (Qltb_spec 0 al); match goal with |- context [Qltb ?x ?y] => destruct (Qltb_spec x y) end; lra. }
  assert (H: (if (k =? 0)%nat
     then if ((0 <? w_dir a)%Z && Qltb x (w_s a)) || ((w_dir a <? 0)%Z && Qltb (w_s a) x)
       then match hd_error (all_wp r) with
            | Some w0 => if (w_track w0 =? w_track a)%N then Some (Closest (Some k) (Qabs (dist a (w_track a) x)) al (if on_route r then ERROR_END_OF_ROUTE else ERROR_NOT_ON_ROUTE) (w_s a))
                         else Some (Closest (Some k) (Qabs (dist a (w_track a) x)) al OK (w_s a))
            | None => None end
       else Some (Closest (Some k) (Qabs (dist a (w_track a) x)) al OK x)
     else if (k =? List.length (minimal r) - 1)%nat
       then if ((0 <? w_dir a)%Z && Qltb (w_s a) x) || ((w_dir a <? 0)%Z && Qltb x (w_s a))
         then match hd_error (rev (all_wp r)) with
            | Some w0 => if (w_track w0 =? w_track a)%N then Some (Closest (Some k) (Qabs (dist a (w_track a) x)) al (if on_route r then ERROR_END_OF_ROUTE else ERROR_NOT_ON_ROUTE) (w_s a))
                         else Some (Closest (Some k) (Qabs (dist a (w_track a) x)) al OK (w_s a))
            | None => None end
         else Some (Closest (Some k) (Qabs (dist a (w_track a) x)) al OK x)
       else Some (Closest (Some k) (Qabs (dist a (w_track a) x)) al OK x)) = Some (Closest (Some k) (Qabs (dist a (w_track a) x)) al OK x)).
  { unfold along in Al. destruct (Nat.eqb_spec k 0) as [K0|K0].
    - specialize (E0 K0). destruct D as [D | D]; rewrite D in *; cbn [Z.ltb Z.compare andb orb]; rewrite ?dir_pos, ?dir_neg in Al.
      + destruct (Qltb_spec x (w_s a)); [lra|reflexivity].
      + destruct (Qltb_spec (w_s a) x); [lra|reflexivity].
    - destruct (Nat.eqb_spec k (List.length (minimal r) - 1)) as [K1|K1]; [|reflexivity].
      specialize (E1 K1). destruct D as [D | D]; rewrite D in *; cbn [Z.ltb Z.compare andb orb]; rewrite ?dir_pos, ?dir_neg in Al.
      + destruct (Qltb_spec (w_s a) x); [lra|reflexivity].
      + destruct (Qltb_spec x (w_s a)); [lra|reflexivity]. }
  rewrite H. cbn [c_idx c_ret c_s c_along]. rewrite K. eexists. split; [reflexivity|]. destruct u; cbn; repeat split; auto; discriminate.
Qed.

(** The waypoint found is one of the road, with no other closer to the point (by SMALL). *)
Definition nearest (l : list waypoint) (track : N) (s : Q) (o : option nat) : Prop :=
  match o with
  | None => forall j w, nth_error l j = Some w -> w_track w = track -> LARGE - SMALL < Qabs (dist w track s)
  | Some i => exists a, nth_error l i = Some a /\ w_track a = track /\
      forall j w, nth_error l j = Some w -> w_track w = track -> Qabs (dist a track s) - SMALL <= Qabs (dist w track s)
  end.

Lemma round_cases r track s i w d c c' : track_round r track s i w d c = Some c' ->
  (c' = c /\ (w_track w <> track \/ c_dist c - SMALL < Qabs d)) \/ (w_track w = track /\ Qabs d <= c_dist c - SMALL /\ c_idx c' = Some i /\ c_dist c' = Qabs d).
Proof.
  unfold track_round. destruct (N.eqb_spec (w_track w) track) as [E|E]; cbn [negb]; [|intro H; injection H as <-; auto].
  destruct (Qltb_spec (c_dist c - SMALL) (Qabs d)) as [D|D]; [intro H; injection H as <-; auto|]. cbv zeta.
  set (al := if (0 <? w_dir w)%Z then _ else _). clearbody al.
  assert (ST: forall o, match o with
      | Some w0 => if (w_track w0 =? track)%N then Some (Closest (Some i) (Qabs d) al (if on_route r then ERROR_END_OF_ROUTE else ERROR_NOT_ON_ROUTE) (w_s w))
                   else Some (Closest (Some i) (Qabs d) al OK (w_s w))
      | None => None end = Some c' -> c_idx c' = Some i /\ c_dist c' = Qabs d).
  { intros [w0|]; [|discriminate]. destruct (w_track w0 =? track)%N; intro H; injection H as <-; auto. }
  intro H. right. split; auto. split; [apply Qnot_lt_le; exact D|].
  destruct (i =? 0)%nat; [|destruct (i =? _)%nat]; [destruct (_ || _); [apply (ST _ H)|injection H as <-; auto]..|injection H as <-; auto].
Qed.

Lemma round_ret r track s i w d c c' : track_round r track s i w d c = Some c' -> c_ret c <> ERROR_GENERIC -> c_ret c' <> ERROR_GENERIC.
Proof.
  unfold track_round. destruct (w_track w =? track)%N; cbn [negb]; [|intro H; injection H as <-; auto].
  destruct (Qltb (c_dist c - SMALL) (Qabs d)); [intro H; injection H as <-; auto|]. cbv zeta. set (al := if (0 <? w_dir w)%Z then _ else _). clearbody al.
  assert (ST: forall o, match o with
      | Some w0 => if (w_track w0 =? track)%N then Some (Closest (Some i) (Qabs d) al (if on_route r then ERROR_END_OF_ROUTE else ERROR_NOT_ON_ROUTE) (w_s w))
                   else Some (Closest (Some i) (Qabs d) al OK (w_s w))
      | None => None end = Some c' -> c_ret c' <> ERROR_GENERIC).
  { intros [w0|]; [|discriminate]. destruct (w_track w0 =? track)%N; intro H; injection H as <-; cbn; [destruct (on_route r)|]; discriminate. }
  intros H _. destruct (i =? 0)%nat; [|destruct (i =? _)%nat]; [destruct (_ || _); [apply (ST _ H)|injection H as <-; discriminate]..|injection H as <-; discriminate].
Qed.

Lemma loop_ret r track s l : forall i c c', track_loop dist r track s i l c = Some c' -> c_ret c <> ERROR_GENERIC -> c_ret c' <> ERROR_GENERIC.
Proof.
  induction l as [|w l IH]; intros i c c' E H; [injection E as <-; exact H|]. cbn [track_loop] in E. destruct (track_round r track s i w (dist w track s) c) as [c1|] eqn:R; [|discriminate].
  apply (IH _ _ _ E). apply (round_ret _ _ _ _ _ _ _ _ R H).
Qed.

Lemma loop_nearest r track s l : forall L i c c', track_loop dist r track s i l c = Some c' -> List.length L = i ->
  nearest L track s (c_idx c) -> (forall k a, c_idx c = Some k -> nth_error L k = Some a -> c_dist c = Qabs (dist a track s)) -> (c_idx c = None -> c_dist c = LARGE) ->
  nearest (L ++ l) track s (c_idx c').
Proof.
  induction l as [|w l IH]; intros L i c c' E Li Ne Ci Cn.
  - cbn in E. injection E as <-. rewrite app_nil_r. exact Ne.
  - cbn [track_loop] in E. destruct (track_round r track s i w (dist w track s) c) as [c1|] eqn:R; [|discriminate].
    change (w :: l) with ([w] ++ l). rewrite app_assoc. pose proof SMALL_pos as SP.
    assert (Nw: forall j v, nth_error (L ++ [w]) j = Some v -> nth_error L j = Some v \/ (j = i /\ v = w)).
    { intros j v J. destruct (Nat.lt_ge_cases j (List.length L)) as [B|B]; [rewrite nth_error_app1 in J by exact B; auto|].
      rewrite nth_error_app2 in J by exact B. destruct (j - List.length L)%nat as [|n] eqn:X; [injection J as <-; right; split; [lia|reflexivity]|destruct n; discriminate]. }
    assert (Wi: nth_error (L ++ [w]) i = Some w). { rewrite nth_error_app2 by lia. rewrite Li, Nat.sub_diag. reflexivity. }
    destruct (round_cases _ _ _ _ _ _ _ _ R) as [(-> & H) | (T & D & I1 & D1)].
    + apply (IH (L ++ [w]) (S i) c c' E); [rewrite app_length; cbn; lia| | |exact Cn].
      * unfold nearest in *. destruct (c_idx c) as [k|] eqn:Ck.
        -- destruct Ne as (a & A & Ta & Ne). exists a. split; [rewrite nth_error_app1; [exact A|apply nth_error_Some; congruence]|]. split; auto.
           intros j v J Tv. destruct (Nw j v J) as [J' | (-> & ->)]; [apply (Ne j); auto|]. destruct H as [H|H]; [contradiction|].
           rewrite (Ci k a eq_refl A) in H. lra.
        -- intros j v J Tv. destruct (Nw j v J) as [J' | (-> & ->)]; [apply (Ne j); auto|]. destruct H as [H|H]; [contradiction|]. rewrite (Cn eq_refl) in H. exact H.
      * intros k a Ck A. destruct (Nw k a A) as [J' | (-> & ->)]; [apply (Ci k); auto|]. exfalso.
        unfold nearest in Ne. rewrite Ck in Ne. destruct Ne as (a' & A' & _). assert (i < List.length L)%nat by (apply nth_error_Some; congruence). lia.
    + apply (IH (L ++ [w]) (S i) c1 c' E); [rewrite app_length; cbn; lia| | |congruence].
      * rewrite I1. exists w. split; auto. split; auto. intros j v J Tv. destruct (Nw j v J) as [J' | (-> & ->)]; [|lra].
        unfold nearest in Ne. destruct (c_idx c) as [k|] eqn:Ck.
        -- destruct Ne as (a & A & Ta & Ne). specialize (Ne j v J' Tv). rewrite (Ci k a eq_refl A) in D. lra.
        -- specialize (Ne j v J' Tv). rewrite (Cn eq_refl) in D. lra.
      * intros k a Ck A. assert (k = i) by congruence. subst k. assert (a = w) by congruence. subst a. exact D1.
Qed.

Lemma track_nearest r track s u c r' : minimal r <> [] -> SetTrackS dist r track s u = Some (c, r') ->
  exists o, nearest (minimal r) track s o /\ (c = OK -> widx r' = o) /\ (c <> OK -> widx r' = None) /\ (o = None -> c = ERROR_NOT_ON_ROUTE /\ path_s r' = path_s r /\ cur r' = cur r).
Proof.
  intros NE. unfold SetTrackS. destruct (minimal r) as [|w l] eqn:M; [congruence|]. rewrite <- M.
  destruct (track_loop dist r track s 0 (minimal r) _) as [k|] eqn:L; [|discriminate].
  assert (N: nearest (minimal r) track s (c_idx k)).
  { apply (loop_nearest r track s (minimal r) [] 0 _ k L); cbn; auto; [intros j v J; destruct j; discriminate|intros j a X; discriminate]. }
  assert (G: c_ret k <> ERROR_GENERIC) by (apply (loop_ret _ _ _ _ _ _ _ L); discriminate).
  intro E. exists (c_idx k). split; auto. destruct (c_idx k) as [i|] eqn:I.
  - destruct (nth_error (minimal r) i) as [a|]; [|discriminate]. destruct (c_ret k); injection E as <- <-; destruct u; cbn; repeat split; congruence.
  - assert (R: c_ret k = ERROR_NOT_ON_ROUTE).
    { clear E N NE w l M. revert I. assert (X: forall l i c, (c_idx c = None -> c_ret c = ERROR_NOT_ON_ROUTE) -> track_loop dist r track s i l c = Some k -> c_idx k = None -> c_ret k = ERROR_NOT_ON_ROUTE).
      { induction l as [|w l IH]; intros i c0 Hc E; [injection E as <-; exact Hc|]. cbn [track_loop] in E. destruct (track_round r track s i w (dist w track s) c0) as [c1|] eqn:R; [|discriminate].
        apply (IH (S i) c1); auto. destruct (round_cases _ _ _ _ _ _ _ _ R) as [(-> & _) | (_ & _ & X & _)]; [exact Hc|congruence]. }
      apply (X (minimal r) 0%nat (Closest None LARGE 0 ERROR_NOT_ON_ROUTE 0)); [reflexivity|exact L]. }
    injection E as <- <-. rewrite R. destruct u; cbn; repeat split; congruence.
Qed.

(** ** Set the path length, look the place up again *)

Lemma nth_last {A} (l : list A) k a e : nth_error l k = Some a -> nth_error l (List.length l - 1) = Some e -> k = (List.length l - 1)%nat -> a = e.
Proof. intros. subst k. congruence. Qed.

Lemma path_track r s u v e : chained (minimal r) -> last_wp (minimal r) e -> rlength r == w_rs e -> (w_dir e = (-1)%Z -> SMALL <= w_s e) ->
  0 <= s <= rlength r -> (forall i w, nth_error (minimal r) i = Some w -> only (minimal r) (w_track w) i) ->
  (forall w x, In w (minimal r) -> Qabs (dist w (w_track w) x) <= LARGE - SMALL) ->
  exists r1 t l x r2, SetPathS road r s u = Some (OK, None, r1) /\ cur r1 = Some (t, l, x) /\ SetTrackS dist r1 t x v = Some (OK, r2) /\
    path_s r2 == s /\ cur r2 = cur r1 /\ minimal r2 = minimal r /\ rlength r2 = rlength r /\
    (exists k a, widx r2 = Some k /\ nth_error (minimal r) k = Some a /\ w_track a = t /\ along a x s).
Proof.
  intros Ch La Le En S0 Un Di.
  destruct (path_inside r s u e Ch La Le En S0) as (i & a & b & x & len & r1 & E & A & B & R1 & R2 & Cu & Al & Rl & Rx & Wi & Ps & Mi & Rl' & Or & Aw).
  assert (Bk: exists k, nth_error (minimal r) k = Some b) by (destruct B as [-> | B]; [exists i|exists (S i)]; auto). destruct Bk as (k & Bk).
  destruct Ch as (Go & Li & Z0). pose proof (Go b (nth_error_In _ _ Bk)) as (Db & _).
  destruct (track_inside r1 k b x s v) as (r2 & T & P2 & C2 & W2 & M2 & L2 & _); try rewrite Mi; try rewrite Rl'; auto.
  - apply Di. apply (nth_error_In _ _ Bk).
  - intros ->. apply Z0. exact Bk.
  - intro X. rewrite (nth_last (minimal r) k b e Bk La X). rewrite Le. reflexivity.
  - exists r1, (w_track b), (w_lane b), x, r2. split; auto. split; auto. split; auto. split; auto. split; [congruence|]. split; [congruence|]. split; [congruence|].
    exists k, b. auto.
Qed.

(** ** Moving along the route *)

Lemma move_path r ds u k a : widx r = Some k -> nth_error (minimal r) k = Some a -> MovePathDS road r ds u = SetPathS road r (path_s r + ds * inject_Z (w_dir a)) u.
Proof.
  intros W A. unfold MovePathDS, GetWaypoint. rewrite W, A. destruct (minimal r); [destruct k; discriminate|reflexivity].
Qed.

Lemma path_only_minimal r r' s s' u : minimal r = minimal r' -> rlength r = rlength r' -> s == s' -> forall c d q, SetPathS road r s true = Some (c, d, q) -> c = OK -> u = true ->
  exists d' q', SetPathS road r' s' u = Some (c, d', q') /\ same_cur (cur q) (cur q').
Proof.
  intros M L E c d q H Cc Hu. subst u. unfold SetPathS in *. rewrite <- L, <- (Qltb_ext (rlength r) s (rlength r) s'), <- (Qltb_ext s 0 s' 0) by (try reflexivity; exact E).
  destruct (Qltb (rlength r) s || Qltb s 0); cbn [andb negb set_on on_route minimal] in *; [injection H as <- _ _; discriminate|]. rewrite <- M.
  destruct (minimal r) as [|w l] eqn:Mi; [injection H as <- _ _; discriminate|]. rewrite <- Mi in *. rewrite <- (passed_ext (minimal r) s s' E).
  destruct (nth_error (minimal r) _) as [a|]; [|discriminate]. destruct (w_dir a =? 0)%Z; [injection H as <- _ _; discriminate|].
  pose proof (locate_ext (minimal r) (passed (minimal r) s - 1)%nat a s s' E) as Lo.
  destruct (locate road (minimal r) (passed (minimal r) s - 1)%nat a s) as [[[t ln] x]|]; [|discriminate]. destruct (locate road (minimal r) (passed (minimal r) s - 1)%nat a s') as [[[t' ln'] x']|]; [|destruct Lo].
  injection H as <- _ <-. eexists _, _. split; [reflexivity|]. cbn [on_route set_widx set_cur]. destruct (negb (on_route r) && true), (negb (on_route r') && true); cbn; apply Lo.
Qed.

Lemma ok_none r s u d q : SetPathS road r s u = Some (OK, d, q) -> d = None.
Proof.
  unfold SetPathS. destruct (Qltb (rlength r) s || Qltb s 0); cbv zeta.
  - set (q0 := if true && u then set_on false r else r). clearbody q0. destruct (true && negb (on_route q0)); [discriminate|]. destruct (minimal q0); [discriminate|].
    match goal with |- context [nth_error ?a ?b] => destruct (nth_error a b) as [v|] end; [|discriminate]. destruct (w_dir v =? 0)%Z; [discriminate|].
    match goal with |- context [locate road ?a ?b ?c ?d] => destruct (locate road a b c d) end; discriminate.
  - cbn [andb]. destruct (minimal r); [discriminate|].
    match goal with |- context [nth_error ?a ?b] => destruct (nth_error a b) as [v|] end; [|discriminate]. destruct (w_dir v =? 0)%Z; [discriminate|].
    match goal with |- context [locate road ?a ?b ?c ?d] => destruct (locate road a b c d) end; [|discriminate]. intro E. injection E. congruence.
Qed.

(** Move, look the place up, move again: as one move, where the route follows the road direction. *)
Lemma move_twice r d1 d2 k a e : chained (minimal r) -> last_wp (minimal r) e -> rlength r == w_rs e ->
  (forall w, In w (minimal r) -> w_dir w = 1%Z) -> (forall i w, nth_error (minimal r) i = Some w -> only (minimal r) (w_track w) i) ->
  (forall w x, In w (minimal r) -> Qabs (dist w (w_track w) x) <= LARGE - SMALL) ->
  widx r = Some k -> nth_error (minimal r) k = Some a -> 0 <= path_s r + d1 <= rlength r -> 0 <= path_s r + d1 + d2 <= rlength r ->
  exists r1 t l x r2 r3 r', MovePathDS road r d1 true = Some (OK, None, r1) /\ cur r1 = Some (t, l, x) /\ SetTrackS dist r1 t x true = Some (OK, r2) /\
    MovePathDS road r2 d2 true = Some (OK, None, r3) /\ MovePathDS road r (d1 + d2) true = Some (OK, None, r') /\ same_cur (cur r3) (cur r').
Proof.
  intros Ch La Le D1 Un Di W A S1 S2. assert (Da: w_dir a = 1%Z) by (apply D1; apply (nth_error_In _ _ A)).
  assert (En: w_dir e = (-1)%Z -> SMALL <= w_s e). { intro X. rewrite (D1 e (nth_error_In _ _ La)) in X. discriminate. }
  rewrite !(move_path r _ true k a W A). rewrite Da.
  destruct (path_track r (path_s r + d1 * inject_Z 1) true true e Ch La Le En) as (r1 & t & l & x & r2 & E1 & C1 & E2 & P2 & C2 & M2 & L2 & (k' & a' & W' & A' & T' & Al')); auto.
  { rewrite dir_pos, Qmult_1_r. exact S1. }
  exists r1, t, l, x, r2. assert (W2: nth_error (minimal r2) k' = Some a') by (rewrite M2; exact A').
  rewrite (move_path r2 d2 true k' a' W' W2). rewrite (D1 a' (nth_error_In _ _ A')).
  assert (S3: 0 <= path_s r2 + d2 * inject_Z 1 <= rlength r2). { rewrite L2. rewrite dir_pos, Qmult_1_r in *. lra. }
  assert (Q: path_s r2 + d2 * inject_Z 1 == path_s r + (d1 + d2) * inject_Z 1). { rewrite dir_pos in *. lra. }
  rewrite <- M2 in Ch, La. rewrite <- L2 in Le.
  destruct (path_inside r2 _ true e Ch La Le En S3) as (i & ai & b & xb & len & r3 & E3 & _).
  destruct (path_only_minimal r2 r _ _ true M2 L2 Q OK None r3 E3 eq_refl eq_refl) as (d' & r' & E4 & SC).
  assert (X: d' = None) by (apply (ok_none _ _ _ _ _ E4)).
  subst d'. exists r3, r'. repeat (split; [assumption|]). exact SC.
Qed.

(** ** Building *)

Variable is_pred is_succ : N -> N -> bool.

(** Two roads of which one is next to the other, at the end given by the direction. *)
Lemma dir_spec wp rf suc w : CalculcateWPDirWrtWP road is_pred is_succ wp rf suc = Some w ->
  w_track w = w_track wp /\ w_lane w = w_lane wp /\ w_s w = w_s wp /\ w_rs w = w_rs wp /\
  (w_track rf = w_track wp -> (w_dir w = if suc then if Qltb (w_s rf) (w_s wp) then 1 else -1 else if Qltb (w_s wp) (w_s rf) then 1 else -1)%Z) /\
  (w_track rf <> w_track wp -> is_pred (w_track wp) (w_track rf) = true -> w_dir w = if suc then 1%Z else (-1)%Z) /\
  (w_track rf <> w_track wp -> is_pred (w_track wp) (w_track rf) = false -> is_succ (w_track wp) (w_track rf) = true -> w_dir w = if suc then (-1)%Z else 1%Z) /\
  (w_track rf <> w_track wp -> is_pred (w_track wp) (w_track rf) = false -> is_succ (w_track wp) (w_track rf) = false -> w_dir w = w_dir wp).
Proof.
  unfold CalculcateWPDirWrtWP. destruct (road (w_track rf)), (road (w_track wp)); try discriminate. intro E. injection E as <-.
  destruct (N.eqb_spec (w_track rf) (w_track wp)) as [T|T].
  - destruct suc, (Qltb (w_s rf) (w_s wp)), (Qltb (w_s wp) (w_s rf)); cbn; repeat split; congruence.
  - destruct (is_pred (w_track wp) (w_track rf)), (is_succ (w_track wp) (w_track rf)), suc; cbn; repeat split; congruence.
Qed.

Definition next_road (a b : waypoint) : Prop := w_track a <> w_track b /\ (is_pred (w_track b) (w_track a) = true \/ is_succ (w_track b) (w_track a) = true).

Lemma dir_next wp rf suc w : CalculcateWPDirWrtWP road is_pred is_succ wp rf suc = Some w ->
  w_track rf <> w_track wp -> is_pred (w_track wp) (w_track rf) = true \/ is_succ (w_track wp) (w_track rf) = true -> (w_dir w = 1 \/ w_dir w = -1)%Z.
Proof.
  intros E T H. destruct (dir_spec wp rf suc w E) as (_ & _ & _ & _ & _ & P & S & _).
  destruct (is_pred (w_track wp) (w_track rf)) eqn:X; [rewrite (P T eq_refl); destruct suc; auto|]. destruct H as [H|H]; [discriminate|]. rewrite (S T eq_refl H). destruct suc; auto.
Qed.

Definition on_road (w : waypoint) : Prop := exists len, road (w_track w) = Some len /\ 0 <= w_s w <= len.

Lemma replace_chain l : forall p s L, replace_loop road is_pred is_succ p s l = Some L -> good p -> s == w_rs p -> Forall on_road l ->
  (forall i a b, nth_error (p :: l) i = Some a -> nth_error (p :: l) (S i) = Some b -> next_road a b) ->
  (forall w, In w (p :: L) -> good w) /\ (forall i a b, nth_error (p :: L) i = Some a -> nth_error (p :: L) (S i) = Some b -> linked a b) /\
  List.length L = List.length l /\ (forall i w, nth_error l i = Some w -> exists w', nth_error L i = Some w' /\ w_track w' = w_track w /\ w_lane w' = w_lane w /\ w_s w' = w_s w).
Proof.
  induction l as [|w l IH]; intros p s L E Gp Sp Fo Nx; cbn [replace_loop] in E.
  - injection E as <-. split; [intros w [<-|[]]; exact Gp|]. split; [intros [|[|i]] a b A B; discriminate|]. split; [reflexivity|]. intros [|i] w W; discriminate.
  - destruct (CalculcateWPDirWrtWP road is_pred is_succ w p true) as [w1|] eqn:W1; [|discriminate].
    pose proof (dir_spec _ _ _ _ W1) as (T1 & L1 & S1 & _). pose proof (Nx 0%nat p w eq_refl eq_refl) as (Nt & Nc). pose proof (dir_next _ _ _ _ W1 Nt Nc) as Dw.
    destruct (road (w_track p)) as [plen|] eqn:Rp; [|discriminate]. destruct (road (w_track w)) as [len|] eqn:Rw; [|discriminate]. rewrite <- T1 in Rw.
    set (s1 := s + (if (w_dir p =? -1)%Z then w_s p else plen - w_s p) + (if (w_dir w1 =? -1)%Z then len - w_s w1 else w_s w1)) in *.
    destruct (replace_loop road is_pred is_succ (set_rs s1 w1) s1 l) as [L'|] eqn:E'; [|discriminate]. cbn in E. injection E as <-.
    inversion Fo as [|? ? Fw Fl]; subst. assert (Gw: good (set_rs s1 w1)).
    { split; [exact Dw|]. cbn. destruct Fw as (len' & F1 & F2). exists len'. rewrite T1, S1. auto. }
    destruct (IH (set_rs s1 w1) s1 L' E' Gw ltac:(reflexivity) Fl) as (I1 & I2 & I3 & I4).
    { intros [|i] a b A B; [|apply (Nx (S (S i))); [exact A|exact B]]. injection A as <-. destruct (Nx 1%nat w b eq_refl B) as (X & Y). split; cbn; rewrite T1; auto. }
    assert (LK: linked p (set_rs s1 w1)).
    { left. exists plen, len. split; [exact Rp|]. split; [cbn; exact Rw|]. unfold ahead, behind. cbn [set_rs w_rs w_dir w_s].
      destruct Gp as (Dp & _). unfold s1. destruct Dp as [Dp | Dp], Dw as [Dw | Dw]; rewrite Dp, Dw; cbn [Z.eqb Pos.eqb]; lra. }
    split; [intros v [<-|V]; auto|]. split.
    + intros [|i] a b A B; [injection A as <-; injection B as <-; exact LK|]. apply (I2 i); [exact A|exact B].
    + split; [cbn; lia|]. intros [|i] v V; [injection V as <-; eexists; split; [reflexivity|]; cbn; auto|]. apply I4. exact V.
Qed.

Lemma replace_spec r a b l r' : ReplaceMinimalWaypoints road is_pred is_succ r (a :: b :: l) = Some (0%Z, r') -> Forall on_road (a :: b :: l) ->
  (is_pred (w_track a) (w_track b) = true \/ is_succ (w_track a) (w_track b) = true) ->
  (forall i u v, nth_error (a :: b :: l) i = Some u -> nth_error (a :: b :: l) (S i) = Some v -> next_road u v) ->
  chained (minimal r') /\ List.length (minimal r') = List.length (a :: b :: l) /\
  (forall i w, nth_error (a :: b :: l) i = Some w -> exists w', nth_error (minimal r') i = Some w' /\ w_track w' = w_track w /\ w_lane w' = w_lane w /\ w_s w' = w_s w) /\
  rlength r' = rlength r.
Proof.
  intros E Fo Cn Nx. unfold ReplaceMinimalWaypoints in E. destruct (CalculcateWPDirWrtWP road is_pred is_succ a b false) as [a1|] eqn:A1; [|discriminate].
  pose proof (dir_spec _ _ _ _ A1) as (T1 & L1 & S1 & _). pose proof (Nx 0%nat a b eq_refl eq_refl) as (Nt & _).
  pose proof (dir_next _ _ _ _ A1 (not_eq_sym Nt) Cn) as Da.
  destruct (replace_loop road is_pred is_succ (set_rs 0 a1) 0 (b :: l)) as [L|] eqn:E'; [|discriminate]. cbn [option_map] in E. apply (f_equal (option_map snd)) in E. cbn [option_map snd] in E. injection E as <-. cbn [minimal rlength].
  inversion Fo as [|? ? Fa Fl]; subst. assert (Ga: good (set_rs 0 a1)). { split; [exact Da|]. destruct Fa as (len & F1 & F2). exists len. cbn. rewrite T1, S1. auto. }
  destruct (replace_chain (b :: l) (set_rs 0 a1) 0 L E' Ga ltac:(reflexivity) Fl) as (I1 & I2 & I3 & I4).
  { intros [|i] u v U V; [|apply (Nx (S i)); [exact U|exact V]]. injection U as <-. destruct (Nx 0%nat a v eq_refl V) as (X & Y). split; cbn; rewrite T1; auto. }
  split; [split; [exact I1|split; [exact I2|intros u U; injection U as <-; reflexivity]]|]. split; [cbn in *; lia|]. split; [|reflexivity].
  intros [|i] w W; [injection W as <-; eexists; split; [reflexivity|]; cbn; auto|]. apply I4. exact W.
Qed.

(** Adding waypoints. *)
Variable path : waypoint -> waypoint -> Z * Q * list waypoint.
Variable distance : waypoint -> waypoint -> option Q.
Variable D : N * Z * Q -> N * Z * Q -> Q.
Definition place (w : waypoint) : N * Z * Q := (w_track w, w_lane w, w_s w).

(** The length of a way through the given places. *)
Fixpoint way (l : list waypoint) : Q := match l with a :: (b :: _) as t => D (place a) (place b) + way t | _ => 0 end.

(** What the oracles report agrees with the distance [D]. *)
Definition faithful : Prop :=
  (forall a b d, distance a b = Some d -> Qabs d == D (place a) (place b)) /\
  (forall a b d mids, path a b = (0%Z, d, mids) -> Qabs d == way (a :: mids ++ [b])).

(** Each waypoint is as far along the route as the distances between the waypoints add up to. *)
Definition spread (l : list waypoint) : Prop := forall i a b, nth_error l i = Some a -> nth_error l (S i) = Some b -> w_rs b - w_rs a == D (place a) (place b).
Definition back_at (l : list waypoint) (s : Q) : Prop := forall e, head (rev l) = Some e -> w_rs e == s.
Definition aligned (r : route) : Prop := option_map place (head (rev (all_wp r))) = option_map place (head (rev (minimal r))).

Lemma head_rev_snoc {A} (l : list A) a : head (rev (l ++ [a])) = Some a.
Proof. rewrite rev_app_distr. reflexivity. Qed.

Lemma head_rev_some {A} (l : list A) : l <> [] -> exists l' a, l = l' ++ [a].
Proof. intro H. destruct (exists_last H) as (l' & a & ->). eauto. Qed.

Lemma spread_snoc l a b : spread (l ++ [a]) -> w_rs b - w_rs a == D (place a) (place b) -> spread ((l ++ [a]) ++ [b]).
Proof.
  intros Sp E i u v U V. assert (Iv: (S i < List.length ((l ++ [a]) ++ [b]))%nat) by (apply nth_error_Some; congruence). rewrite !app_length in Iv. cbn in Iv.
  rewrite nth_error_app1 in U by (rewrite app_length; cbn; lia).
  destruct (Nat.eq_dec i (List.length l)) as [->|Ne].
  - rewrite nth_error_app2, Nat.sub_diag in U by lia. injection U as <-.
    rewrite nth_error_app2 in V by (rewrite app_length; cbn; lia). rewrite app_length in V. cbn [List.length] in V. replace (S (List.length l) - (List.length l + 1))%nat with 0%nat in V by lia. injection V as <-. exact E.
  - rewrite nth_error_app1 in V by (rewrite app_length; cbn; lia). apply (Sp i); auto.
Qed.

Lemma spread_ext l l' : map place l = map place l' -> map w_rs l = map w_rs l' -> spread l -> spread l'.
Proof.
  intros P R Sp i a b A B. assert (X: forall j w', nth_error l' j = Some w' -> exists w, nth_error l j = Some w /\ place w = place w' /\ w_rs w = w_rs w').
  { intros j w' W. pose proof (f_equal (fun l => nth_error l j) P) as P'. pose proof (f_equal (fun l => nth_error l j) R) as R'. cbn beta in P', R'. rewrite !nth_error_map, W in P', R'.
    destruct (nth_error l j) as [w|]; [|discriminate]. cbn [option_map] in P', R'. exists w. split; auto. split; congruence. }
  destruct (X _ _ A) as (a0 & A0 & PA & RA). destruct (X _ _ B) as (b0 & B0 & PB & RB). rewrite <- PA, <- PB, <- RA, <- RB. apply (Sp i); auto.
Qed.

Lemma dir_place wp rf suc w : CalculcateWPDirWrtWP road is_pred is_succ wp rf suc = Some w -> place w = place wp /\ w_rs w = w_rs wp.
Proof. intro E. destruct (dir_spec _ _ _ _ E) as (A & B & C & R & _). unfold place. rewrite A, B, C. auto. Qed.

(** Appending a found waypoint: the list is the old one with the new place at its end. *)
Lemma internal_found r wp sc r' : AddWaypointInternal road is_pred is_succ r wp sc true = Some r' -> all_wp r <> [] -> minimal r <> [] -> aligned r ->
  map place (minimal r') = map place (minimal r) ++ [place wp] /\ map w_rs (minimal r') = map w_rs (minimal r) ++ [w_rs wp] /\
  rlength r' = rlength r /\ aligned r' /\ all_wp r' <> [] /\ minimal r' <> [] /\ invalid r' = invalid r /\ path_s r' = path_s r.
Proof.
  unfold AddWaypointInternal. intros E Na Nm Al. destruct (all_wp r) as [|f m] eqn:A; [congruence|].
  assert (X: forall q, map place (minimal q) = map place (minimal r) -> map w_rs (minimal q) = map w_rs (minimal r) -> rlength q = rlength r -> invalid q = invalid r -> path_s q = path_s r -> all_wp q <> [] ->
    match head (rev (all_wp q)) with None => None | Some back =>
      match CalculcateWPDirWrtWP road is_pred is_succ wp back true with None => None | Some wp =>
        Some (Route (minimal q ++ [wp]) (all_wp q ++ [wp]) (if sc then scenario q ++ [wp] else scenario q) (path_s q) (rlength q) (widx q) (on_route q) (invalid q) (cur q)) end end = Some r' ->
    map place (minimal r') = map place (minimal r) ++ [place wp] /\ map w_rs (minimal r') = map w_rs (minimal r) ++ [w_rs wp] /\
    rlength r' = rlength r /\ aligned r' /\ all_wp r' <> [] /\ minimal r' <> [] /\ invalid r' = invalid r /\ path_s r' = path_s r).
  { intros q P R L Iv Ps Nq H. destruct (head (rev (all_wp q))) as [bk|]; [|discriminate]. destruct (CalculcateWPDirWrtWP road is_pred is_succ wp bk true) as [w|] eqn:W; [|discriminate].
    destruct (dir_place _ _ _ _ W) as (PW & RW). injection H as <-. cbn. rewrite !map_app, P, R. cbn [map]. rewrite PW, RW.
    split; [reflexivity|]. split; [reflexivity|]. split; [exact L|]. split.
    - unfold aligned. cbn. rewrite !head_rev_snoc. reflexivity.
    - repeat split; auto; intro X; apply app_eq_nil in X; destruct X; discriminate. }
  destruct m as [|g m].
  - destruct (CalculcateWPDirWrtWP road is_pred is_succ f wp false) as [f'|] eqn:F; [|discriminate]. destruct (scenario r) as [|s0 ss]; [discriminate|]. destruct (minimal r) as [|m0 ms] eqn:M; [discriminate|].
    apply (X (Route (on_head (set_dir (w_dir f')) (m0 :: ms)) [f'] (on_head (set_dir (w_dir f')) (s0 :: ss)) (path_s r) (rlength r) (widx r) (on_route r) (invalid r) (cur r))); auto; cbn; discriminate.
  - apply (X r); auto. rewrite A. discriminate.
Qed.

Lemma head_rev_map {A B} (f : A -> B) l : option_map f (head (rev l)) = head (rev (map f l)).
Proof. destruct l as [|a l]; [reflexivity|]. destruct (head_rev_some (a :: l)) as (l' & e & ->); [discriminate|]. rewrite map_app. cbn [map]. rewrite !head_rev_snoc. reflexivity. Qed.

(** One step: the new waypoint is as far from the last as the distance along the way, those in between too. *)
Lemma step_found r wp sc r' e acc : AddWaypointInternal road is_pred is_succ r wp sc true = Some r' -> all_wp r <> [] -> aligned r -> spread (minimal r) ->
  head (rev (minimal r)) = Some e -> w_rs e == acc -> w_rs wp == acc + D (place e) (place wp) ->
  spread (minimal r') /\ (exists e', head (rev (minimal r')) = Some e' /\ place e' = place wp /\ w_rs e' = w_rs wp) /\ rlength r' = rlength r /\ aligned r' /\ all_wp r' <> [].
Proof.
  intros E Na Al Sp He Re Rw. assert (Nm: minimal r <> []) by (intro X; rewrite X in He; discriminate).
  destruct (internal_found _ _ _ _ E Na Nm Al) as (P & R & L & A' & N' & M' & _). destruct (head_rev_some (minimal r) Nm) as (l & e' & M). rewrite M, head_rev_snoc in He. injection He as ->.
  split.
  - apply (spread_ext ((l ++ [e]) ++ [wp])); [rewrite P, M, (map_app place (l ++ [e])); reflexivity|rewrite R, M, (map_app w_rs (l ++ [e])); reflexivity|].
    apply spread_snoc; [rewrite <- M; exact Sp|lra].
  - split; auto. pose proof (head_rev_map place (minimal r')) as HP. pose proof (head_rev_map w_rs (minimal r')) as HR. rewrite P, head_rev_snoc in HP. rewrite R, head_rev_snoc in HR.
    destruct (head (rev (minimal r'))) as [z|]; [|discriminate]. exists z. split; auto. cbn in HP, HR. split; congruence.
Qed.

Lemma mids_spread mids : forall r e acc r', faithful -> add_mids road is_pred is_succ distance r acc mids = Some r' -> all_wp r <> [] -> aligned r -> spread (minimal r) ->
  head (rev (minimal r)) = Some e -> w_rs e == acc ->
  spread (minimal r') /\ rlength r' = rlength r /\ aligned r' /\ all_wp r' <> [] /\
  exists e', head (rev (minimal r')) = Some e' /\ forall b, w_rs e' + D (place e') (place b) == acc + way (e :: mids ++ [b]).
Proof.
  induction mids as [|m mids IH]; intros r e acc r' Fa E Na Al Sp He Re; cbn [add_mids] in E.
  - injection E as <-. split; auto. split; auto. split; auto. split; auto. exists e. split; auto. intro b. cbn. rewrite Re. lra.
  - destruct (head (rev (all_wp r))) as [bk|] eqn:B; [|discriminate]. destruct (distance bk m) as [d|] eqn:Dd; [|discriminate].
    destruct (AddWaypointInternal road is_pred is_succ r (set_rs (acc + Qabs d) m) false true) as [r1|] eqn:E1; [|discriminate].
    assert (PB: place bk = place e). { unfold aligned in Al. rewrite B, He in Al. cbn in Al. congruence. }
    destruct Fa as (F1 & F2). pose proof (F1 _ _ _ Dd) as Fd. rewrite PB in Fd.
    destruct (step_found r _ _ r1 e acc E1 Na Al Sp He Re) as (S1 & (e1 & H1 & P1 & R1) & L1 & A1 & N1). { cbn. change (place (set_rs (acc + Qabs d) m)) with (place m). lra. }
    destruct (IH r1 e1 (acc + Qabs d) r' (conj F1 F2) E N1 A1 S1 H1) as (S2 & L2 & A2 & N2 & (e2 & H2 & R2)). { rewrite R1. reflexivity. }
    split; auto. split; [congruence|]. split; auto. split; auto. exists e2. split; auto. intro b. rewrite (R2 b). cbn [app way].
    change (place (set_rs (acc + Qabs d) m)) with (place m) in P1.
    assert (W: way (e1 :: mids ++ [b]) == way (m :: mids ++ [b])). { destruct (mids ++ [b]) as [|x y]; [reflexivity|]. cbn [way]. rewrite P1. reflexivity. }
    rewrite W. destruct mids; cbn [app way]; lra.
Qed.

Lemma add_spread r wp r' e d mids : faithful -> AddWaypoint road is_pred is_succ path distance r wp = Some r' -> all_wp r <> [] -> aligned r -> spread (minimal r) ->
  head (rev (minimal r)) = Some e -> w_rs e == rlength r -> drop_previous r (w_track wp) = Some r -> path e wp = (0%Z, d, mids) ->
  spread (minimal r') /\ aligned r' /\ all_wp r' <> [] /\ exists e', head (rev (minimal r')) = Some e' /\ place e' = place wp /\ w_rs e' == rlength r' /\ rlength r' == rlength r + way (e :: mids ++ [wp]).
Proof.
  intros Fa E Na Al Sp He Re Dp Pa. unfold AddWaypoint in E. rewrite Dp, He, Pa in E. cbn [Z.eqb] in E. destruct (minimal r) as [|m0 ms] eqn:M; [discriminate|]. rewrite <- M in *.
  destruct (add_mids road is_pred is_succ distance r (rlength r) mids) as [r1|] eqn:E1; [|discriminate].
  destruct (mids_spread mids r e (rlength r) r1 Fa E1 Na Al Sp He Re) as (S1 & L1 & A1 & N1 & (e1 & H1 & R1)).
  pose proof (proj2 Fa _ _ _ _ Pa) as Fd. set (len := rlength r1 + Qabs d) in *.
  destruct (step_found _ _ _ r' e1 (w_rs e1) E) as (S2 & (e2 & H2 & P2 & R2) & L2 & A2 & N2); auto; try reflexivity.
  { cbn. change (place (set_rs len wp)) with (place wp). rewrite (R1 wp). unfold len. rewrite L1. lra. }
  split; auto. split; auto. split; auto. exists e2. split; auto. split; [exact P2|]. rewrite R2, L2. cbn. split; [reflexivity|]. unfold len. rewrite L1, Fd. reflexivity.
Qed.

Lemma mids_places mids : forall r acc r', add_mids road is_pred is_succ distance r acc mids = Some r' -> all_wp r <> [] -> minimal r <> [] -> aligned r ->
  map place (minimal r') = map place (minimal r) ++ map place mids /\ all_wp r' <> [] /\ minimal r' <> [] /\ aligned r'.
Proof.
  induction mids as [|m mids IH]; intros r acc r' E Na Nm Al; cbn [add_mids] in E.
  - injection E as <-. rewrite app_nil_r. auto.
  - destruct (head (rev (all_wp r))) as [bk|]; [|discriminate]. destruct (distance bk m) as [d|]; [|discriminate].
    destruct (AddWaypointInternal road is_pred is_succ r (set_rs (acc + Qabs d) m) false true) as [r1|] eqn:E1; [|discriminate].
    destruct (internal_found _ _ _ _ E1 Na Nm Al) as (P & _ & _ & A1 & N1 & M1 & _). destruct (IH _ _ _ E N1 M1 A1) as (P2 & N2 & M2 & A2).
    split; auto. rewrite P2, P, <- app_assoc. reflexivity.
Qed.

Lemma add_places r wp r' e d mids : AddWaypoint road is_pred is_succ path distance r wp = Some r' -> all_wp r <> [] -> aligned r ->
  head (rev (minimal r)) = Some e -> drop_previous r (w_track wp) = Some r -> path e wp = (0%Z, d, mids) ->
  map place (minimal r') = map place (minimal r) ++ map place mids ++ [place wp].
Proof.
  intros E Na Al He Dp Pa. unfold AddWaypoint in E. rewrite Dp, He, Pa in E. cbn [Z.eqb] in E. destruct (minimal r) as [|m0 ms] eqn:M; [discriminate|]. rewrite <- M in *.
  destruct (add_mids road is_pred is_succ distance r (rlength r) mids) as [r1|] eqn:E1; [|discriminate].
  destruct (mids_places _ _ _ _ E1 Na) as (P1 & N1 & M1 & A1); auto; [rewrite M; discriminate|].
  destruct (internal_found _ _ _ _ E) as (P2 & _); auto. rewrite P2. cbn. rewrite P1, <- app_assoc. reflexivity.
Qed.

(** A route to which waypoints were added one after the other, each on another road than the one before and within reach, and none taken away. *)
Inductive grown : list waypoint -> route -> Prop :=
| grown_first r w r' : minimal r = [] -> all_wp r = [] -> rlength r == 0 -> w_rs w == 0 -> AddWaypoint road is_pred is_succ path distance r w = Some r' -> grown [w] r'
| grown_next l r w r' e d mids : grown l r -> head (rev (minimal r)) = Some e -> drop_previous r (w_track w) = Some r -> path e w = (0%Z, d, mids) ->
    AddWaypoint road is_pred is_succ path distance r w = Some r' -> grown (l ++ mids ++ [w]) r'.

Lemma grown_inv l r : faithful -> grown l r ->
  spread (minimal r) /\ aligned r /\ all_wp r <> [] /\ (exists e, head (rev (minimal r)) = Some e /\ option_map place (head (rev l)) = Some (place e) /\ w_rs e == rlength r) /\ rlength r == way l /\ minimal r <> [] /\ map place (minimal r) = map place l.
Proof.
  intros Fa G. induction G as [r w r' M A L W E | l r w r' e d mids G (I1 & I2 & I3 & (e0 & I4 & I5 & I6) & I7 & I8 & I9) He Dp Pa E].
  - unfold AddWaypoint in E. rewrite M in E. unfold AddWaypointInternal in E. cbn in E. rewrite A, M in E. injection E as <-. cbn.
    split; [intros [|[|i]] a b U V; discriminate|]. split; [reflexivity|]. split; [discriminate|]. split; [|split; [exact L|split; [discriminate|reflexivity]]].
    exists w. split; [reflexivity|]. split; [reflexivity|]. lra.
  - assert (e0 = e) by congruence. subst e0.
    destruct (add_spread r w r' e d mids Fa E I3 I2 I1 He I6 Dp Pa) as (S1 & A1 & N1 & (e1 & H1 & P1 & R1 & L1)).
    split; auto. split; auto. split; auto. assert (Nl: l <> []) by (intro X; subst l; discriminate). destruct (head_rev_some l Nl) as (l' & x & El). subst l. rewrite head_rev_snoc in I5. cbn [option_map] in I5. assert (Px: place x = place e) by congruence.
    split; [exists e1; split; auto; split; auto; rewrite !app_assoc, head_rev_snoc; cbn; congruence|]. split; [|split; [intro X; rewrite X in H1; discriminate|rewrite (add_places _ _ _ _ _ _ E I3 I2 He Dp Pa), I9, !map_app; reflexivity]].
    rewrite L1, I7. clear - Px.
    assert (X: forall l', way ((l' ++ [x]) ++ mids ++ [w]) == way (l' ++ [x]) + way (x :: mids ++ [w])).
    { clear l'. induction l' as [|a l' IH]; [cbn [app]; change (way [x]) with 0; lra|]. destruct (l' ++ [x]) as [|b t] eqn:B; [destruct l'; discriminate|].
      cbn [app]. rewrite B. cbn [app]. cbn [app] in IH. change (way (a :: b :: t ++ mids ++ [w])) with (D (place a) (place b) + way (b :: t ++ mids ++ [w])).
      change (way (a :: b :: t)) with (D (place a) (place b) + way (b :: t)). rewrite IH. lra. }
    rewrite X. assert (W: way (x :: mids ++ [w]) == way (e :: mids ++ [w])). { destruct (mids ++ [w]) as [|y z]; [reflexivity|]. cbn [way]. rewrite Px. reflexivity. }
    rewrite W. reflexivity.
Qed.

End Route.
