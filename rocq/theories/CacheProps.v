(** * Cached distances: property C58 *)
From Coq Require Import Reals Bool List ZArith NArith Lra Lia.
From Verif Require Import AngModel GeoModel BoxProofs GapModel CacheModel CacheProofs.
Import ListNotations.
Open Scope R_scope.

(** Pairs of ids, in either order, never share an entry. *)
Theorem C58_key a b c d : int32 a -> int32 b -> int32 c -> int32 d -> GenerateKey a b = GenerateKey c d -> a = c /\ b = d.
Proof. apply key_inj. Qed.

(** An answer is given exactly for active objects; with return value 0 it is measured now; otherwise the objects are more than 500 metres apart or
    the value is not due yet, and no object was teleported. *)
Theorem C58_answer qs q r o : (forall p, In p (qs ++ [q]) -> int32 (q_from p) /\ int32 (q_to p)) -> (snd (fst (ask (run qs) q)), snd (ask (run qs) q)) = (r, o) ->
  let w := q_scene q in let a := q_from q in let b := q_to q in
  match o with
  | None => r = (-1)%Z /\ (s_active w a = false \/ s_active w b = false)
  | Some (d, tau) => s_active w a = true /\ s_active w b = true /\
      ((r = 0%Z /\ d = s_dist w a b (q_type q) /\ tau = s_time w) \/ (r = (-2)%Z /\ 250000 < squared w a b) \/
       (r = (-2)%Z /\ s_teleported w a = false /\ s_teleported w b = false /\
        (s_time w <= 0 \/ exists p, In p qs /\ (q_from p = a /\ q_to p = b \/ q_from p = b /\ q_to p = a) /\ s_time w <= s_time (q_scene p) + 3)))
  end.
Proof.
  intros I E w a b. injection E as E1 E2. destruct o as [[d tau]|].
  - destruct (ask (run qs) q) as [[c' r'] o'] eqn:A. cbn [fst snd] in E1, E2. subst r' o'. apply ask_spec in A. destruct A as (A1 & A2 & A). split; [exact A1|]. split; [exact A2|].
    destruct A as [A|[A|(A & _ & e & Ee & _ & Ne & T1 & T2)]]; [left; exact A|right; left; exact A|]. right. right. split; [exact A|]. split; [exact T1|]. split; [exact T2|].
    assert (IV: Inv qs (run qs)) by (apply run_inv; intros p Ip; apply I, in_or_app; left; exact Ip).
    destruct (I q) as (I1 & I2); [apply in_or_app; right; left; reflexivity|]. destruct (IV a b e I1 I2 Ee) as (_ & [N|(p & Ip & P & N)]); fold w in Ne; [left; lra|]. right. exists p. split; [exact Ip|]. split; [exact P|]. lra.
  - apply ask_refused in E2. split; [|exact E2]. rewrite <- E1. unfold ask, GetDistance. destruct E2 as [->| ->]; cbn [negb orb]; [reflexivity|]. rewrite orb_true_r. reflexivity.
Qed.

(** Whatever was asked before, an answer of another kind than the absolute distance was measured for this pair at the time given, or it is the initial value. *)
Theorem C58_measured qs q d tau : (forall p, In p (qs ++ [q]) -> int32 (q_from p) /\ int32 (q_to p)) -> snd (ask (run qs) q) = Some (d, tau) -> q_type q <> REL_DIST_EUCLIDIAN_ABS ->
  (d = 10000 /\ tau = 0) \/ exists p, In p (qs ++ [q]) /\ q_from p = q_from q /\ q_to p = q_to q /\ q_type p = q_type q /\ tau = s_time (q_scene p) /\ d = s_dist (q_scene p) (q_from q) (q_to q) (q_type q).
Proof.
  intros I E NT. assert (IV: Inv (qs ++ [q]) (run (qs ++ [q]))) by (apply run_inv; exact I). rewrite run_app in IV. destruct (I q) as (I1 & I2); [apply in_or_app; right; left; reflexivity|].
  assert (K: exists e, fst (fst (ask (run qs) q)) (GenerateKey (q_from q) (q_to q)) = Some e /\ e_meas e (q_type q) = (d, tau)).
  { revert E. unfold ask, GetDistance. destruct (negb _ || negb _); [discriminate|]. destruct (if needs_update _ _ _ _ _ then _ else _) as [c' u]. destruct (c' _) as [e|] eqn:Ee; [|discriminate]. cbn [fst snd]. intro E. exists e. split; [exact Ee|congruence]. }
  destruct K as (e & Ee & M). destruct (IV _ _ e I1 I2 Ee) as (KN & _). specialize (KN (q_type q)). rewrite M in KN. cbn [fst snd] in KN.
  destruct KN as [K|[K|(K & _)]]; [left; exact K|right; exact K|contradiction].
Qed.

(** The absolute distance too, if the objects never were far apart. *)
Theorem C58_measured_near qs q d tau : (forall p, In p (qs ++ [q]) -> int32 (q_from p) /\ int32 (q_to p)) -> snd (ask (run qs) q) = Some (d, tau) ->
  (forall p, In p (qs ++ [q]) -> squared (q_scene p) (q_from q) (q_to q) <= 250000) ->
  (d = 10000 /\ tau = 0) \/ exists p, In p (qs ++ [q]) /\ q_from p = q_from q /\ q_to p = q_to q /\ q_type p = q_type q /\ tau = s_time (q_scene p) /\ d = s_dist (q_scene p) (q_from q) (q_to q) (q_type q).
Proof.
  intros I E NF. assert (IV: Inv (qs ++ [q]) (run (qs ++ [q]))) by (apply run_inv; exact I). rewrite run_app in IV. destruct (I q) as (I1 & I2); [apply in_or_app; right; left; reflexivity|].
  assert (K: exists e, fst (fst (ask (run qs) q)) (GenerateKey (q_from q) (q_to q)) = Some e /\ e_meas e (q_type q) = (d, tau)).
  { revert E. unfold ask, GetDistance. destruct (negb _ || negb _); [discriminate|]. destruct (if needs_update _ _ _ _ _ then _ else _) as [c' u]. destruct (c' _) as [e|] eqn:Ee; [|discriminate]. cbn [fst snd]. intro E. exists e. split; [exact Ee|congruence]. }
  destruct K as (e & Ee & M). destruct (IV _ _ e I1 I2 Ee) as (KN & _). specialize (KN (q_type q)). rewrite M in KN. cbn [fst snd] in KN.
  destruct KN as [K|[K|(_ & p & Ip & _ & _ & Sq & L)]]; [left; exact K|right; exact K|]. specialize (NF p Ip). lra.
Qed.

(** ** Where the answer is not the distance *)

(** Object 1 stands at 0, object 2 at [x], object 3 at 1000 metres. *)
Definition at_time (tau x : R) : scene :=
  Scene tau (fun _ => true) (fun _ => false) (fun o => match o with 1%Z => 0 | 2%Z => x | _ => 1000 end) (fun _ => 0) (fun a b t => match t with REL_DIST_LATERAL => 0 | _ => x end).

(** The absolute distance of objects far apart is answered with its square: a million metres instead of a thousand. *)
Theorem C58_squared_refuted : snd (ask (fun _ => None) (Query (at_time 5 1000) 1 3 REL_DIST_EUCLIDIAN_ABS 100)) = Some (1000000, 5) /\ s_x (at_time 5 1000) 3 - s_x (at_time 5 1000) 1 = 1000.
Proof.
  split; [|cbn; lra]. unfold ask, GetDistance. cbn [q_scene q_from q_to q_type q_limit s_active at_time negb orb needs_update]. unfold UpdateDistance. rewrite !get_put_self. cbn [get]. change (get (fun _ => None) (GenerateKey 1 3)) with new_entry. cbn [e_meas new_entry fst].
  assert (S: squared (at_time 5 1000) 1 3 = 1000000) by (unfold squared, at_time; cbn; ring). fold (at_time 5 1000). rewrite S. unfold SMALL_NUMBER. destruct (Rltb_spec (10000 - 1 / 1000000) 10000); [|lra]. destruct (Rltb_spec 250000 1000000); [|lra]. cbn [andb].
  rewrite put_other by (intro K; vm_compute in K; discriminate). rewrite put_same. reflexivity.
Qed.

(** At time 0 the second of two objects asking for each other gets the initial value. *)
Theorem C58_second_refuted x : 0 <= x <= 100 -> snd (ask (run [Query (at_time 0 x) 1 2 REL_DIST_EUCLIDIAN 200]) (Query (at_time 0 x) 2 1 REL_DIST_EUCLIDIAN 200)) = Some (10000, 0).
Proof.
  intro X. unfold run. cbn [fold_left]. set (c := fst (fst _)). assert (E: c (GenerateKey 2 1) = Some new_entry).
  { subst c. unfold ask, GetDistance. cbn [q_scene q_from q_to q_type q_limit s_active at_time negb orb needs_update]. unfold UpdateDistance. fold (at_time 0 x). 
    assert (S: squared (at_time 0 x) 1 2 = x * x) by (unfold squared, at_time; cbn; ring). rewrite S. destruct (Rltb_spec 250000 (x * x)); [nra|]. rewrite andb_false_r. rewrite put_same. cbn [fst].
    rewrite put_other by (intro K; vm_compute in K; discriminate). rewrite put_same. reflexivity. }
  clearbody c. unfold ask, GetDistance. cbn [q_scene q_from q_to q_type q_limit s_active at_time negb orb]. unfold needs_update. rewrite E. cbn [e_next new_entry s_time s_teleported at_time]. destruct (Rltb_spec 0 0); [lra|]. cbn [orb]. rewrite E. reflexivity.
Qed.

(** Two kinds of distance asked for one after the other at every step: the second is never measured, however long it takes. *)
Definition both (tau : R) : list query := [Query (at_time tau 50) 1 2 REL_DIST_LONGITUDINAL 200; Query (at_time tau 50) 1 2 REL_DIST_LATERAL 200].

Lemma first_asked c tau : (forall e, c (GenerateKey 1 2) = Some e -> e_meas e REL_DIST_LATERAL = (10000, 0)) ->
  exists e, fst (fst (ask c (Query (at_time tau 50) 1 2 REL_DIST_LONGITUDINAL 200))) (GenerateKey 1 2) = Some e /\ e_meas e REL_DIST_LATERAL = (10000, 0) /\ tau <= e_next e.
Proof.
  intro H. unfold ask, GetDistance. cbn [q_scene q_from q_to q_type q_limit s_active at_time negb orb]. fold (at_time tau 50).
  assert (UP: let '(c', u) := UpdateDistance c (at_time tau 50) 1 2 REL_DIST_LONGITUDINAL (GenerateKey 1 2) (GenerateKey 2 1) 200 in exists e, c' (GenerateKey 1 2) = Some e /\ e_meas e REL_DIST_LATERAL = (10000, 0) /\ tau <= e_next e).
  { unfold UpdateDistance. assert (S: squared (at_time tau 50) 1 2 = 2500) by (unfold squared, at_time; cbn; ring). rewrite S. destruct (Rltb_spec 250000 2500); [lra|]. rewrite andb_false_r. rewrite put_same. eexists. split; [reflexivity|].
    cbn [store e_meas e_next rdt_eqb s_dist s_time at_time]. rewrite !get_put_self. split; [|destruct (Rltb_spec 200 50); lra]. unfold get. destruct (c (GenerateKey 1 2)) as [e|] eqn:E; [apply H; reflexivity|reflexivity]. }
  unfold needs_update. destruct (c (GenerateKey 1 2)) as [e|] eqn:E.
  - cbn [s_time s_teleported at_time orb]. rewrite !orb_false_r. fold (at_time tau 50). destruct (Rltb_spec (e_next e) tau) as [L|L].
    + destruct (UpdateDistance _ _ _ _ _ _ _ _) as [c' u]. destruct UP as (e' & E' & UP). exists e'. rewrite E'. split; [exact E'|exact UP].
    + rewrite E. exists e. split; [exact E|]. split; [apply H; reflexivity|lra].
  - destruct (UpdateDistance _ _ _ _ _ _ _ _) as [c' u]. destruct UP as (e' & E' & UP). exists e'. rewrite E'. split; [exact E'|exact UP].
Qed.

Lemma then_asked c tau e : c (GenerateKey 1 2) = Some e -> tau <= e_next e -> ask c (Query (at_time tau 50) 1 2 REL_DIST_LATERAL 200) = (c, (-2)%Z, Some (e_meas e REL_DIST_LATERAL)).
Proof.
  intros E L. unfold ask, GetDistance. cbn [q_scene q_from q_to q_type q_limit s_active at_time negb orb]. unfold needs_update. rewrite E. cbn [s_time s_teleported at_time orb]. destruct (Rltb_spec (e_next e) tau); [lra|]. cbn [orb]. rewrite E. reflexivity.
Qed.

Theorem C58_starved_refuted taus tau : 
  snd (ask (run (concat (map both taus) ++ [Query (at_time tau 50) 1 2 REL_DIST_LONGITUDINAL 200])) (Query (at_time tau 50) 1 2 REL_DIST_LATERAL 200)) = Some (10000, 0) /\ s_dist (at_time tau 50) 1 2 REL_DIST_LATERAL = 0.
Proof.
  split; [|reflexivity].
  assert (IV: forall e, run (concat (map both taus)) (GenerateKey 1 2) = Some e -> e_meas e REL_DIST_LATERAL = (10000, 0)).
  { induction taus as [|t r IH] using rev_ind; [discriminate|]. rewrite map_app, concat_app. cbn [map concat app both]. intro e.
    change (run (concat (map both r) ++ [Query (at_time t 50) 1 2 REL_DIST_LONGITUDINAL 200; Query (at_time t 50) 1 2 REL_DIST_LATERAL 200])) with (run (concat (map both r) ++ [Query (at_time t 50) 1 2 REL_DIST_LONGITUDINAL 200] ++ [Query (at_time t 50) 1 2 REL_DIST_LATERAL 200])).
    rewrite app_assoc, run_app. destruct (first_asked (run (concat (map both r))) t IH) as (e' & E' & M & L). rewrite <- run_app in E'. rewrite (then_asked _ _ e' E' L). cbn [fst]. intro E. congruence. }
  destruct (first_asked _ tau IV) as (e & E & M & L). rewrite <- run_app in E. rewrite (then_asked _ _ e E L). cbn [snd]. rewrite M. reflexivity.
Qed.

(** ** Examples *)

Example C58_key_ex : GenerateKey (-1) 5 = 18446744069414584325%N /\ GenerateKey 5 (-1) = 25769803775%N.
Proof. split; vm_compute; reflexivity. Qed.

Example C58_answer_ex : exists c, ask (run []) (Query (at_time 1 50) 1 2 REL_DIST_LONGITUDINAL 200) = (c, 0%Z, Some (50, 1)).
Proof.
  unfold ask, GetDistance. cbn [q_scene q_from q_to q_type q_limit s_active at_time negb orb run fold_left needs_update]. fold (at_time 1 50). unfold UpdateDistance.
  assert (S: squared (at_time 1 50) 1 2 = 2500) by (unfold squared, at_time; cbn; ring). rewrite S. destruct (Rltb_spec 250000 2500); [lra|]. rewrite andb_false_r. rewrite put_same. eexists. reflexivity.
Qed.

Example C58_measured_ex : int32 1 /\ int32 2 /\ q_type (Query (at_time 1 50) 1 2 REL_DIST_LONGITUDINAL 200) <> REL_DIST_EUCLIDIAN_ABS /\ squared (at_time 1 50) 1 2 <= 250000.
Proof. unfold int32. split; [lia|]. split; [lia|]. split; [discriminate|]. unfold squared, at_time. cbn. lra. Qed.

(** The comparison with 500 metres is on the distance between the positions. *)
Theorem C58_far w a b : 250000 < squared w a b <-> 500 < dist_euc (s_x w a) (s_y w a) (s_x w b) (s_y w b).
Proof.
  replace (squared w a b) with (dist_euc (s_x w a) (s_y w a) (s_x w b) (s_y w b) * dist_euc (s_x w a) (s_y w a) (s_x w b) (s_y w b)).
  - assert (P : 0 <= dist_euc (s_x w a) (s_y w a) (s_x w b) (s_y w b)) by apply sqrt_pos. nra.
  - unfold dist_euc. rewrite sqrt_sqrt; [unfold squared, Rsqr; ring|]. apply Rplus_le_le_0_compat; apply Rle_0_sqr.
Qed.
Example C58_far_ex : 250000 < squared (at_time 5 1000) 1 3.
Proof. unfold squared, at_time. cbn. lra. Qed.

Print Assumptions C58_key.
Print Assumptions C58_answer.
Print Assumptions C58_measured.
Print Assumptions C58_measured_near.
Print Assumptions C58_squared_refuted.
Print Assumptions C58_second_refuted.
Print Assumptions C58_starved_refuted.

Print Assumptions C58_far.
