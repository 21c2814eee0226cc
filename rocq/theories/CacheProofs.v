(** * Lemmas on cached distances *)
From Coq Require Import Reals Bool List ZArith NArith Lra Lia.
From Verif Require Import AngModel GeoModel BoxProofs GapModel CacheModel.
Import ListNotations.
Open Scope R_scope.

(** ** Specification *)

(** The range of [int]. *)
Definition int32 (z : Z) : Prop := (- 2 ^ 31 <= z < 2 ^ 31)%Z.

(** A query and a run of queries from the empty map. *)
Record query := Query { q_scene : scene; q_from : Z; q_to : Z; q_type : rdt; q_limit : R }.
Definition ask (c : cache) (q : query) : cache * Z * option (R * R) := GetDistance c (q_scene q) (q_from q) (q_to q) (q_type q) (q_limit q).
Definition run (qs : list query) : cache := fold_left (fun c q => fst (fst (ask c q))) qs (fun _ => None).

(** What can be known of a pair: the initial value, a distance of this kind measured by one of the queries, or the square of a long distance. *)
Definition known (qs : list query) (a b : Z) (t : rdt) (d tau : R) : Prop :=
  (d = 10000 /\ tau = 0) \/
  (exists q, In q qs /\ q_from q = a /\ q_to q = b /\ q_type q = t /\ tau = s_time (q_scene q) /\ d = s_dist (q_scene q) a b t) \/
  (t = REL_DIST_EUCLIDIAN_ABS /\ exists q, In q qs /\ (q_from q = a /\ q_to q = b \/ q_from q = b /\ q_to q = a) /\ tau = s_time (q_scene q) /\ d = squared (q_scene q) a b /\ 250000 < d).

(** The next update of a pair: at once or three seconds after a query. *)
Definition due (qs : list query) (a b : Z) (n : R) : Prop :=
  n = 0 \/ exists q, In q qs /\ (q_from q = a /\ q_to q = b \/ q_from q = b /\ q_to q = a) /\ n <= s_time (q_scene q) + 3.

(** ** Keys *)

Lemma key_sum a b : GenerateKey a b = (Z.to_N (a mod 2 ^ 32) * 2 ^ 32 + Z.to_N (b mod 2 ^ 32))%N.
Proof.
  unfold GenerateKey. set (B := Z.to_N (b mod 2 ^ 32)). assert (LB: (B < 2 ^ 32)%N).
  { subst B. pose proof (Z.mod_pos_bound b (2 ^ 32) ltac:(lia)). apply N2Z.inj_lt. rewrite Z2N.id by lia. change (Z.of_N (2 ^ 32)) with (2 ^ 32)%Z. lia. }
  assert (E: (N.shiftl (Z.to_N (a mod 2 ^ 64)) 32 mod 2 ^ 64 = N.shiftl (Z.to_N (a mod 2 ^ 32)) 32)%N).
  { rewrite !N.shiftl_mul_pow2. change (2 ^ 64)%N with (2 ^ 32 * 2 ^ 32)%N. rewrite N.mul_mod_distr_r by discriminate. f_equal. apply N2Z.inj. rewrite N2Z.inj_mod.
    pose proof (Z.mod_pos_bound a (2 ^ 64) ltac:(lia)). pose proof (Z.mod_pos_bound a (2 ^ 32) ltac:(lia)). rewrite !Z2N.id by lia. change (Z.of_N (2 ^ 32)) with (2 ^ 32)%Z.
    symmetry. apply Znumtheory.Zmod_div_mod; [lia|lia|]. exists (2 ^ 32)%Z. reflexivity. }
  rewrite E. assert (D: N.land (N.shiftl (Z.to_N (a mod 2 ^ 32)) 32) B = 0%N).
  { apply N.bits_inj_0. intro n. rewrite N.land_spec. destruct (N.lt_ge_cases n 32) as [L|L].
    - rewrite N.shiftl_spec_low by exact L. reflexivity.
    - rewrite <- (N.mod_small B (2 ^ 32) LB). rewrite N.mod_pow2_bits_high by exact L. apply andb_false_r. }
  rewrite <- N.lxor_lor by exact D. rewrite <- N.add_nocarry_lxor by exact D. rewrite N.shiftl_mul_pow2. reflexivity.
Qed.

Lemma key_inj a b c d : int32 a -> int32 b -> int32 c -> int32 d -> GenerateKey a b = GenerateKey c d -> a = c /\ b = d.
Proof.
  unfold int32. intros A B C D E. rewrite !key_sum in E. apply (f_equal Z.of_N) in E. rewrite !N2Z.inj_add, !N2Z.inj_mul in E.
  pose proof (Z.mod_pos_bound a (2 ^ 32) ltac:(lia)). pose proof (Z.mod_pos_bound b (2 ^ 32) ltac:(lia)). pose proof (Z.mod_pos_bound c (2 ^ 32) ltac:(lia)). pose proof (Z.mod_pos_bound d (2 ^ 32) ltac:(lia)).
  rewrite !Z2N.id in E by lia. change (Z.of_N (2 ^ 32)) with (2 ^ 32)%Z in E.
  assert (E1: (a mod 2 ^ 32 = c mod 2 ^ 32)%Z) by lia. assert (E2: (b mod 2 ^ 32 = d mod 2 ^ 32)%Z) by lia.
  clear E. split; [clear E2|clear E1]; Z.to_euclidean_division_equations; lia.
Qed.

(** ** The map *)

Lemma put_same c k e : put c k e k = Some e.
Proof. unfold put. rewrite N.eqb_refl. reflexivity. Qed.

Lemma put_other c k e k' : k' <> k -> put c k e k' = c k'.
Proof. intro H. unfold put. destruct (N.eqb_spec k' k); [contradiction|reflexivity]. Qed.

Lemma get_put c k e : get (put c k e) k = e.
Proof. unfold get. rewrite put_same. reflexivity. Qed.

Lemma get_put_self c k k' : get (put c k (get c k)) k' = get c k'.
Proof. unfold get at 1. unfold put. destruct (N.eqb_spec k' k); [subst; reflexivity|reflexivity]. Qed.

Lemma rdt_eqb_spec a b : reflect (a = b) (rdt_eqb a b).
Proof. destruct a, b; constructor; congruence. Qed.

(** ** Invariant *)

Definition entry_ok (qs : list query) (a b : Z) (e : entry) : Prop := (forall t, known qs a b t (fst (e_meas e t)) (snd (e_meas e t))) /\ due qs a b (e_next e).
Definition Inv (qs : list query) (c : cache) : Prop := forall a b e, int32 a -> int32 b -> c (GenerateKey a b) = Some e -> entry_ok qs a b e.

Lemma known_more qs q a b t d tau : known qs a b t d tau -> known (qs ++ [q]) a b t d tau.
Proof.
  intros [H|[(r & I & H)|(T & r & I & H)]]; [left; exact H|right; left; exists r; split; [apply in_or_app; left; exact I|exact H]|].
  right; right. split; [exact T|]. exists r. split; [apply in_or_app; left; exact I|exact H].
Qed.

Lemma due_more qs q a b n : due qs a b n -> due (qs ++ [q]) a b n.
Proof. intros [H|(r & I & H)]; [left; exact H|right; exists r; split; [apply in_or_app; left; exact I|exact H]]. Qed.

Lemma inv_more qs q c : Inv qs c -> Inv (qs ++ [q]) c.
Proof. intros H a b e A B E. destruct (H a b e A B E) as (K & N). split; [intro t; apply known_more, K|apply due_more, N]. Qed.

Lemma new_ok qs a b : entry_ok qs a b new_entry.
Proof. split; [intro t; left; split; reflexivity|left; reflexivity]. Qed.

Lemma inv_get qs c a b : Inv qs c -> int32 a -> int32 b -> entry_ok qs a b (get c (GenerateKey a b)).
Proof. intros H A B. unfold get. destruct (c (GenerateKey a b)) as [e|] eqn:E; [apply (H a b e A B E)|apply new_ok]. Qed.

Lemma inv_put qs c a b e : Inv qs c -> int32 a -> int32 b -> entry_ok qs a b e -> Inv qs (put c (GenerateKey a b) e).
Proof.
  intros H A B E a' b' e' A' B' K. unfold put in K. destruct (N.eqb_spec (GenerateKey a' b') (GenerateKey a b)) as [Q|Q].
  - injection K as <-. apply key_inj in Q; try assumption. destruct Q as (-> & ->). exact E.
  - apply (H a' b' e' A' B' K).
Qed.

Lemma inv_erase qs c k : Inv qs c -> Inv qs (erase c k).
Proof. intros H a b e A B K. unfold erase in K. destruct (N.eqb _ _); [discriminate|]. apply (H a b e A B K). Qed.

Lemma store_ok qs a b e t d tau n : entry_ok qs a b e -> known qs a b t d tau -> due qs a b n -> entry_ok qs a b (store e t d tau n).
Proof. intros (K & N) H D. split; [|exact D]. intro u. cbn. destruct (rdt_eqb_spec u t) as [->|]; [exact H|apply K]. Qed.

Lemma squared_sym w a b : squared w a b = squared w b a.
Proof. unfold squared. ring. Qed.

Lemma ask_inv qs c q : Inv qs c -> int32 (q_from q) -> int32 (q_to q) -> Inv (qs ++ [q]) (fst (fst (ask c q))).
Proof.
  intros H A B. apply (inv_more _ q) in H. unfold ask, GetDistance. set (w := q_scene q). set (x := q_from q) in *. set (y := q_to q) in *. set (t := q_type q).
  assert (IN: In q (qs ++ [q])) by (apply in_or_app; right; left; reflexivity).
  destruct (negb (s_active w x) || negb (s_active w y)); [apply inv_erase, inv_erase, H|].
  assert (G: Inv (qs ++ [q]) (fst (if needs_update c w x y (GenerateKey x y) then UpdateDistance c w x y t (GenerateKey x y) (GenerateKey y x) (q_limit q) else (c, (-2)%Z)))).
  { destruct (needs_update _ _ _ _ _); [|exact H]. unfold UpdateDistance.
    set (c1 := put c (GenerateKey x y) (get c (GenerateKey x y))). assert (H1: Inv (qs ++ [q]) c1) by (apply inv_put; try assumption; apply inv_get; assumption).
    set (c2 := put c1 (GenerateKey y x) (get c1 (GenerateKey y x))). assert (H2: Inv (qs ++ [q]) c2) by (apply inv_put; try assumption; apply inv_get; assumption). clearbody c1 c2.
    destruct (Rltb _ _ && Rltb 250000 _) eqn:F; cbn [fst].
    - apply andb_true_iff in F. destruct F as (_ & F). destruct (Rltb_spec 250000 (squared w x y)) as [L|]; [|discriminate].
      set (c3 := put c2 _ _). assert (H3: Inv (qs ++ [q]) c3).
      { apply inv_put; try assumption. apply store_ok; [apply inv_get; assumption| |].
        - right; right. split; [reflexivity|]. exists q. repeat split; [exact IN|left; split; reflexivity|exact L].
        - right. exists q. repeat split; [exact IN|left; split; reflexivity|apply Rle_refl]. }
      apply inv_put; try assumption. apply store_ok; [apply inv_get; assumption| |].
      + right; right. split; [reflexivity|]. exists q. repeat split; [exact IN|right; split; reflexivity|apply squared_sym|exact L].
      + right. exists q. repeat split; [exact IN|right; split; reflexivity|apply Rle_refl].
    - apply inv_put; try assumption. apply store_ok; [apply inv_get; assumption| |].
      + right; left. exists q. repeat split. exact IN.
      + right. exists q. repeat split; [exact IN|left; split; reflexivity|]. fold w. destruct (Rltb (q_limit q) _); lra. }
  destruct (if needs_update _ _ _ _ _ then _ else _) as [c' u]. cbn [fst] in G. destruct (c' (GenerateKey x y)); exact G.
Qed.

Lemma run_app qs q : run (qs ++ [q]) = fst (fst (ask (run qs) q)).
Proof. unfold run. rewrite fold_left_app. reflexivity. Qed.

Lemma run_inv qs : (forall q, In q qs -> int32 (q_from q) /\ int32 (q_to q)) -> Inv qs (run qs).
Proof.
  induction qs as [|q qs IH] using rev_ind; intro H; [intros a b e _ _ E; discriminate|].
  rewrite run_app. apply ask_inv; [apply IH; intros r I; apply H, in_or_app; left; exact I| |]; apply H, in_or_app; right; left; reflexivity.
Qed.

(** ** One query *)

Lemma ask_spec c q d tau r c' : ask c q = (c', r, Some (d, tau)) ->
  s_active (q_scene q) (q_from q) = true /\ s_active (q_scene q) (q_to q) = true /\
  ((r = 0%Z /\ d = s_dist (q_scene q) (q_from q) (q_to q) (q_type q) /\ tau = s_time (q_scene q)) \/
   (r = (-2)%Z /\ 250000 < squared (q_scene q) (q_from q) (q_to q)) \/
   (r = (-2)%Z /\ c' = c /\ exists e, c (GenerateKey (q_from q) (q_to q)) = Some e /\ (d, tau) = e_meas e (q_type q) /\ s_time (q_scene q) <= e_next e /\ s_teleported (q_scene q) (q_from q) = false /\ s_teleported (q_scene q) (q_to q) = false)).
Proof.
  unfold ask, GetDistance. set (w := q_scene q). set (x := q_from q). set (y := q_to q). set (t := q_type q). set (k := GenerateKey x y). set (k' := GenerateKey y x).
  destruct (s_active w x), (s_active w y); cbn [negb orb]; try (intro Q; discriminate). intro Q. split; [reflexivity|]. split; [reflexivity|].
  assert (UP: forall c' r, (let '(c0, u) := UpdateDistance c w x y t k k' (q_limit q) in match c0 k with None => (c0, (-1)%Z, None) | Some e => (c0, u, Some (e_meas e t)) end) = (c', r, Some (d, tau)) ->
    (r = 0%Z /\ d = s_dist w x y t /\ tau = s_time w) \/ (r = (-2)%Z /\ 250000 < squared w x y)).
  { intros c0 r0. unfold UpdateDistance. destruct (Rltb _ _ && Rltb 250000 _) eqn:F.
    - apply andb_true_iff in F. destruct F as (_ & F). destruct (Rltb_spec 250000 (squared w x y)) as [L|]; [|discriminate].
      destruct (put _ k' _ k) as [e|]; intro U; [|discriminate]. right. split; [congruence|exact L].
    - rewrite put_same. intro U. injection U as _ U1 U2. cbn in U2. destruct (rdt_eqb_spec t t); [|congruence]. left. injection U2 as U2 U3. split; [congruence|]. split; congruence. }
  unfold needs_update in Q. destruct (c k) as [e|] eqn:E.
  - destruct (Rltb_spec (e_next e) (s_time w)) as [L|L]; [cbn [orb] in Q; apply UP in Q; tauto|]. cbn [orb] in Q.
    destruct (s_teleported w x) eqn:T1; [cbn [orb] in Q; apply UP in Q; tauto|]. cbn [orb] in Q. destruct (s_teleported w y) eqn:T2; [apply UP in Q; tauto|]. rewrite E in Q.
    right. right. injection Q as Q1 Q2 Q3. split; [congruence|]. split; [congruence|]. exists e. repeat split; try assumption; [congruence|lra].
  - apply UP in Q. tauto.
Qed.

Lemma ask_refused c q : snd (ask c q) = None <-> (s_active (q_scene q) (q_from q) = false \/ s_active (q_scene q) (q_to q) = false).
Proof.
  unfold ask, GetDistance. destruct (s_active _ _), (s_active _ _); cbn [negb orb]; try (split; [auto|reflexivity]). split; [|intros [H|H]; discriminate].
  intro Q. exfalso. destruct (needs_update c _ _ _ _) eqn:NU.
  - unfold UpdateDistance in Q. destruct (Rltb _ _ && Rltb 250000 _).
    + destruct (N.eqb_spec (GenerateKey (q_from q) (q_to q)) (GenerateKey (q_to q) (q_from q))) as [K|K]; [rewrite K, put_same in Q; discriminate|]. rewrite put_other in Q by exact K. rewrite put_same in Q. discriminate.
    + rewrite put_same in Q. discriminate.
  - unfold needs_update in NU. destruct (c (GenerateKey _ _)) eqn:E; [discriminate|discriminate].
Qed.
