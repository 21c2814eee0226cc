(** Specification and proofs for parameter distributions (C13, C14, C38). *)
From Coq Require Import List String ZArith Bool Lia Qround.
From Verif Require Import QAux DistModel.
Import ListNotations.
Open Scope Z_scope.

(** ** Specification *)
(** Number of combinations of one alternative per distribution. *)
Fixpoint prod (l : list dist) : Z := match l with [] => 1 | d :: l' => zlen d * prod l' end.
(** A combination: the number of the alternative for each distribution. *)
Definition valid (l : list dist) (js : list nat) : Prop := Forall2 (fun d j => (j < length d)%nat) l js.
(** The entries of a combination, in the order of the distributions. *)
Fixpoint chosen (l : list dist) (js : list nat) : list entry :=
  match l, js with
  | d :: l', j :: js' => nth j d [] ++ chosen l' js'
  | _, _ => []
  end.
(** Distributions with at least one alternative each, and a number of combinations that fits an int. *)
Definition fits (l : list dist) : Prop := @Forall dist (fun d => d <> []) l /\ prod l < 2147483648.
(** What the object shows for its current permutation. *)
Definition shows (s : dstate) (es : list entry) : Prop :=
  num_parameters s = Some (length es) /\ forall k, (k < length es)%nat -> exists e, nth_error es k = Some e /\ get_parameter_entry s k = Some e.

(** ** Proofs *)
Lemma prod_nonneg l : 0 <= prod l.
Proof. induction l as [|d l IH]; simpl; [lia|]. unfold zlen. nia. Qed.
Lemma prod_pos l : @Forall dist (fun d => d <> []) l -> 0 < prod l.
Proof. induction 1 as [|d l N H IH]; simpl; [lia|]. unfold zlen. destruct d; [congruence|]. simpl length. nia. Qed.
Lemma prod_app a b : prod (a ++ b) = prod a * prod b.
Proof. induction a as [|d a IH]; cbn [prod app]; [ring|]. rewrite IH. ring. Qed.

Lemma u32_mul a b : u32 (u32 a * b) = u32 (a * b).
Proof. unfold u32. rewrite Z.mul_mod_idemp_l; lia. Qed.
Lemma fold_perm l : forall n, l <> [] -> fold_left (fun n d => u32 (n * zlen d)) l n = u32 (n * prod l).
Proof.
  induction l as [|d l IH]; intros n N; [congruence|]. simpl. destruct l as [|d2 l].
  - simpl. f_equal. ring.
  - rewrite IH by discriminate. rewrite u32_mul. f_equal. simpl. ring.
Qed.
Lemma num_perm s : plist s <> [] -> num_permutations s = u32 (prod (plist s)).
Proof.
  intros N. unfold num_permutations. destruct (plist s) as [|d l] eqn:E; [congruence|].
  rewrite fold_perm by discriminate. f_equal. ring.
Qed.
Lemma num_perm_fits s : plist s <> [] -> prod (plist s) < 2147483648 -> num_permutations s = prod (plist s).
Proof. intros N L. rewrite num_perm by auto. unfold u32. apply Z.mod_small. pose proof (prod_nonneg (plist s)). lia. Qed.
Lemma num_perm_nil s : plist s = [] -> num_permutations s = 0.
Proof. unfold num_permutations. intros ->. auto. Qed.

Lemma i32_small z : 0 <= z < 2147483648 -> i32 z = z.
Proof. intros H. unfold i32, u32. rewrite Z.mod_small by lia. destruct (Z.ltb_spec z 2147483648); lia. Qed.
Lemma u32_small z : 0 <= z < 4294967296 -> u32 z = z.
Proof. intros H. unfold u32. rewrite Z.mod_small; lia. Qed.

(** The permutation number of a combination: mixed radix, last distribution fastest. *)
Fixpoint rank (l : list dist) (js : list nat) : Z :=
  match l, js with
  | _ :: l', j :: js' => Z.of_nat j * prod l' + rank l' js'
  | _, _ => 0
  end.
Lemma rank_range l js : valid l js -> 0 <= rank l js < prod l.
Proof.
  induction 1 as [|d j l js H V IH]; simpl; [lia|]. unfold zlen. pose proof (prod_nonneg l). nia.
Qed.
Lemma rank_inj l js js' : valid l js -> valid l js' -> rank l js = rank l js' -> js = js'.
Proof.
  intros V; revert js'; induction V as [|d j l js H V IH]; intros js' V' E; inversion V' as [|d' j' l' js2 H' V2]; subst; auto.
  simpl in E. pose proof (rank_range l js V). pose proof (rank_range l js2 V2).
  assert (Z.of_nat j = Z.of_nat j') by nia. assert (j = j') by lia. subst. f_equal. apply IH; auto. lia.
Qed.
Lemma rank_snoc l js d j : length l = length js -> rank (l ++ [d]) (js ++ [j]) = rank l js * zlen d + Z.of_nat j.
Proof.
  revert js; induction l as [|e l IH]; intros [|i js] L; simpl in *; try discriminate; [lia|].
  rewrite IH by lia. rewrite prod_app. simpl. ring.
Qed.
Lemma valid_length l js : valid l js -> length l = length js.
Proof. induction 1; simpl; auto. Qed.

(** The combination with a given number. *)
Fixpoint choice (l : list dist) (n : Z) : list nat :=
  match l with
  | [] => []
  | d :: l' => Z.to_nat (n / prod l') :: choice l' (n mod prod l')
  end.
Lemma choice_ok l n : @Forall dist (fun d => d <> []) l -> 0 <= n < prod l -> valid l (choice l n) /\ rank l (choice l n) = n.
Proof.
  intros F; revert n; induction F as [|d l N F IH]; intros n R; simpl in *.
  - split; [constructor|lia].
  - pose proof (prod_pos l F) as P. destruct (IH (n mod prod l)) as [V K]; [apply Z.mod_pos_bound; auto|].
    assert (0 <= n / prod l < zlen d).
    { split; [apply Z.div_pos; lia|]. apply Z.div_lt_upper_bound; lia. }
    split.
    + constructor; auto. unfold zlen in *. lia.
    + rewrite K, Z2Nat.id by lia. rewrite (Z.div_mod n (prod l)) at 3 by lia. ring.
Qed.

(** The alternatives of a combination. *)
Fixpoint alts (l : list dist) (js : list nat) : list (list entry) :=
  match l, js with d :: l', j :: js' => nth j d [] :: alts l' js' | _, _ => [] end.
Lemma alts_concat l js : concat (alts l js) = chosen l js.
Proof. revert js; induction l as [|d l IH]; intros [|j js]; simpl; auto. rewrite IH. auto. Qed.
Lemma alts_snoc l js d j : length l = length js -> alts (l ++ [d]) (js ++ [j]) = alts l js ++ [nth j d []].
Proof. revert js; induction l as [|e l IH]; intros [|i js] L; simpl in *; try discriminate; auto. rewrite IH; auto. Qed.

Lemma select_spec l : @Forall dist (fun d => d <> []) l -> forall n, 0 <= n < prod l ->
  exists js, valid l js /\ rank l js = n /\ select (rev l) n = Some (rev (alts l js)).
Proof.
  induction l as [|d l IH] using rev_ind; intros F n R; simpl in *.
  - exists []. split; [constructor|]. split; [lia|]. auto.
  - apply Forall_app in F. destruct F as [F Fd]. inversion Fd; subst.
    rewrite prod_app in R. simpl in R. rewrite rev_app_distr. simpl.
    assert (0 < zlen d) by (unfold zlen; destruct d; [congruence|simpl; lia]).
    destruct (Z.eqb_spec (zlen d) 0); [lia|].
    pose proof (Z.mod_pos_bound n (zlen d) H) as B.
    destruct (IH F (n / zlen d)) as (js & V & K & S).
    { split; [apply Z.div_pos; lia|]. apply Z.div_lt_upper_bound; lia. }
    exists (js ++ [Z.to_nat (n mod zlen d)]).
    assert (L : (Z.to_nat (n mod zlen d) < length d)%nat) by (unfold zlen in *; lia).
    split; [apply Forall2_app; auto; constructor; auto|].
    split.
    + rewrite rank_snoc by (apply valid_length; auto). rewrite K, Z2Nat.id by lia. rewrite (Z.div_mod n (zlen d)) at 3 by lia. ring.
    + rewrite S. rewrite (nth_error_nth' d [] L). rewrite alts_snoc by (apply valid_length; auto). rewrite rev_app_distr. reflexivity.
Qed.

Lemma fold_len cs : forall a, fold_left (fun a (c : list entry) => (a + length c)%nat) cs a = (a + length (concat (rev cs)))%nat.
Proof.
  induction cs as [|c cs IH]; intros a; simpl; [lia|]. rewrite IH, concat_app, app_length. simpl. rewrite app_nil_r. lia.
Qed.
Lemma find_param_spec cs : forall p c e, (c <= p)%nat -> (p < c + length (concat (rev cs)))%nat ->
  nth_error (concat (rev cs)) (c + length (concat (rev cs)) - p - 1) = Some e -> find_param cs p c = e.
Proof.
  induction cs as [|x cs IH]; intros p c e L U H; simpl in *; [lia|].
  rewrite concat_app, app_length in *. simpl in *. rewrite app_nil_r in *.
  destruct (Nat.ltb_spec p (c + length x)) as [B|B].
  - rewrite nth_error_app2 in H by lia.
    replace (c + (length (concat (rev cs)) + length x) - p - 1 - length (concat (rev cs)))%nat with (c + length x - p - 1)%nat in H by lia.
    apply nth_error_nth. auto.
  - apply IH; [lia|lia|]. rewrite nth_error_app1 in H by lia.
    replace (c + length x + length (concat (rev cs)) - p - 1)%nat with (c + (length (concat (rev cs)) + length x) - p - 1)%nat by lia. auto.
Qed.

Lemma shows_choice s : plist s <> [] -> fits (plist s) -> 0 <= index s < prod (plist s) -> shows s (chosen (plist s) (choice (plist s) (index s))).
Proof.
  intros N [F P] R. destruct (select_spec _ F _ R) as (js & V & K & S).
  destruct (choice_ok _ _ F R) as [V2 K2]. rewrite (rank_inj _ _ _ V2 V) by congruence. clear V2 K2.
  assert (NP : num_parameters s = Some (length (chosen (plist s) js))).
  { unfold num_parameters. destruct (Z.ltb_spec (index s) 0); [lia|]. rewrite S, fold_len, rev_involutive, alts_concat. auto. }
  split; auto. intros k L. destruct (nth_error (chosen (plist s) js) k) as [e|] eqn:E; [|apply nth_error_None in E; lia].
  exists e. split; auto. unfold get_parameter_entry. rewrite NP, (num_perm_fits s N P), (i32_small (prod (plist s))) by lia.
  destruct (Nat.leb_spec (length (chosen (plist s) js)) k); [lia|].
  destruct (Z.leb_spec (prod (plist s)) (index s)); [lia|].
  destruct (Z.eqb_spec (prod (plist s)) 0); [lia|]. destruct (Z.ltb_spec (index s) 0); [lia|]. simpl. rewrite S. f_equal.
  apply find_param_spec; try lia; rewrite rev_involutive, alts_concat; try lia.
  rewrite <- E. f_equal. lia.
Qed.

Lemma set_index_ok i s : 0 <= i < num_permutations s -> num_permutations s <= 2147483648 ->
  set_index i s = (0, mkD (plist s) i (-1)).
Proof.
  intros R U. unfold set_index. destruct (Z.leb_spec (num_permutations s) i); [lia|]. rewrite i32_small by lia. auto.
Qed.
Lemma set_index_reject i s : num_permutations s <= i -> set_index i s = (-1, s).
Proof. intros R. unfold set_index. destruct (Z.leb_spec (num_permutations s) i); [auto|lia]. Qed.
Lemma request_reject i s : num_permutations s <= i -> set_requested i s = (-1, s).
Proof. intros R. unfold set_requested. destruct (Z.leb_spec (num_permutations s) i); [auto|lia]. Qed.

Lemma shows_index s i s' : plist s <> [] -> fits (plist s) -> 0 <= i < num_permutations s -> set_index i s = (0, s') ->
  shows s' (chosen (plist s) (choice (plist s) i)).
Proof.
  intros N F R H. pose proof (num_perm_fits s N (proj2 F)) as E. rewrite set_index_ok in H by (unfold fits in F; lia).
  injection H as <-. apply (shows_choice (mkD (plist s) i (-1))); simpl; auto. lia.
Qed.

Lemma enumeration s : plist s <> [] -> fits (plist s) ->
  num_permutations s = prod (plist s) /\
  exists f, (forall i, 0 <= i < num_permutations s -> valid (plist s) (f i) /\
                 exists s', set_index i s = (0, s') /\ shows s' (chosen (plist s) (f i))) /\
            (forall js, valid (plist s) js -> exists i, 0 <= i < num_permutations s /\ f i = js /\
                 forall i', 0 <= i' < num_permutations s -> f i' = js -> i' = i).
Proof.
  intros N F. pose proof (num_perm_fits s N (proj2 F)) as E. split; auto.
  exists (choice (plist s)). split.
  - intros i R. split; [apply choice_ok; [apply F|lia]|]. eexists. split; [apply set_index_ok; [auto|]; destruct F; lia|].
    eapply shows_index; eauto. apply set_index_ok; [auto|]; destruct F; lia.
  - intros js V. exists (rank (plist s) js). pose proof (rank_range _ _ V) as R. split; [lia|].
    destruct (choice_ok (plist s) (rank (plist s) js)) as [V2 K2]; [apply F|lia|]. split; [apply (rank_inj (plist s)); auto|].
    intros i' R' <-. destruct (choice_ok (plist s) i') as [_ K3]; [apply F|lia|]. auto.
Qed.

(** Index range. *)
Definition in_range (s : dstate) (z : Z) : Prop := z = -1 \/ 0 <= z < num_permutations s.
Fixpoint all_fit (os : list dop) (s : dstate) : Prop :=
  fits (plist s) /\ match os with [] => True | o :: os' => match o with DSet i | DRequest i => 0 <= i | _ => True end /\ all_fit os' (dapply o s) end.
Lemma inc_spec s : fits (plist s) -> in_range s (index s) ->
  increment_index s = (-1, s) /\ (num_permutations s = 0 \/ index s = num_permutations s - 1) \/
  increment_index s = (index s + 1, mkD (plist s) (index s + 1) (-1)) /\ 0 <= index s + 1 < num_permutations s.
Proof.
  intros F R. unfold increment_index. destruct (plist s) as [|d l] eqn:E.
  - rewrite num_perm_nil in * by auto. change (i32 (u32 (0 - 1))) with (-1). unfold in_range in R. rewrite num_perm_nil in R by auto.
    assert (index s = -1) by lia. rewrite H. simpl. auto.
  - rewrite <- E in *. assert (N : plist s <> []) by congruence. pose proof (num_perm_fits s N (proj2 F)) as P.
    pose proof (prod_pos _ (proj1 F)). destruct F as [_ F]. unfold in_range in R.
    rewrite (u32_small (num_permutations s - 1)), i32_small by lia.
    destruct (Z.ltb_spec (index s) (-1)); [lia|]. destruct (Z.leb_spec (num_permutations s - 1) (index s)); simpl; [left|right].
    + split; auto. right. lia.
    + split; auto. lia.
Qed.
Lemma index_inv os : forall s, all_fit os s -> in_range s (index s) -> in_range (drun os s) (index (drun os s)).
Proof.
  induction os as [|o os IH]; intros s A R; [exact R|]. simpl in A. destruct A as (F & Hi & A). apply (IH (dapply o s)); auto.
  assert (F' : fits (plist (dapply o s))) by (destruct os; simpl in A; apply A).
  destruct o as [ds| |i| |i]; simpl in *.
  - unfold in_range in *. destruct R as [R|R]; [left; exact R|right]. simpl.
    destruct (plist s) as [|d l] eqn:E.
    + rewrite num_perm_nil in R by auto. lia.
    + rewrite <- E in *. assert (N : plist s <> []) by congruence.
      rewrite (num_perm_fits s N (proj2 F)) in R. rewrite (num_perm_fits (load ds s)); [|simpl; rewrite E; discriminate|apply F'].
      simpl. rewrite prod_app. destruct F' as [F' _]. simpl in F'. apply Forall_app in F'. pose proof (prod_pos ds (proj2 F')). nia.
  - left. auto.
  - unfold set_index. destruct (Z.leb_spec (num_permutations s) i); simpl; auto. right.
    destruct (plist s) as [|d l] eqn:E; [rewrite num_perm_nil in H by auto; lia|]. rewrite <- E in *. assert (N : plist s <> []) by congruence.
    pose proof (num_perm_fits s N (proj2 F)). destruct F. rewrite i32_small by lia. change (num_permutations (mkD (plist s) i (-1))) with (num_permutations s). lia.
  - destruct (inc_spec s F R) as [[-> _]|[-> Q]]; simpl; auto; right; auto.
  - unfold set_requested. destruct (Z.leb_spec (num_permutations s) i); simpl; auto.
Qed.

(** Main loop. *)
Lemma main_from file s n : plist s <> [] -> fits (plist s) -> 0 <= index s < num_permutations s -> requested s = -1 ->
  Z.of_nat n = num_permutations s - 1 - index s ->
  forall fuel, (n < fuel)%nat -> (index s < num_permutations s - 1 -> main_loop fuel file s = Some (map (fun k => index s + 1 + Z.of_nat k) (seq 0 n))).
Proof.
  intros N F. pose proof (num_perm_fits s N (proj2 F)) as P. revert s N F P. induction n as [|n IH]; intros s N F P R Q E fuel L U; [lia|].
  destruct fuel as [|fuel]; [lia|]. cbn [main_loop].
  assert (I : player_init file s = mkD (plist s) (index s + 1) (-1)).
  { unfold player_init. destruct (Z.ltb_spec 0 (num_permutations s)); [|lia].
    destruct (Z.ltb_spec 0 (num_permutations s)); [|lia]. rewrite Q. simpl.
    destruct (inc_spec s F) as [[_ X]|[-> _]]; [right; lia|lia|]. reflexivity. }
  rewrite I. set (s' := mkD (plist s) (index s + 1) (-1)). change (num_permutations s') with (num_permutations s).
  change (index s') with (index s + 1). destruct F as [F1 F2].
  rewrite (u32_small (num_permutations s - 1)), i32_small by lia.
  destruct (Z.leb_spec 0 (index s + 1)); [|lia]. simpl andb.
  destruct (Z.ltb_spec (index s + 1) (num_permutations s - 1)) as [B|B].
  - rewrite (IH s') ; simpl; auto; try (split; auto); try lia; try (change (num_permutations s') with (num_permutations s); lia).
    f_equal. f_equal; [lia|]. rewrite <- seq_shift, map_map. apply map_ext. intros k. lia.
  - assert (n = 0)%nat by lia. subst n. simpl. f_equal. f_equal. lia.
Qed.
Lemma main_all file : file <> [] -> fits file -> forall fuel, (Z.to_nat (prod file) < fuel)%nat ->
  main_loop fuel file reset = Some (map Z.of_nat (seq 0 (Z.to_nat (prod file)))).
Proof.
  intros N F fuel L. destruct fuel as [|fuel]; [lia|]. cbn [main_loop].
  pose proof (prod_pos _ (proj1 F)) as PP. assert (NP : forall i r, num_permutations (mkD file i r) = prod file) by (intros; apply num_perm_fits; [auto|apply F]).
  assert (I : player_init file reset = mkD file 0 (-1)).
  { unfold player_init. change (num_permutations reset) with 0. simpl Z.ltb at 1. cbn iota. unfold load. simpl. rewrite NP.
    destruct (Z.ltb_spec 0 (prod file)); [|lia]. change (u32 0) with 0. rewrite set_index_ok; rewrite ?NP; auto; destruct F; lia. }
  rewrite I. rewrite NP. simpl index. destruct F as [F1 F2]. rewrite (u32_small (prod file - 1)), i32_small by lia. simpl andb.
  destruct (Z.ltb_spec 0 (prod file - 1)).
  - rewrite (main_from file (mkD file 0 (-1)) (Z.to_nat (prod file - 1))); rewrite ?NP; cbn [plist index requested]; auto; try lia; [|split; auto].
    f_equal. replace (Z.to_nat (prod file)) with (S (Z.to_nat (prod file - 1))) by lia. cbn [seq map]. f_equal.
    rewrite <- seq_shift, map_map. apply map_ext. intros k. lia.
  - replace (prod file) with 1 by lia. reflexivity.
Qed.
Lemma main_single fuel : (0 < fuel)%nat -> main_loop fuel [] reset = Some [-1].
Proof. destruct fuel; [lia|]. reflexivity. Qed.

(** Ranges. *)
Definition Qn (k : nat) : Q := inject_Z (Z.of_nat k).
Lemma Qn_S k : (Qn (S k) == Qn k + 1)%Q.
Proof. unfold Qn. rewrite Nat2Z.inj_succ. unfold Z.succ. rewrite inject_Z_plus. reflexivity. Qed.
Lemma range_spec upper step : (0 < step)%Q -> forall fuel v l, range_values fuel v upper step = Some l ->
  (forall k x, nth_error l k = Some x -> (x == v + Qn k * step)%Q /\ (x < upper + SMALL)%Q) /\
  (forall k, (v + Qn k * step < upper + SMALL)%Q -> (k < length l)%nat).
Proof.
  intros P. induction fuel as [|n IH]; intros v l H; simpl in H.
  - destruct (Qltb v (upper + SMALL)) eqn:E; [discriminate|]. injection H as <-. apply Qltb_ge in E.
    split; [intros [|k] x; discriminate|]. intros k L. exfalso. assert (0 <= Qn k)%Q by (unfold Qn; rewrite <- (Zle_Qle 0); lia). nra.
  - destruct (Qltb v (upper + SMALL)) eqn:E.
    + destruct (range_values n (v + step) upper step) as [l'|] eqn:R; [|discriminate]. injection H as <-. apply Qltb_lt in E.
      destruct (IH _ _ R) as [A B]. split.
      * intros [|k] x X; simpl in X.
        { injection X as <-. split; auto. unfold Qn. simpl. ring. }
        { destruct (A k x X) as [A1 A2]. split; auto. rewrite A1, Qn_S. ring. }
      * intros [|k] X; simpl; [lia|]. rewrite Qn_S in X. assert (k < length l')%nat; [|lia]. apply B.
        eapply Qle_lt_trans; [|exact X]. apply Qle_lteq. right. ring.
    + injection H as <-. apply Qltb_ge in E.
      split; [intros [|k] x; discriminate|]. intros k L. exfalso. assert (0 <= Qn k)%Q by (unfold Qn; rewrite <- (Zle_Qle 0); lia). nra.
Qed.
Lemma range_fuel upper step : (0 < step)%Q -> forall fuel v, (upper + SMALL <= v + Qn fuel * step)%Q -> exists l, range_values fuel v upper step = Some l.
Proof.
  intros P. induction fuel as [|n IH]; intros v H; simpl.
  - destruct (Qltb v (upper + SMALL)) eqn:E; eauto. apply Qltb_lt in E. exfalso. assert (Z0 : (Qn 0 * step == 0)%Q) by (unfold Qn; simpl; ring). rewrite Z0 in H. lra.
  - destruct (Qltb v (upper + SMALL)); eauto. destruct (IH (v + step)%Q) as [l ->]; eauto. rewrite Qn_S in H. lra.
Qed.
Lemma archimed step d : (0 < step)%Q -> exists n, (d <= Qn n * step)%Q.
Proof.
  intros P. exists (Z.to_nat (Z.max 0 (Qround.Qceiling (d / step)))). unfold Qn.
  rewrite Z2Nat.id by lia. pose proof (Qround.Qle_ceiling (d / step)) as C.
  assert (inject_Z (Qround.Qceiling (d / step)) <= inject_Z (Z.max 0 (Qround.Qceiling (d / step))))%Q by (rewrite <- Zle_Qle; lia).
  assert (H0 : (d == d / step * step)%Q) by (field; lra). apply (Qle_trans _ (d / step * step)); [apply Qle_lteq; auto|]. apply Qmult_le_compat_r; [|lra]. lra.
Qed.
Lemma range_terminates lower upper step : (0 < step)%Q -> exists fuel l, range_values fuel lower upper step = Some l.
Proof. intros P. destruct (archimed step (upper + SMALL - lower) P) as [n H]. exists n. apply range_fuel; auto. lra. Qed.
Lemma range_loops upper step : (step <= 0)%Q -> forall fuel v, (v < upper + SMALL)%Q -> range_values fuel v upper step = None.
Proof.
  intros P. induction fuel as [|n IH]; intros v H; simpl; rewrite (proj2 (Qltb_lt _ _) H); auto. rewrite IH; auto. lra.
Qed.
