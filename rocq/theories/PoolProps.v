(** * C75: the vehicles random traffic is made of *)
From Coq Require Import QArith Bool List String Lia Lqa Sorting.Permutation Sorting.Sorted.
From Verif Require Import PoolModel PoolProofs.
Import ListNotations.

(** Making the pool fails only on an entry the parser gives nothing for. *)
Theorem C75_init_undefined : forall cs accept l p, Initialize cs accept l p = None <-> In None (entries l).
Proof.
  intros cs accept l p. unfold Initialize. rewrite take_catalogs_all.
  rewrite <- (take_all_none (used_categories cs) accept (entries l) (p_groups p)).
  destruct (take_all _ accept (p_groups p) (entries l)) as [(m, d)|]; split; congruence.
Qed.
Example C75_init_undefined_ex : Initialize [] true [Catalog false [None]; Catalog true [Some (Veh (Unit 1 CAR false) [])]] fresh_pool <> None /\ Initialize [] true [Catalog true [None]] fresh_pool = None.
Proof. split; [discriminate|reflexivity]. Qed.

(** The pool has, under each name, exactly the wanted vehicles of that category in the order of the catalogs; the others are deleted. *)
Theorem C75_init_groups : forall cs accept l vs, entries l = map Some vs ->
  exists p d keep, Initialize cs accept l fresh_pool = Some (p, d) /\
    (forall v, keep v = true <-> wanted (used_categories cs) accept v) /\
    (forall k, GetVehicles p k = filter (fun v => keep v && String.eqb (key_of v) k) vs) /\
    d = flat_map (fun v => rev (ids v)) (filter (fun v => negb (keep v)) vs).
Proof.
  intros cs accept l vs E. destruct (init_ok cs accept l fresh_pool vs ordered_nil E) as (p & I & _ & V & _).
  eexists p, _, (wantedb (used_categories cs) accept). split; [exact I|]. split; [intros v; apply wantedb_spec|]. split; [exact V|].
  apply flat_map_ext. intros v. apply delete_rev.
Qed.
Example C75_init_groups_ex : let lone := Veh (Unit 1 CAR false) [] in let bike := Veh (Unit 2 BICYCLE false) [] in
  let towing := Veh (Unit 3 CAR false) [Unit 4 TRAILER true] in let bus := Veh (Unit 5 BUS false) [] in
  exists p, Initialize [(CAR, 3); (BUS, 1); (TRAILER, 0)] false [Catalog true [Some lone; Some bike]; Catalog true [Some towing; Some bus]] fresh_pool = Some (p, [2; 4; 3]%nat) /\
    GetVehicles p "car" = [lone] /\ GetVehicles p "bus" = [bus] /\ GetVehicles p "bicycle" = [].
Proof. eexists. split; [reflexivity|]. repeat split. Qed.

(** The categories not given are cars 5, buses 1, trucks 2, vans 2, motorbikes 1. *)
Theorem C75_default_categories : forall accept l p,
  Initialize [] accept l p = Initialize [(CAR, 5); (BUS, 1); (TRUCK, 2); (VAN, 2); (MOTORBIKE, 1)] accept l p.
Proof. reflexivity. Qed.
Example C75_default_categories_ex : match Initialize [] true [Catalog true [Some (Veh (Unit 1 VAN false) []); Some (Veh (Unit 2 TRAM false) [])]] fresh_pool with
  | Some (p, d) => map fst (p_groups p) = ["van"%string] /\ p_total p == 2 /\ d = [2%nat] | None => False end.
Proof. simpl. repeat split. Qed.

(** The names in the pool are those of the wanted vehicles, each once, in order. *)
Theorem C75_init_keys : forall cs accept l vs p d, entries l = map Some vs -> Initialize cs accept l fresh_pool = Some (p, d) ->
  NoDup (map fst (p_groups p)) /\ StronglySorted (fun a b => String.compare a b = Lt) (map fst (p_groups p)) /\
  (forall k, In k (map fst (p_groups p)) <-> exists v, In v vs /\ wanted (used_categories cs) accept v /\ key_of v = k) /\
  (forall e, In e (p_groups p) -> g_vehicles (snd e) <> []).
Proof.
  intros cs accept l vs p d E I. pose proof (groups_nonempty _ _ _ _ _ _ E I) as G. rewrite Forall_forall in G.
  destruct (init_ok cs accept l fresh_pool vs ordered_nil E) as (q & I' & O & V & K & _).
  rewrite I in I'. injection I' as <- ->.
  destruct (ordered_keys _ O) as [D S]. split; [exact D|]. split; [exact S|]. split; [|exact G].
  intros k. split.
  - intros H. apply in_map_iff in H. destruct H as ((k1, g) & <- & H). pose proof (in_find_key _ _ _ O H) as F.
    destruct (proj1 (K k1)) as [N|(v & A & B & C)]; [rewrite F; discriminate|exfalso; apply N; reflexivity|].
    exists v. split; [exact A|]. split; [apply wantedb_spec; exact B|exact C].
  - intros (v & A & B & C). apply wantedb_spec in B. pose proof (proj2 (K k) (or_intror (ex_intro _ v (conj A (conj B C))))) as N.
    destruct (find_key k (p_groups p)) as [g|] eqn:F; [|contradiction]. apply find_key_in in F. apply in_map_iff. exists (k, g). auto.
Qed.
Example C75_init_keys_ex : exists p d, Initialize [] true [Catalog true [Some (Veh (Unit 1 VAN false) []); Some (Veh (Unit 2 BUS false) []); Some (Veh (Unit 3 VAN false) [])]] fresh_pool = Some (p, d) /\
  map fst (p_groups p) = ["bus"; "van"]%string.
Proof. eexists _, _. split; reflexivity. Qed.

(** A category of a name has the weight first given for it, and the total is the sum of the weights. *)
Theorem C75_init_weight : forall cs accept l vs p d c g w cs1 cs2, entries l = map Some vs ->
  Initialize cs accept l fresh_pool = Some (p, d) -> (0 <= c <= 9)%Z -> In (Category2String c, g) (p_groups p) ->
  used_categories cs = cs1 ++ (c, w) :: cs2 -> ~ In c (map fst cs1) -> g_weight g = w.
Proof.
  intros cs accept l vs p d c g w cs1 cs2 E I Nc H U F. destruct (group_weight _ _ _ _ _ _ _ _ E I H) as (v & _ & _ & Kv & G).
  apply (Category2String_inj c _ Nc) in Kv. rewrite Kv in G. destruct (G Nc) as (it & Fc & ->). rewrite U in Fc.
  assert (Fc' : find_category c (cs1 ++ (c, w) :: cs2) = Some (c, w)).
  { clear - F. unfold find_category. induction cs1 as [|(c1, w1) cs1 IH]; simpl; [rewrite Z.eqb_refl; reflexivity|].
    destruct (c1 =? c)%Z eqn:Ec; [apply Z.eqb_eq in Ec; exfalso; apply F; left; exact Ec|]. apply IH. intros Z. apply F. right. exact Z. }
  rewrite Fc' in Fc. injection Fc as <-. reflexivity.
Qed.
Example C75_init_weight_ex : exists p d g, Initialize [(VAN, 7); (VAN, 9)] true [Catalog true [Some (Veh (Unit 1 VAN false) [])]] fresh_pool = Some (p, d) /\
  In (Category2String VAN, g) (p_groups p) /\ g_weight g = 7.
Proof. eexists _, _, _. split; [reflexivity|]. split; [left; reflexivity|reflexivity]. Qed.

Theorem C75_init_total : forall cs accept l p d, Initialize cs accept l fresh_pool = Some (p, d) ->
  p_total p == fold_right (fun e s => g_weight (snd e) + s) 0 (p_groups p).
Proof.
  intros cs accept l p d I. assert (N : ~ In None (entries l)) by (intros N; apply (C75_init_undefined cs accept l fresh_pool) in N; congruence).
  destruct (all_some _ N) as (vs & E). destruct (init_ok cs accept l fresh_pool vs ordered_nil E) as (q & I' & _ & _ & _ & _ & T).
  rewrite I in I'. injection I' as <- _. rewrite T. clear. induction (p_groups p) as [|e m IH]; simpl; [reflexivity|]. rewrite IH. reflexivity.
Qed.
Example C75_init_total_ex : exists p d, Initialize [] true [Catalog true [Some (Veh (Unit 1 VAN false) []); Some (Veh (Unit 2 CAR false) []); Some (Veh (Unit 3 VAN false) [])]] fresh_pool = Some (p, d) /\
  p_total p == 7.
Proof. eexists _, _. split; reflexivity. Qed.

(** The names are right. *)
Theorem C75_category_names : forall c c', Category2String c = Category2String c' -> (0 <= c' <= 9)%Z -> c = c'.
Proof. intros c c' H N. exact (Category2String_inj c' c N H). Qed.
Example C75_category_names_ex : map Category2String [0; 1; 2; 3; 4; 5; 6; 7; 8; 9; 10]%Z = ["car"; "van"; "truck"; "semitrailer"; "trailer"; "bus"; "motorbike"; "bicycle"; "train"; "tram"; "Unknown"]%string.
Proof. reflexivity. Qed.

(** A vehicle is deleted after its trailers, the last trailer first. *)
Theorem C75_delete_order : forall v, DeleteVehicleAndTrailers v = rev (ids v).
Proof. exact delete_rev. Qed.
Example C75_delete_order_ex : DeleteVehicleAndTrailers (Veh (Unit 1 TRUCK false) [Unit 2 TRAILER true; Unit 3 TRAILER true]) = [3; 2; 1]%nat.
Proof. reflexivity. Qed.

(** Every object parsed, trailers too, is deleted exactly once: on making the pool or with it. *)
Theorem C75_no_leak : forall cs accept l vs p d, entries l = map Some vs -> Initialize cs accept l fresh_pool = Some (p, d) ->
  Permutation (d ++ destroy p) (flat_map ids vs).
Proof.
  intros cs accept l vs p d E I. destruct (init_ok cs accept l fresh_pool vs ordered_nil E) as (q & I' & _).
  pose proof I as I2. rewrite I' in I2. injection I2 as _ D.
  unfold Initialize in I. rewrite take_catalogs_all, E in I.
  destruct (take_all _ accept (p_groups fresh_pool) (map Some vs)) as [(m, d')|] eqn:T; [|discriminate]. injection I as <- <-.
  apply (take_all_perm _ _ _ _ _ _ ordered_nil) in T. simpl in T.
  rewrite destroy_perm. simpl. rewrite (flat_map_perm2 _ _ T). rewrite <- D. rewrite flat_map_perm. rewrite <- flat_map_app. apply flat_map_perm2. apply filter_split.
Qed.
Example C75_no_leak_ex : exists p d, Initialize [] true [Catalog true [Some (Veh (Unit 1 CAR false) [Unit 2 TRAILER true]); Some (Veh (Unit 3 CAR false) [])]] fresh_pool = Some (p, d) /\
  d = [2; 1]%nat /\ destroy p = [3%nat].
Proof. eexists _, _. split; [reflexivity|]. split; reflexivity. Qed.

(** Added vehicles are deleted with the pool, too. *)
Theorem C75_add_no_leak : forall cs accept l vs p d v, entries l = map Some vs -> Initialize cs accept l fresh_pool = Some (p, d) ->
  Permutation (destroy (snd (AddVehicle (Some v) p))) (ids v ++ destroy p).
Proof.
  intros cs accept l vs p d v E I. destruct (init_ok cs accept l fresh_pool vs ordered_nil E) as (q & I' & O & _).
  rewrite I in I'. injection I' as <- _. rewrite !destroy_perm. simpl. rewrite (flat_map_perm2 _ _ (change_push _ v _ O)). reflexivity.
Qed.
Example C75_add_no_leak_ex : destroy (snd (AddVehicle (Some (Veh (Unit 7 CAR false) [Unit 8 TRAILER true])) fresh_pool)) = [8; 7]%nat.
Proof. reflexivity. Qed.

(** Asking for a vehicle by index. *)
Theorem C75_get_vehicle : forall p i k, k <> ""%string -> GetVehicle p i k = nth_error (GetVehicles p k) i.
Proof.
  intros p i k N. unfold GetVehicle, GetVehicles. apply String.eqb_neq in N. rewrite N. destruct (find_key k (p_groups p)); [reflexivity|]. destruct i; reflexivity.
Qed.
Example C75_get_vehicle_ex : let v := Veh (Unit 7 CAR false) [] in let p := snd (AddVehicle (Some v) fresh_pool) in GetVehicle p 0 "car" = Some v /\ GetVehicle p 1 "car" = None /\ GetVehicle p 0 "bus" = None.
Proof. repeat split. Qed.

Theorem C75_get_vehicle_first : forall p i, GetVehicle p i "" = match p_groups p with [] => None | e :: _ => nth_error (g_vehicles (snd e)) i end.
Proof. reflexivity. Qed.
Example C75_get_vehicle_first_ex : let v := Veh (Unit 7 VAN false) [] in let b := Veh (Unit 8 BUS false) [] in
  GetVehicle (snd (AddVehicle (Some b) (snd (AddVehicle (Some v) fresh_pool)))) 0 "" = Some b.
Proof. reflexivity. Qed.

(** Drawing from a category of the pool: one of its vehicles, and each of them can be drawn. *)
Theorem C75_random_named : forall p k, GetVehicles p k <> [] ->
  (forall u r, exists v, GetRandomVehicle p u r k = Some (Some v) /\ In v (GetVehicles p k)) /\
  (forall u v, In v (GetVehicles p k) -> exists r, GetRandomVehicle p u r k = Some (Some v)).
Proof.
  intros p k N. unfold GetVehicles in *. destruct (find_key k (p_groups p)) as [g|] eqn:F; [|contradiction]. split.
  - intros u r. rewrite (random_named p u r k g F N). destruct (pick_in _ r N) as (v & -> & H). exists v. auto.
  - intros u v H. destruct (pick_all _ _ H) as (r & R). exists r. rewrite (random_named p u r k g F N), R. reflexivity.
Qed.
Example C75_random_named_ex : let a := Veh (Unit 7 VAN false) [] in let b := Veh (Unit 8 VAN false) [] in
  let p := snd (AddVehicle (Some b) (snd (AddVehicle (Some a) fresh_pool))) in
  GetRandomVehicle p 0 0 "van" = Some (Some a) /\ GetRandomVehicle p 0 3 "van" = Some (Some b).
Proof. split; reflexivity. Qed.

(** Drawing from a pool with weights that are not negative: some vehicle of the pool is given, whatever is drawn. *)
Theorem C75_random_defined : forall cs accept l vs p d, entries l = map Some vs -> Initialize cs accept l fresh_pool = Some (p, d) ->
  Forall (fun c => (0 <= fst c <= 9)%Z /\ 0 <= snd c) cs -> (exists v, In v vs /\ wanted (used_categories cs) accept v) ->
  forall u r k, 0 <= u <= 1 -> exists v, GetRandomVehicle p u r k = Some (Some v) /\ In v vs /\ wanted (used_categories cs) accept v.
Proof.
  intros cs accept l vs p d E I C (v0 & Iv & Wv) u r k U. pose proof (groups_nonempty _ _ _ _ _ _ E I) as G.
  pose proof (weights_ge _ _ _ _ _ _ E I C) as P. pose proof (C75_init_keys _ _ _ _ _ _ E I) as (_ & _ & Kk & _).
  destruct (init_ok cs accept l fresh_pool vs ordered_nil E) as (q & I' & O & V & K & _ & T). rewrite I in I'. injection I' as <- ->.
  assert (J : forall k g v, find_key k (p_groups p) = Some g -> In v (g_vehicles g) -> In v vs /\ wanted (used_categories cs) accept v).
  { intros k' g v F H. rewrite <- (GetVehicles_in _ _ _ F), V in H. simpl in H. apply filter_In in H. destruct H as [H1 H2].
    apply andb_prop in H2. destruct H2 as [H2 _]. apply wantedb_spec in H2. auto. }
  rewrite Forall_forall in G.
  destruct (find_key k (p_groups p)) as [g|] eqn:F.
  - assert (N : g_vehicles g <> []) by (apply (G (k, g)); apply find_key_in; exact F).
    rewrite (random_named p u r k g F N). destruct (pick_in _ r N) as (v & -> & H). exists v. split; [reflexivity|]. exact (J _ _ _ F H).
  - assert (T0 : 0 <= p_total p) by (rewrite T; apply weights_nonneg; exact P).
    rewrite (random_weighted p u r k F T0) by (apply Forall_forall; exact G).
    assert (M : p_groups p <> []).
    { intros Z. assert (In (key_of v0) (map fst (p_groups p))) as Q1 by (apply Kk; exists v0; auto). rewrite Z in Q1. exact Q1. }
    destruct (map_sample_some (p_groups p) (u * p_total p) 0 M) as (e & Em).
    { unfold SMALL_NUMBER. rewrite <- T. assert (u * p_total p <= 1 * p_total p) by (apply Qmult_le_compat_r; [apply U|exact T0]). lra. }
    rewrite Em. pose proof (map_sample_in _ _ _ _ Em) as Ie. destruct (pick_in _ r (G _ Ie)) as (v & -> & H). exists v. split; [reflexivity|].
    destruct e as (ke, ge). exact (J _ _ _ (in_find_key _ _ _ O Ie) H).
Qed.
Example C75_random_defined_ex : exists p d, Initialize [] true [Catalog true [Some (Veh (Unit 1 VAN false) []); Some (Veh (Unit 2 CAR false) [])]] fresh_pool = Some (p, d) /\
  GetRandomVehicle p (1 # 2) 0 "" = Some (Some (Veh (Unit 2 CAR false) [])) /\ GetRandomVehicle p 1 0 "" = Some (Some (Veh (Unit 1 VAN false) [])).
Proof. eexists _, _. split; [reflexivity|]. split; reflexivity. Qed.

(** Which category: that whose stretch of the sum of the weights, moved by SMALL_NUMBER, the sample is in; the first has what is before it, too. *)
Theorem C75_random_interval : forall p u r k l1 e l2, find_key k (p_groups p) = None -> p_groups p = l1 ++ e :: l2 -> 0 <= p_total p ->
  Forall (fun e => 0 <= g_weight (snd e) /\ g_vehicles (snd e) <> []) (p_groups p) ->
  (l1 = [] \/ fold_right (fun e s => g_weight (snd e) + s) 0 l1 + (1 # 1000000) <= u * p_total p) ->
  u * p_total p < fold_right (fun e s => g_weight (snd e) + s) 0 l1 + g_weight (snd e) + (1 # 1000000) ->
  exists v, GetRandomVehicle p u r k = Some (Some v) /\ In v (g_vehicles (snd e)).
Proof.
  intros p u r k l1 e l2 F M T H A B.
  assert (G : Forall (fun e => g_vehicles (snd e) <> []) (p_groups p)) by (eapply Forall_impl; [|exact H]; intros a K; apply K).
  assert (P : Forall (fun e => 0 <= g_weight (snd e)) l1).
  { rewrite M in H. apply Forall_app in H. eapply Forall_impl; [|exact (proj1 H)]. intros a K. apply K. }
  assert (W : fold_right (fun e s => g_weight (snd e) + s) 0 l1 = weights l1) by (clear; induction l1 as [|a l1 IH]; simpl; [|rewrite IH]; reflexivity).
  rewrite W in A, B. rewrite (random_weighted p u r k F T G). replace (map_sample (u * p_total p) 0 (p_groups p)) with (Some e); [|rewrite M; symmetry; apply map_sample_complete; [exact P| |]].
  - rewrite Forall_forall in G. destruct (pick_in _ r (G e ltac:(rewrite M; apply in_or_app; right; left; reflexivity))) as (v & -> & K). exists v. auto.
  - destruct A as [A|A]; [left; exact A|right]. unfold SMALL_NUMBER. lra.
  - unfold SMALL_NUMBER. lra.
Qed.
Example C75_random_interval_ex : exists p d, Initialize [] true [Catalog true [Some (Veh (Unit 1 VAN false) []); Some (Veh (Unit 2 CAR false) [])]] fresh_pool = Some (p, d) /\
  GetRandomVehicle p (500000 # 700000) 0 "" = Some (Some (Veh (Unit 2 CAR false) [])) /\ GetRandomVehicle p (500001 # 700000) 0 "" = Some (Some (Veh (Unit 1 VAN false) [])).
Proof. eexists _, _. split; [reflexivity|]. split; reflexivity. Qed.

(** A category of weight 0 that is not the first by name is never drawn. *)
Theorem C75_zero_weight : forall p u r k l1 k0 g0 l2 v, find_key k (p_groups p) = None -> p_groups p = l1 ++ (k0, g0) :: l2 -> l1 <> [] -> g_weight g0 == 0 ->
  Forall (fun e => 0 <= g_weight (snd e) /\ g_vehicles (snd e) <> []) (p_groups p) -> 0 <= p_total p ->
  GetRandomVehicle p u r k = Some (Some v) -> exists e, In e (l1 ++ l2) /\ In v (g_vehicles (snd e)).
Proof.
  intros p u r k l1 k0 g0 l2 v F M N Z H T R.
  assert (G : Forall (fun e => g_vehicles (snd e) <> []) (p_groups p)) by (eapply Forall_impl; [|exact H]; intros a K; apply K).
  assert (P : Forall (fun e => 0 <= g_weight (snd e)) (p_groups p)) by (eapply Forall_impl; [|exact H]; intros a K; apply K).
  rewrite (random_weighted p u r k F T G) in R. injection R as R.
  rewrite M in R, P. clear - R P N Z.
  assert (S : forall l1 cum, l1 <> [] -> Forall (fun e => 0 <= g_weight (snd e)) (l1 ++ (k0, g0) :: l2) ->
    forall e, map_sample (u * p_total p) cum (l1 ++ (k0, g0) :: l2) = Some e -> In e (l1 ++ l2)).
  { clear - Z. induction l1 as [|a l1 IH]; intros cum N P e; [contradiction|]. simpl. destruct (Qle_bool _ _) eqn:E; simpl.
    - intros H. right. inversion P; subst. destruct l1 as [|b l1].
      + simpl in *. apply Qle_bool_iff in E. replace (Qle_bool _ (u * p_total p)) with true in H.
        * simpl in H. eapply map_sample_in. exact H.
        * symmetry. apply Qle_bool_iff. lra.
      + apply (IH _ ltac:(discriminate) H3 e H).
    - intros H. injection H as <-. left. reflexivity. }
  destruct (map_sample _ 0 _) as [e|] eqn:E; [|discriminate]. exists e. split; [exact (S l1 0 N P e E)|]. eapply nth_error_In. exact R.
Qed.
Example C75_zero_weight_ex : let p := Pool [("car"%string, Group [Veh (Unit 1 CAR false) []] 5); ("trailer"%string, Group [Veh (Unit 2 TRAILER true) []] 0); ("van"%string, Group [Veh (Unit 3 VAN false) []] 2)] 7 in
  GetRandomVehicle p (5 # 7) 0 "" = Some (Some (Veh (Unit 1 CAR false) [])) /\ GetRandomVehicle p (5000001 # 7000000) 0 "" = Some (Some (Veh (Unit 3 VAN false) [])).
Proof. split; reflexivity. Qed.

(** Weights with a negative sum have no meaning. *)
Theorem C75_random_undefined : forall p u r k, find_key k (p_groups p) = None -> (GetRandomVehicle p u r k = None <-> p_total p < 0).
Proof.
  intros p u r k F. unfold GetRandomVehicle. rewrite find_pair, F. unfold GetRealBetween0. destruct (Qle_bool 0 (p_total p)) eqn:E.
  - apply Qle_bool_iff in E. split; [|intros K; exfalso; lra]. destruct (map_sample _ _ _) as [e|]; [|discriminate].
    destruct (g_vehicles (snd e)); discriminate.
  - apply Qle_bool_false in E. split; auto.
Qed.
Example C75_random_undefined_ex : GetRandomVehicle (Pool [("car"%string, Group [Veh (Unit 1 CAR false) []] (-1))] (-1)) 0 0 "" = None.
Proof. reflexivity. Qed.

(** Adding: the vehicle comes last in its category, other categories and the total stay; what is given back is not the place of the
    vehicle but the number of categories less one. *)
Theorem C75_add : forall p v, StronglySorted (fun a b => String.compare (fst a) (fst b) = Lt) (p_groups p) ->
  let p' := snd (AddVehicle (Some v) p) in
  (forall k, GetVehicles p' k = GetVehicles p k ++ (if String.eqb (key_of v) k then [v] else [])) /\
  p_total p' = p_total p /\ fst (AddVehicle (Some v) p) = (Z.of_nat (List.length (p_groups p')) - 1)%Z /\
  (forall g, find_key (key_of v) (p_groups p) = None -> find_key (key_of v) (p_groups p') = Some g -> g_weight g = 1).
Proof.
  intros p v O p'. subst p'. simpl. split; [|split; [reflexivity|split; [reflexivity|]]].
  - intros k. unfold GetVehicles. simpl. rewrite change_find by exact O. unfold key_of. destruct (String.eqb _ k) eqn:E.
    + apply String.eqb_eq in E. subst k. destruct (find_key _ (p_groups p)); reflexivity.
    + destruct (find_key k (p_groups p)); rewrite app_nil_r; reflexivity.
  - intros g F. rewrite change_find by exact O. unfold key_of in *. rewrite String.eqb_refl, F. intros K. injection K as <-. reflexivity.
Qed.
Example C75_add_ex : let a := Veh (Unit 7 VAN false) [] in let b := Veh (Unit 8 VAN false) [] in
  fst (AddVehicle (Some b) (snd (AddVehicle (Some a) fresh_pool))) = 0%Z /\ GetVehicles (snd (AddVehicle (Some b) (snd (AddVehicle (Some a) fresh_pool)))) "van" = [a; b].
Proof. split; reflexivity. Qed.

Theorem C75_add_null : forall p, AddVehicle None p = ((-1)%Z, p).
Proof. reflexivity. Qed.
Example C75_add_null_ex : fst (AddVehicle None fresh_pool) = (-1)%Z.
Proof. reflexivity. Qed.

(** "What is added to a pool can be drawn": not so when its category is new and comes last by name, for the total does not know it. *)
Theorem C75_added_drawn_refuted : forall p m0 k0 g0 u r k, p_groups p = m0 ++ [(k0, g0)] -> m0 <> [] -> find_key k (p_groups p) = None ->
  p_total p == fold_right (fun e s => g_weight (snd e) + s) 0 m0 -> 0 <= p_total p -> u <= 1 ->
  Forall (fun e => g_vehicles (snd e) <> []) (p_groups p) ->
  exists v e, GetRandomVehicle p u r k = Some (Some v) /\ In e m0 /\ In v (g_vehicles (snd e)).
Proof.
  intros p m0 k0 g0 u r k M N F T T0 U G. rewrite (random_weighted p u r k F T0 G).
  assert (W : fold_right (fun e s => g_weight (snd e) + s) 0 m0 = weights m0) by (clear; induction m0 as [|a l1 IH]; simpl; [|rewrite IH]; reflexivity).
  rewrite W in T. assert (L : u * p_total p < 0 + weights m0 + SMALL_NUMBER).
  { unfold SMALL_NUMBER. rewrite <- T. assert (u * p_total p <= 1 * p_total p) by (apply Qmult_le_compat_r; assumption). lra. }
  destruct (map_sample_some m0 (u * p_total p) 0 N L) as (e & Em). replace (map_sample (u * p_total p) 0 (p_groups p)) with (Some e) by (rewrite M; symmetry; apply map_sample_prefix; exact Em).
  pose proof (map_sample_in _ _ _ _ Em) as Ie. rewrite Forall_forall in G.
  destruct (pick_in _ r (G e ltac:(rewrite M; apply in_or_app; left; exact Ie))) as (v & -> & K). exists v, e. auto.
Qed.
Example C75_added_drawn_refuted_ex : exists p d, Initialize [] true [Catalog true [Some (Veh (Unit 2 CAR false) [])]] fresh_pool = Some (p, d) /\
  GetRandomVehicle (snd (AddVehicle (Some (Veh (Unit 3 VAN false) [])) p)) 1 0 "" = Some (Some (Veh (Unit 2 CAR false) [])).
Proof. eexists _, _. split; reflexivity. Qed.

(** ** Swarm traffic *)
Lemma swarm_named : Forall (fun c => (0 <= fst c <= 9)%Z /\ 0 <= snd c) swarm_categories.
Proof. unfold swarm_categories, CAR, BUS, TRUCK, VAN, MOTORBIKE, TRAILER. repeat (apply Forall_cons; [simpl; split; [lia|lra]|]). apply Forall_nil. Qed.

(** There is something to draw if a catalog has a wanted vehicle, or else the central object is a vehicle. *)
Theorem C75_swarm_draws : forall l vs central p d, entries l = map Some vs -> swarm_pool l central fresh_pool = Some (p, d) ->
  (exists v, In v vs /\ wanted swarm_categories true v) \/ central <> None ->
  forall u r, 0 <= u <= 1 -> exists v, GetRandomVehicle p u r "" = Some (Some v) /\ ((In v vs /\ wanted swarm_categories true v) \/ central = Some v).
Proof.
  intros l vs central p d E S H u r U. unfold swarm_pool in S. destruct (Initialize swarm_categories true l fresh_pool) as [(q, dq)|] eqn:I; [|discriminate].
  pose proof (C75_init_keys _ _ _ _ _ _ E I) as (_ & _ & K & _). change (used_categories swarm_categories) with swarm_categories in K.
  destruct (p_groups q) as [|e m] eqn:Eq.
  - destruct central as [v|].
    + injection S as <- <-. exists v. split; [|right; reflexivity]. unfold GetRandomVehicle, AddVehicle. simpl. rewrite Eq. simpl.
      assert (NE : String.eqb (Category2String (u_cat (v_self v))) "" = false).
      { unfold Category2String. repeat match goal with |- context [if (?a =? ?b)%Z then _ else _] => destruct (a =? b)%Z end; reflexivity. }
      rewrite NE. unfold GetRealBetween0.
      assert (T : p_total q == 0) by (rewrite (C75_init_total _ _ _ _ _ I), Eq; reflexivity).
      replace (Qle_bool 0 (p_total q)) with true by (symmetry; apply Qle_bool_iff; lra).
      simpl. replace (Qle_bool _ (u * p_total q)) with false.
      * simpl. reflexivity.
      * symmetry. apply Qle_bool_false. rewrite T. unfold SMALL_NUMBER. lra.
    + exfalso. destruct H as [(v & A & B)|H]; [|contradiction]. apply (K (key_of v)). exists v. auto.
  - injection S as <- <-. assert (X : exists v, In v vs /\ wanted swarm_categories true v).
    { destruct (proj1 (K (fst e)) (or_introl eq_refl)) as (v & A & B & _). exists v. auto. }
    destruct (C75_random_defined _ _ _ _ _ _ E I swarm_named X u r "" U) as (v & A & B). exists v. split; [exact A|left; exact B].
Qed.
Example C75_swarm_draws_ex : exists p d, swarm_pool [] (Some (Veh (Unit 2 TRAM false) [])) fresh_pool = Some (p, d) /\
  GetRandomVehicle p (1 # 2) 5 "" = Some (Some (Veh (Unit 2 TRAM false) [])).
Proof. eexists _, _. split; reflexivity. Qed.

(** "No single trailers": so long as the catalogs have a car, a bus or a motorbike no trailer is drawn on its own. *)
Theorem C75_no_single_trailer_partial : forall l vs central p d, entries l = map Some vs -> swarm_pool l central fresh_pool = Some (p, d) ->
  (exists v, In v vs /\ (u_cat (v_self v) = CAR \/ u_cat (v_self v) = BUS \/ u_cat (v_self v) = MOTORBIKE)) ->
  forall u r v, 0 <= u <= 1 -> GetRandomVehicle p u r "" = Some (Some v) -> u_cat (v_self v) <> TRAILER.
Proof.
  intros l vs central p d E S (v0 & I0 & C0) u r v U R. unfold swarm_pool in S.
  destruct (Initialize swarm_categories true l fresh_pool) as [(q, dq)|] eqn:I; [|discriminate].
  pose proof (C75_init_keys _ _ _ _ _ _ E I) as (_ & _ & K & G). change (used_categories swarm_categories) with swarm_categories in K.
  assert (W0 : wanted swarm_categories true v0).
  { split; [|split].
    - unfold swarm_categories. simpl. destruct C0 as [->|[->| ->]]; auto 10.
    - intros _. unfold swarm_categories. simpl. auto.
    - intros (Z & _). discriminate. }
  assert (Ik : In (key_of v0) (map fst (p_groups q))) by (apply K; exists v0; auto).
  assert (Eq : p_groups q <> []) by (intros Z; rewrite Z in Ik; exact Ik).
  assert (Sq : Some (q, dq) = Some (p, d)) by (destruct (p_groups q); [contradiction|exact S]). injection Sq as -> ->. clear S.
  pose proof (weights_ge _ _ _ _ _ _ E I swarm_named) as P.
  pose proof (C75_init_total _ _ _ _ _ I) as T.
  destruct (init_ok swarm_categories true l fresh_pool vs ordered_nil E) as (q & I' & O & V & Kq & Wq & T'). rewrite I in I'. injection I' as <- ->.
  intros Cv. assert (T0 : 0 <= p_total p) by (rewrite T'; apply weights_nonneg; exact P).
  assert (Fn : find_key "" (p_groups p) = None).
  { destruct (find_key "" (p_groups p)) as [g|] eqn:F; [|reflexivity]. exfalso. apply find_key_in in F.
    assert (In ""%string (map fst (p_groups p))) as Z by (apply in_map_iff; exists (""%string, g); auto). apply K in Z.
    destruct Z as (x & _ & _ & Z). revert Z. unfold key_of, Category2String.
    repeat match goal with |- context [if (?a =? ?b)%Z then _ else _] => destruct (a =? b)%Z end; discriminate. }
  assert (F2 : Forall (fun e => 0 <= g_weight (snd e) /\ g_vehicles (snd e) <> []) (p_groups p)).
  { apply Forall_forall. intros e He. split; [rewrite Forall_forall in P; exact (P e He)|exact (G e He)]. }
  assert (J : forall k g x, In (k, g) (p_groups p) -> In x (g_vehicles g) -> key_of x = k).
  { intros k g x H1 H2. rewrite <- (GetVehicles_in _ _ _ (in_find_key _ _ _ O H1)), V in H2. simpl in H2. apply filter_In in H2.
    destruct H2 as [_ H2]. apply andb_prop in H2. destruct H2 as [_ H2]. apply String.eqb_eq in H2. exact H2. }
  assert (Kt : key_of v = "trailer"%string) by (unfold key_of; rewrite Cv; reflexivity).
  destruct (find_key "trailer" (p_groups p)) as [g|] eqn:Ft.
  - pose proof (find_key_in _ _ _ Ft) as It. destruct (in_split _ _ It) as (l1 & l2 & M).
    assert (N : l1 <> []).
    { intros ->. simpl in M. rewrite M in O, Ik. inversion O as [|a b _ HF]; subst. destruct Ik as [Z|Z].
      - revert Z. unfold key_of. destruct C0 as [->|[->| ->]]; discriminate.
      - apply in_map_iff in Z. destruct Z as (e & Ze & Ie). rewrite Forall_forall in HF. specialize (HF _ Ie). unfold before in HF. rewrite Ze in HF.
        unfold key_of in HF. destruct C0 as [Z|[Z|Z]]; rewrite Z in HF; discriminate HF. }
    assert (Zw : g_weight g == 0).
    { rewrite (C75_init_weight _ _ _ _ _ _ TRAILER g 0 [(CAR, 5)] [(VAN, 2); (BUS, 1); (TRUCK, 2); (MOTORBIKE, 1)] E I); [reflexivity|unfold TRAILER; lia|exact It|reflexivity|].
      simpl. intros [Z|[]]. discriminate. }
    destruct (C75_zero_weight p u r "" l1 "trailer" g l2 v Fn M N Zw F2 T0 R) as ((ke, ge) & Ie & Iv).
    assert (Ie' : In (ke, ge) (p_groups p)) by (rewrite M; apply in_app_or in Ie; apply in_or_app; destruct Ie; [left|right; right]; assumption).
    pose proof (J _ _ _ Ie' Iv) as Z. rewrite Kt in Z. subst ke. destruct (ordered_keys _ O) as [D _]. rewrite M, map_app in D. simpl in D.
    apply NoDup_remove_2 in D. apply D. apply in_app_or in Ie. apply in_or_app. destruct Ie as [Ie|Ie]; [left|right]; apply in_map_iff; eexists; (split; [|exact Ie]); reflexivity.
  - rewrite (random_weighted p u r "" Fn T0) in R by (apply Forall_forall; exact G). injection R as R.
    destruct (map_sample _ 0 (p_groups p)) as [(ke, ge)|] eqn:Em; [|discriminate]. apply nth_error_In in R. pose proof (map_sample_in _ _ _ _ Em) as Ie.
    pose proof (J _ _ _ Ie R) as Z. rewrite Kt in Z. subst ke. rewrite (in_find_key _ _ _ O Ie) in Ft. discriminate.
Qed.
Example C75_no_single_trailer_partial_ex : exists p d, swarm_pool [Catalog true [Some (Veh (Unit 1 TRAILER true) []); Some (Veh (Unit 2 BUS false) [])]] None fresh_pool = Some (p, d) /\
  GetVehicles p "trailer" <> [] /\ GetRandomVehicle p 1 5 "" = Some (Some (Veh (Unit 2 BUS false) [])).
Proof. eexists _, _. split; [reflexivity|]. split; [discriminate|reflexivity]. Qed.

(** Not so otherwise: from a catalog of trailers alone single trailers are drawn, though there is a central vehicle to copy. *)
Theorem C75_no_single_trailer_refuted : exists l central p d, swarm_pool l (Some central) fresh_pool = Some (p, d) /\
  forall u r, 0 <= u <= 1 -> exists v, GetRandomVehicle p u r "" = Some (Some v) /\ u_cat (v_self v) = TRAILER.
Proof.
  set (t := Veh (Unit 1 TRAILER true) []). exists [Catalog true [Some t]], (Veh (Unit 2 CAR false) []).
  eexists _, _. split; [reflexivity|]. intros u r U.
  destruct (C75_swarm_draws [Catalog true [Some t]] [t] (Some (Veh (Unit 2 CAR false) [])) _ _ eq_refl eq_refl) with (u := u) (r := r) as (v & A & B); [|exact U|].
  - right. discriminate.
  - exists v. split; [exact A|]. revert A. unfold GetRandomVehicle. simpl. unfold GetRealBetween0. simpl.
    destruct (negb _); [|discriminate]. simpl. intros Z. injection Z as <-. reflexivity.
Qed.
Example C75_no_single_trailer_refuted_ex : exists p d, swarm_pool [Catalog true [Some (Veh (Unit 1 TRAILER true) []); Some (Veh (Unit 2 VAN false) [])]] None fresh_pool = Some (p, d) /\
  GetRandomVehicle p 0 5 "" = Some (Some (Veh (Unit 1 TRAILER true) [])).
Proof. eexists _, _. split; reflexivity. Qed.

(** "A category that is not in the pool gives nothing": not so, it gives a vehicle of another. *)
Theorem C75_unknown_category_refuted : exists l p d, Initialize [] true l fresh_pool = Some (p, d) /\ GetVehicles p "bicycle" = [] /\
  forall u r, 0 <= u <= 1 -> exists v, GetRandomVehicle p u r "bicycle" = Some (Some v) /\ key_of v = "car"%string.
Proof.
  set (t := Veh (Unit 1 CAR false) []). exists [Catalog true [Some t]]. eexists _, _. split; [reflexivity|]. split; [reflexivity|]. intros u r U.
  destruct (C75_random_defined [] true [Catalog true [Some t]] [t] _ _ eq_refl eq_refl) with (u := u) (r := r) (k := "bicycle"%string) as (v & A & B & _); [apply Forall_nil| |exact U|].
  - exists t. split; [left; reflexivity|]. apply wantedb_spec. reflexivity.
  - exists v. split; [exact A|]. destruct B as [<-|[]]. reflexivity.
Qed.
Example C75_unknown_category_refuted_ex : exists p d, Initialize [] true [Catalog true [Some (Veh (Unit 2 BUS false) [])]] fresh_pool = Some (p, d) /\
  GetRandomVehicle p 1 0 "tram" = Some (Some (Veh (Unit 2 BUS false) [])).
Proof. eexists _, _. split; reflexivity. Qed.

(** What is wanted by default, by the swarm and by SUMO, and what it weighs. *)
Theorem C75_default_wanted : forall accept v, wanted (used_categories []) accept v <->
  In (u_cat (v_self v)) [CAR; BUS; TRUCK; VAN; MOTORBIKE] /\ has_trailer v = false.
Proof.
  intros accept v. unfold wanted. simpl. split.
  - intros (A & B & _). split; [tauto|]. destruct (has_trailer v); [|reflexivity]. specialize (B eq_refl). unfold CAR, BUS, TRUCK, VAN, MOTORBIKE, TRAILER in B. exfalso. lia.
  - intros (A & ->). split; [tauto|]. split; [discriminate|]. intros (_ & Z & _). discriminate.
Qed.
Example C75_default_wanted_ex : wanted (used_categories []) true (Veh (Unit 1 VAN false) [Unit 2 TRAILER false]) /\ ~ wanted (used_categories []) true (Veh (Unit 1 VAN false) [Unit 2 TRAILER true]).
Proof. split; [apply C75_default_wanted; simpl; split; [auto 10|reflexivity]|]. intros H. apply C75_default_wanted in H. destruct H as [_ H]. discriminate. Qed.

Theorem C75_swarm_wanted : forall v, wanted swarm_categories true v <-> In (u_cat (v_self v)) [CAR; TRAILER; VAN; BUS; TRUCK; MOTORBIKE].
Proof. intros v. unfold wanted. simpl. split; [tauto|]. intros A. split; [tauto|]. split; [auto|]. intros (Z & _). discriminate. Qed.
Example C75_swarm_wanted_ex : wanted swarm_categories true (Veh (Unit 1 CAR false) [Unit 2 TRAILER true]).
Proof. apply C75_swarm_wanted. simpl. auto. Qed.

Theorem C75_sumo_wanted : forall v, wanted sumo_categories false v <->
  In (u_cat (v_self v)) [CAR; TRAILER; VAN; BUS; TRUCK; MOTORBIKE] /\ (u_cat (v_self v) = CAR -> has_trailer v = false).
Proof.
  intros v. unfold wanted. simpl. split.
  - intros (A & _ & B). split; [tauto|]. intros C. destruct (has_trailer v); [|reflexivity]. exfalso. apply B. auto.
  - intros (A & B). split; [tauto|]. split; [auto 10|]. intros (_ & C & D). rewrite (B D) in C. discriminate.
Qed.
Example C75_sumo_wanted_ex : ~ wanted sumo_categories false (Veh (Unit 1 CAR false) [Unit 2 TRAILER true]) /\ wanted sumo_categories false (Veh (Unit 1 TRUCK false) [Unit 2 TRAILER true]).
Proof. split; [|apply C75_sumo_wanted; simpl; split; [auto 10|discriminate]]. intros H. apply C75_sumo_wanted in H. destruct H as [_ H]. specialize (H eq_refl). discriminate. Qed.

Theorem C75_traffic_weights : forall cs accept l vs p d k g, cs = swarm_categories \/ cs = sumo_categories -> entries l = map Some vs ->
  Initialize cs accept l fresh_pool = Some (p, d) -> In (k, g) (p_groups p) ->
  In (k, g_weight g) [("car", 5); ("trailer", 0); ("van", 2); ("bus", 1); ("truck", 2); ("motorbike", 1)]%string.
Proof.
  intros cs accept l vs p d k g C E I H. destruct (group_weight _ _ _ _ _ _ _ _ E I H) as (v & _ & (W & _) & <- & G).
  unfold key_of. destruct C as [-> | ->]; simpl in W;
  destruct W as [W|[W|[W|[W|[W|[W|[]]]]]]]; rewrite <- W in G |- *; (destruct G as (it & F & ->); [unfold named, CAR, BUS, TRUCK, VAN, MOTORBIKE, TRAILER; lia|]);
  injection F as <-; cbv; auto 10.
Qed.
Example C75_traffic_weights_ex : exists p d, Initialize sumo_categories false [Catalog true [Some (Veh (Unit 2 BUS false) [])]] fresh_pool = Some (p, d) /\
  In ("bus"%string, Group [Veh (Unit 2 BUS false) []] 1) (p_groups p).
Proof. eexists _, _. split; [reflexivity|]. left. reflexivity. Qed.

Print Assumptions C75_init_undefined.
Print Assumptions C75_init_groups.
Print Assumptions C75_default_categories.
Print Assumptions C75_init_keys.
Print Assumptions C75_init_weight.
Print Assumptions C75_init_total.
Print Assumptions C75_category_names.
Print Assumptions C75_delete_order.
Print Assumptions C75_no_leak.
Print Assumptions C75_add_no_leak.
Print Assumptions C75_get_vehicle.
Print Assumptions C75_get_vehicle_first.
Print Assumptions C75_random_named.
Print Assumptions C75_random_defined.
Print Assumptions C75_random_interval.
Print Assumptions C75_zero_weight.
Print Assumptions C75_random_undefined.
Print Assumptions C75_add.
Print Assumptions C75_add_null.
Print Assumptions C75_added_drawn_refuted.
Print Assumptions C75_swarm_draws.
Print Assumptions C75_no_single_trailer_partial.
Print Assumptions C75_no_single_trailer_refuted.
Print Assumptions C75_unknown_category_refuted.
Print Assumptions C75_default_wanted.
Print Assumptions C75_swarm_wanted.
Print Assumptions C75_sumo_wanted.
Print Assumptions C75_traffic_weights.
