(** * Proofs about the vehicle pool *)
From Coq Require Import QArith Bool List String Ascii Lia Lqa Sorting.Permutation Sorting.Sorted.
From Verif Require Import PoolModel.
Import ListNotations.

(** ** What is said *)

(** The entries of the vehicle catalogs, in order. *)
Definition entries (l : list catalog) : list (option vehicle) := flat_map (fun c => if c_vehicle c then c_entries c else []) l.

(** A vehicle the categories ask for. *)
Definition wanted (cs : categories) (accept : bool) (v : vehicle) : Prop :=
  In (u_cat (v_self v)) (map fst cs) /\
  (has_trailer v = true -> In TRAILER (map fst cs)) /\
  ~ (accept = false /\ has_trailer v = true /\ u_cat (v_self v) = CAR).

(** The name of the category of a vehicle. *)
Definition key_of (v : vehicle) : string := Category2String (u_cat (v_self v)).

(** The addresses of a vehicle and its trailers. *)
Definition ids (v : vehicle) : list nat := map u_id (v_self v :: v_trailers v).

(** The groups in the order of their names. *)
Definition before (a b : string * group) : Prop := String.compare (fst a) (fst b) = Lt.
Definition ordered (m : list (string * group)) : Prop := StronglySorted before m.

(** The sum of the weights. *)
Fixpoint weights (m : list (string * group)) : Q := match m with [] => 0 | e :: r => g_weight (snd e) + weights r end.

(** The named categories. *)
Definition named (c : Z) : Prop := (0 <= c <= 9)%Z.

(** ** Names in order *)
Lemma ascii_lt : forall a b, Ascii.compare a b = Lt <-> (N_of_ascii a < N_of_ascii b)%N.
Proof. intros a b. unfold Ascii.compare. apply N.compare_lt_iff. Qed.

Lemma compare_trans : forall a b c, String.compare a b = Lt -> String.compare b c = Lt -> String.compare a c = Lt.
Proof.
  induction a as [|x a IH]; intros [|y b] [|z c]; simpl; try congruence.
  destruct (Ascii.compare x y) eqn:E1; try congruence; intros H1; destruct (Ascii.compare y z) eqn:E2; try congruence; intros H2.
  - apply Ascii.compare_eq_iff in E1, E2. subst y z. rewrite (IH _ _ H1 H2).
    replace (Ascii.compare x x) with Eq; [reflexivity|]. symmetry. unfold Ascii.compare. apply N.compare_refl.
  - apply Ascii.compare_eq_iff in E1. subst y. rewrite E2. reflexivity.
  - apply Ascii.compare_eq_iff in E2. subst z. rewrite E1. reflexivity.
  - pose proof (proj1 (ascii_lt _ _) E1). pose proof (proj1 (ascii_lt _ _) E2). replace (Ascii.compare x z) with Lt; [reflexivity|]. symmetry. apply ascii_lt. lia.
Qed.

Lemma compare_refl : forall a, String.compare a a = Eq.
Proof. induction a as [|x a IH]; simpl; [reflexivity|]. unfold Ascii.compare. rewrite N.compare_refl. exact IH. Qed.

Lemma compare_gt : forall a b, String.compare a b = Gt -> String.compare b a = Lt.
Proof. intros a b H. rewrite String.compare_antisym, H. reflexivity. Qed.

Lemma compare_neq : forall a b, String.compare a b = Lt -> a <> b.
Proof. intros a b H ->. rewrite compare_refl in H. discriminate. Qed.

(** ** The map *)
Lemma find_key_none : forall k m, Forall (fun e => String.compare k (fst e) = Lt) m -> find_key k m = None.
Proof.
  intros k m H. unfold find_key. induction H as [|e m He _ IH]; [reflexivity|].
  simpl. replace (String.eqb (fst e) k) with false; [exact IH|].
  symmetry. apply String.eqb_neq. intros K. rewrite K, compare_refl in He. discriminate.
Qed.

Lemma find_key_cons : forall k k' g m, find_key k ((k', g) :: m) = if String.eqb k' k then Some g else find_key k m.
Proof. intros. unfold find_key. simpl. destruct (String.eqb k' k); reflexivity. Qed.

Definition or_fresh (o : option group) : group := match o with Some g => g | None => fresh_group end.

Lemma change_find : forall k f m k', ordered m ->
  find_key k' (change k f m) = if String.eqb k k' then Some (f (or_fresh (find_key k m))) else find_key k' m.
Proof.
  intros k f m k'. induction m as [|(k1, g) m IH]; intros H; simpl.
  - rewrite find_key_cons. reflexivity.
  - inversion H as [|e l HS HF]; subst. destruct (String.compare k k1) eqn:E.
    + apply String.compare_eq_iff in E. subst k1. rewrite !find_key_cons, String.eqb_refl. destruct (String.eqb k k'); reflexivity.
    + rewrite find_key_cons. rewrite (find_key_none k ((k1, g) :: m)).
      * reflexivity.
      * constructor; [exact E|]. eapply Forall_impl; [|exact HF]. intros e' He. eapply compare_trans; [exact E|exact He].
    + rewrite !find_key_cons. rewrite (IH HS).
      assert (N1 : k1 <> k) by (apply compare_neq, compare_gt; exact E).
      destruct (String.eqb k1 k') eqn:E1; destruct (String.eqb k k') eqn:E2.
      * apply String.eqb_eq in E1, E2. congruence.
      * reflexivity.
      * destruct (String.eqb k1 k) eqn:E3; [apply String.eqb_eq in E3; contradiction|reflexivity].
      * reflexivity.
Qed.

Lemma change_in : forall k f m e, In e (change k f m) -> In e m \/ fst e = k.
Proof.
  intros k f m. induction m as [|(k1, g) m IH]; intros e; simpl.
  - intros [<-|[]]. right. reflexivity.
  - destruct (String.compare k k1) eqn:E; simpl.
    + apply String.compare_eq_iff in E. intros [<-|H]; [right; symmetry; exact E|left; right; exact H].
    + intros [<-|[H|H]]; [right; reflexivity|left; left; exact H|left; right; exact H].
    + intros [H|H]; [left; left; exact H|]. destruct (IH _ H); [left; right; assumption|right; assumption].
Qed.

Lemma change_ordered : forall k f m, ordered m -> ordered (change k f m).
Proof.
  intros k f m. induction m as [|(k1, g) m IH]; intros H; simpl.
  - constructor; constructor.
  - inversion H as [|e l HS HF]; subst. destruct (String.compare k k1) eqn:E.
    + constructor; [exact HS|]. exact HF.
    + constructor; [exact H|]. constructor; [exact E|]. eapply Forall_impl; [|exact HF]. intros e' He. eapply compare_trans; [exact E|exact He].
    + constructor; [exact (IH HS)|]. apply Forall_forall. intros e He. destruct (change_in _ _ _ _ He) as [K|K].
      * rewrite Forall_forall in HF. exact (HF _ K).
      * unfold before. simpl. rewrite K. apply compare_gt. exact E.
Qed.

Lemma find_key_in : forall k g m, find_key k m = Some g -> In (k, g) m.
Proof.
  intros k g m. induction m as [|(k1, g1) m IH]; [discriminate|]. rewrite find_key_cons. destruct (String.eqb k1 k) eqn:E.
  - intros H. injection H as ->. apply String.eqb_eq in E. subst. left. reflexivity.
  - intros H. right. exact (IH H).
Qed.

Lemma in_find_key : forall k g m, ordered m -> In (k, g) m -> find_key k m = Some g.
Proof.
  intros k g m. induction m as [|(k1, g1) m IH]; [contradiction|]. intros H [K|K]; inversion H as [|e l HS HF]; subst; rewrite find_key_cons.
  - injection K as -> ->. rewrite String.eqb_refl. reflexivity.
  - rewrite Forall_forall in HF. specialize (HF _ K). unfold before in HF. simpl in HF. apply compare_neq in HF.
    apply String.eqb_neq in HF. rewrite HF. exact (IH HS K).
Qed.

(** ** Taking the entries *)
Lemma find_category_in : forall c cs, (find_category c cs <> None) <-> In c (map fst cs).
Proof.
  intros c cs. unfold find_category. induction cs as [|(c1, w) cs IH]; simpl; [tauto|].
  destruct (c1 =? c)%Z eqn:E.
  - apply Z.eqb_eq in E. split; intros _; [left; exact E|discriminate].
  - apply Z.eqb_neq in E. rewrite IH. split; [intros H; right; exact H|intros [H|H]; [contradiction|exact H]].
Qed.

Definition wantedb (cs : categories) (accept : bool) (v : vehicle) : bool :=
  let c := u_cat (v_self v) in
  match find_category c cs with
  | None => false
  | Some _ => negb (has_trailer v && match find_category TRAILER cs with None => true | Some _ => false end)
              && negb (Bool.eqb accept false && has_trailer v && (c =? CAR)%Z)
  end.

Lemma wantedb_spec : forall cs accept v, wantedb cs accept v = true <-> wanted cs accept v.
Proof.
  intros cs accept v. unfold wantedb, wanted.
  pose proof (find_category_in (u_cat (v_self v)) cs) as A. pose proof (find_category_in TRAILER cs) as B.
  destruct (find_category (u_cat (v_self v)) cs) as [it|].
  2: { split; [discriminate|]. intros (H & _). apply A in H. contradiction. }
  assert (A' : In (u_cat (v_self v)) (map fst cs)) by (apply A; discriminate).
  destruct (has_trailer v); simpl.
  - rewrite andb_true_r. destruct (find_category TRAILER cs) as [t|]; simpl.
    + assert (B' : In TRAILER (map fst cs)) by (apply B; discriminate).
      destruct accept; simpl; [split; intros _; [repeat split; auto; intros (K & _); discriminate|reflexivity]|].
      destruct (u_cat (v_self v) =? CAR)%Z eqn:E; simpl.
      * apply Z.eqb_eq in E. split; [discriminate|]. intros (_ & _ & K). exfalso. apply K. auto.
      * apply Z.eqb_neq in E. split; intros _; [repeat split; auto; intros (_ & _ & K); contradiction|reflexivity].
    + split; [discriminate|]. intros (_ & K & _). specialize (K eq_refl). apply B in K. contradiction.
  - rewrite andb_false_r. simpl. split; intros _; [repeat split; auto; [discriminate|intros (_ & K & _); discriminate]|reflexivity].
Qed.

Definition vehicles_at (k : string) (m : list (string * group)) : list vehicle := g_vehicles (or_fresh (find_key k m)).

Lemma take_cases : forall cs accept m v, ordered m ->
  exists m' d, take cs accept m (Some v) = Some (m', d) /\ ordered m' /\
    d = (if wantedb cs accept v then [] else DeleteVehicleAndTrailers v) /\
    (forall k, find_key k m' =
       if wantedb cs accept v && String.eqb (key_of v) k
       then Some (Group (vehicles_at k m ++ [v]) (match find_category (u_cat (v_self v)) cs with Some it => snd it | None => 0 end))
       else find_key k m).
Proof.
  intros cs accept m v H. unfold take, wantedb. destruct (find_category (u_cat (v_self v)) cs) as [it|] eqn:F.
  2: { exists m, (DeleteVehicleAndTrailers v). auto. }
  destruct (negb _ && negb _) eqn:E.
  - eexists _, _. split; [reflexivity|]. split; [apply change_ordered, change_ordered; exact H|]. split; [reflexivity|].
    intros k. rewrite andb_true_l. rewrite change_find by (apply change_ordered; exact H). unfold key_of.
    destruct (String.eqb _ k) eqn:K.
    + apply String.eqb_eq in K. subst k. rewrite change_find by exact H. rewrite String.eqb_refl. reflexivity.
    + rewrite change_find by exact H. rewrite K. reflexivity.
  - exists m, (DeleteVehicleAndTrailers v). auto.
Qed.

(** What holds of the groups made of the wanted vehicles. *)
Definition weights_ok (cs : categories) (m : list (string * group)) : Prop :=
  forall c g it, named c -> find_key (Category2String c) m = Some g -> find_category c cs = Some it -> g_weight g = snd it.

Lemma named_cases : forall c, named c -> c = 0%Z \/ c = 1%Z \/ c = 2%Z \/ c = 3%Z \/ c = 4%Z \/ c = 5%Z \/ c = 6%Z \/ c = 7%Z \/ c = 8%Z \/ c = 9%Z.
Proof. unfold named. intros c H. lia. Qed.

Lemma Category2String_inj : forall c c', named c -> Category2String c' = Category2String c -> c' = c.
Proof.
  intros c c' H. destruct (named_cases _ H) as [->|[->|[->|[->|[->|[->|[->|[->|[->| ->]]]]]]]]];
  unfold Category2String, BICYCLE, BUS, CAR, MOTORBIKE, SEMITRAILER, TRAILER, TRAIN, TRAM, TRUCK, VAN; simpl;
  repeat (match goal with |- context [(c' =? ?x)%Z] => destruct (Z.eqb_spec c' x) as [->|]; [intros; first [reflexivity|discriminate]|] end);
  discriminate.
Qed.

Lemma take_all_spec : forall cs accept vs m, ordered m ->
  exists m', take_all cs accept m (map Some vs) = Some (m', flat_map DeleteVehicleAndTrailers (filter (fun v => negb (wantedb cs accept v)) vs)) /\
    ordered m' /\
    (forall k, vehicles_at k m' = vehicles_at k m ++ filter (fun v => wantedb cs accept v && String.eqb (key_of v) k) vs) /\
    (forall k, find_key k m' <> None <-> find_key k m <> None \/ exists v, In v vs /\ wantedb cs accept v = true /\ key_of v = k) /\
    (weights_ok cs m -> weights_ok cs m').
Proof.
  intros cs accept vs. induction vs as [|v vs IH]; intros m H.
  - exists m. simpl. split; [reflexivity|]. split; [exact H|]. split; [intros k; rewrite app_nil_r; reflexivity|]. split; [|auto].
    intros k. split; [auto|]. intros [K|(v & [] & _)]. exact K.
  - destruct (take_cases cs accept m v H) as (m1 & d & T & O1 & D & F1).
    cbn [map take_all filter In]. rewrite T.
    destruct (IH m1 O1) as (m2 & T2 & O2 & V2 & K2 & W2). exists m2. rewrite T2. split.
    { subst d. destruct (wantedb cs accept v); reflexivity. }
    split; [exact O2|]. split.
    { intros k. rewrite V2. unfold vehicles_at at 1. rewrite F1. destruct (wantedb cs accept v && String.eqb (key_of v) k); simpl.
      - rewrite <- app_assoc. reflexivity.
      - reflexivity. }
    split.
    { intros k. rewrite K2. rewrite F1. destruct (wantedb cs accept v && String.eqb (key_of v) k) eqn:Ev.
      - apply andb_prop in Ev. destruct Ev as [Ev Ek]. apply String.eqb_eq in Ek. split.
        + intros _. right. exists v. split; [left; reflexivity|]. split; [exact Ev|exact Ek].
        + intros _. left. discriminate.
      - split.
        + intros [A|(x & A & B)]; [left; exact A|]. right. exists x. split; [right; exact A|exact B].
        + intros [A|(x & [A|A] & B)]; [left; exact A| |right; exists x; split; [exact A|exact B]].
          subst x. destruct B as [B1 B2]. apply String.eqb_eq in B2. rewrite B1, B2 in Ev. discriminate. }
    { intros W. apply W2. intros c g it Nc Fk Fc. rewrite F1 in Fk. destruct (wantedb cs accept v && String.eqb (key_of v) (Category2String c)) eqn:E.
      - apply andb_prop in E. destruct E as [_ E]. apply String.eqb_eq in E. unfold key_of in E. apply (Category2String_inj c _ Nc) in E.
        injection Fk as <-. simpl. rewrite E, Fc. reflexivity.
      - exact (W c g it Nc Fk Fc). }
Qed.

Lemma take_all_app : forall cs accept es1 es2 m,
  take_all cs accept m (es1 ++ es2) =
  match take_all cs accept m es1 with
  | None => None
  | Some (m1, d1) => match take_all cs accept m1 es2 with None => None | Some (m2, d2) => Some (m2, d1 ++ d2) end
  end.
Proof.
  intros cs accept es1 es2. induction es1 as [|e es1 IH]; intros m; simpl.
  - destruct (take_all cs accept m es2) as [(m2, d2)|]; reflexivity.
  - destruct (take cs accept m e) as [(m1, d1)|]; [|reflexivity]. rewrite IH. destruct (take_all cs accept m1 es1) as [(m2, d2)|]; [|reflexivity].
    destruct (take_all cs accept m2 es2) as [(m3, d3)|]; [|reflexivity]. rewrite app_assoc. reflexivity.
Qed.

Lemma take_catalogs_all : forall cs accept l m, take_catalogs cs accept m l = take_all cs accept m (entries l).
Proof.
  intros cs accept l. induction l as [|c l IH]; intros m; simpl; [reflexivity|].
  rewrite take_all_app. destruct (c_vehicle c); simpl.
  - destruct (take_all cs accept m (c_entries c)) as [(m1, d1)|]; [|reflexivity]. rewrite IH. reflexivity.
  - rewrite IH. reflexivity.
Qed.

Lemma take_all_none : forall cs accept es m, take_all cs accept m es = None <-> In None es.
Proof.
  intros cs accept es. induction es as [|[v|] es IH]; intros m; cbn [take_all In].
  - split; [discriminate|contradiction].
  - destruct (take cs accept m (Some v)) as [(m1, d1)|] eqn:T.
    + specialize (IH m1). destruct (take_all cs accept m1 es) as [(m2, d2)|].
      * split; [discriminate|]. intros [K|K]; [discriminate|]. apply IH in K. discriminate.
      * split; [|reflexivity]. intros _. right. apply IH. reflexivity.
    + exfalso. unfold take in T. destruct (find_category _ _); [destruct (_ && _)|]; discriminate.
  - split; [intros _; left; reflexivity|reflexivity].
Qed.

Lemma all_some : forall es : list (option vehicle), ~ In None es -> exists vs, es = map Some vs.
Proof.
  induction es as [|[v|] es IH]; intros H.
  - exists []. reflexivity.
  - destruct IH as (vs & ->); [intros K; apply H; right; exact K|]. exists (v :: vs). reflexivity.
  - exfalso. apply H. left. reflexivity.
Qed.

Lemma fold_weights : forall m a, fold_left (fun sum e => sum + g_weight (snd e)) m a == a + weights m.
Proof. induction m as [|e m IH]; intros a; simpl; [ring|]. rewrite IH. ring. Qed.

Lemma ordered_nil : ordered [].
Proof. constructor. Qed.

Lemma init_ok : forall cs accept l p vs, ordered (p_groups p) -> entries l = map Some vs ->
  exists q, Initialize cs accept l p = Some (q, flat_map DeleteVehicleAndTrailers (filter (fun v => negb (wantedb (used_categories cs) accept v)) vs)) /\
    ordered (p_groups q) /\
    (forall k, GetVehicles q k = GetVehicles p k ++ filter (fun v => wantedb (used_categories cs) accept v && String.eqb (key_of v) k) vs) /\
    (forall k, find_key k (p_groups q) <> None <-> find_key k (p_groups p) <> None \/ exists v, In v vs /\ wantedb (used_categories cs) accept v = true /\ key_of v = k) /\
    (weights_ok (used_categories cs) (p_groups p) -> weights_ok (used_categories cs) (p_groups q)) /\
    p_total q == weights (p_groups q).
Proof.
  intros cs accept l p vs O E. unfold Initialize. rewrite take_catalogs_all, E.
  destruct (take_all_spec (used_categories cs) accept vs (p_groups p) O) as (m' & T & O' & V & K & W). rewrite T.
  eexists. split; [reflexivity|]. simpl. split; [exact O'|]. split.
  { intros k. specialize (V k). unfold vehicles_at in V. unfold GetVehicles. simpl.
    destruct (find_key k m'), (find_key k (p_groups p)); exact V. }
  split; [exact K|]. split; [exact W|]. rewrite fold_weights. ring.
Qed.

(** ** Deleting *)
Lemma recursive_delete_rev : forall ts v, recursive_delete v ts = rev (map u_id (v :: ts)).
Proof. induction ts as [|t ts IH]; intros v; simpl; [reflexivity|]. rewrite IH. reflexivity. Qed.

Lemma delete_rev : forall v, DeleteVehicleAndTrailers v = rev (ids v).
Proof. intros [s ts]. unfold DeleteVehicleAndTrailers, ids. simpl. destruct ts as [|t ts]; [reflexivity|]. rewrite recursive_delete_rev. reflexivity. Qed.

Lemma delete_perm : forall v, Permutation (DeleteVehicleAndTrailers v) (ids v).
Proof. intros v. rewrite delete_rev. symmetry. apply Permutation_rev. Qed.

Definition all_vehicles (m : list (string * group)) : list vehicle := flat_map (fun e => g_vehicles (snd e)) m.

Lemma change_push : forall k v m, ordered m ->
  Permutation (all_vehicles (change k (fun g => Group (g_vehicles g ++ [v]) (g_weight g)) m)) (v :: all_vehicles m).
Proof.
  intros k v m. induction m as [|(k1, g) m IH]; intros H; simpl; [apply Permutation_refl|].
  destruct (String.compare k k1); simpl.
  - rewrite <- app_assoc. simpl. symmetry. apply Permutation_middle.
  - apply Permutation_refl.
  - inversion H; subst. rewrite IH by assumption. symmetry. apply Permutation_middle.
Qed.

Lemma change_weight : forall k w m, find_key k m <> None -> ordered m ->
  all_vehicles (change k (fun g => Group (g_vehicles g) w) m) = all_vehicles m.
Proof.
  intros k w m. induction m as [|(k1, g) m IH]; intros F H; simpl; [exfalso; apply F; reflexivity|].
  inversion H as [|e l HS HF]; subst. destruct (String.compare k k1) eqn:E; simpl; [reflexivity|reflexivity|].
  f_equal. apply IH; [|exact HS]. rewrite find_key_cons in F. replace (String.eqb k1 k) with false in F; [exact F|].
  symmetry. apply String.eqb_neq. apply compare_neq, compare_gt. exact E.
Qed.

Lemma take_all_perm : forall cs accept vs m m' d, ordered m -> take_all cs accept m (map Some vs) = Some (m', d) ->
  Permutation (all_vehicles m') (all_vehicles m ++ filter (wantedb cs accept) vs).
Proof.
  intros cs accept vs. induction vs as [|v vs IH]; intros m m' d O T.
  - simpl in T. injection T as <- <-. simpl. rewrite app_nil_r. apply Permutation_refl.
  - cbn [map take_all] in T. destruct (take cs accept m (Some v)) as [(m1, d1)|] eqn:E; [|discriminate].
    destruct (take_all cs accept m1 (map Some vs)) as [(m2, d2)|] eqn:E2; [|discriminate]. injection T as <- <-.
    destruct (take_cases cs accept m v O) as (m1' & d' & T' & O1 & _). rewrite E in T'. injection T' as <- <-.
    rewrite (IH _ _ _ O1 E2). simpl. unfold take in E. unfold wantedb at 2. destruct (find_category (u_cat (v_self v)) cs) as [it|].
    + destruct (negb _ && negb _).
      * injection E as <- <-. rewrite change_weight.
        -- rewrite change_push by exact O. apply Permutation_middle.
        -- rewrite change_find by exact O. rewrite String.eqb_refl. discriminate.
        -- apply change_ordered. exact O.
      * injection E as <- <-. apply Permutation_refl.
    + injection E as <- <-. apply Permutation_refl.
Qed.

Lemma destroy_perm : forall p, Permutation (destroy p) (flat_map ids (all_vehicles (p_groups p))).
Proof.
  intros p. unfold destroy, all_vehicles. induction (p_groups p) as [|e m IH]; simpl; [constructor|].
  rewrite flat_map_app. apply Permutation_app; [|exact IH]. induction (g_vehicles (snd e)) as [|v vs IHv]; cbn [flat_map]; [constructor|].
  apply Permutation_app; [apply delete_perm|exact IHv].
Qed.

Lemma flat_map_perm : forall (l : list vehicle), Permutation (flat_map DeleteVehicleAndTrailers l) (flat_map ids l).
Proof. induction l as [|v l IH]; cbn [flat_map]; [constructor|]. apply Permutation_app; [apply delete_perm|exact IH]. Qed.

Lemma flat_map_perm2 : forall (l l' : list vehicle), Permutation l l' -> Permutation (flat_map ids l) (flat_map ids l').
Proof.
  intros l l' H. induction H; cbn [flat_map]; [constructor|apply Permutation_app_head; assumption| |eapply Permutation_trans; eassumption].
  rewrite !app_assoc. apply Permutation_app_tail. apply Permutation_app_comm.
Qed.

Lemma filter_split : forall (f : vehicle -> bool) l, Permutation (filter (fun v => negb (f v)) l ++ filter f l) l.
Proof.
  intros f l. induction l as [|v l IH]; simpl; [constructor|]. destruct (f v); simpl.
  - rewrite <- Permutation_middle. constructor. exact IH.
  - constructor. exact IH.
Qed.

(** ** Drawing *)
Definition chosen (m : list (string * group)) (sample : Q) (e : string * group) : Prop :=
  exists l1 l2, m = l1 ++ e :: l2 /\ (l1 = [] \/ weights l1 + SMALL_NUMBER <= sample) /\ sample < weights l1 + g_weight (snd e) + SMALL_NUMBER.

Lemma Qle_bool_false : forall a b, Qle_bool a b = false <-> b < a.
Proof.
  intros a b. split; intros H.
  - apply Qnot_le_lt. intros K. apply Qle_bool_iff in K. congruence.
  - destruct (Qle_bool a b) eqn:E; [|reflexivity]. apply Qle_bool_iff in E. lra.
Qed.

Lemma weights_app : forall a b, weights (a ++ b) == weights a + weights b.
Proof. induction a as [|e a IH]; intros b; simpl; [ring|]. rewrite IH. ring. Qed.

Lemma weights_nonneg : forall m, Forall (fun e => 0 <= g_weight (snd e)) m -> 0 <= weights m.
Proof. intros m H. induction H; simpl; lra. Qed.

Lemma map_sample_chosen : forall m sample cum e, map_sample sample cum m = Some e ->
  exists l1 l2, m = l1 ++ e :: l2 /\ (l1 = [] \/ cum + weights l1 + SMALL_NUMBER <= sample) /\ sample < cum + weights l1 + g_weight (snd e) + SMALL_NUMBER.
Proof.
  induction m as [|a m IH]; intros sample cum e; simpl; [discriminate|].
  destruct (Qle_bool _ sample) eqn:E; simpl.
  - intros H. apply IH in H. destruct H as (l1 & l2 & -> & H1 & H2). apply Qle_bool_iff in E. exists (a :: l1), l2. split; [reflexivity|]. simpl.
    split; [right|lra]. destruct H1 as [->|H1]; simpl; lra.
  - intros H. injection H as <-. apply Qle_bool_false in E. exists [], m. split; [reflexivity|]. simpl. split; [left; reflexivity|lra].
Qed.

Lemma map_sample_complete : forall l1 sample cum e l2, Forall (fun e => 0 <= g_weight (snd e)) l1 ->
  (l1 = [] \/ cum + weights l1 + SMALL_NUMBER <= sample) -> sample < cum + weights l1 + g_weight (snd e) + SMALL_NUMBER ->
  map_sample sample cum (l1 ++ e :: l2) = Some e.
Proof.
  induction l1 as [|a l1 IH]; intros sample cum e l2 P H1 H2; simpl.
  - simpl in H2. replace (Qle_bool _ sample) with false; [reflexivity|]. symmetry. apply Qle_bool_false. lra.
  - inversion P; subst. destruct H1 as [H1|H1]; [discriminate|]. simpl in H1, H2.
    assert (W : 0 <= weights l1) by (apply weights_nonneg; assumption).
    replace (Qle_bool _ sample) with true by (symmetry; apply Qle_bool_iff; lra). simpl. apply IH; [assumption| |lra].
    right. lra.
Qed.

Lemma map_sample_some : forall m sample cum, m <> [] -> sample < cum + weights m + SMALL_NUMBER -> exists e, map_sample sample cum m = Some e.
Proof.
  induction m as [|a m IH]; intros sample cum N H; [contradiction|]. simpl.
  destruct (Qle_bool _ sample) eqn:E; simpl; [|eexists; reflexivity]. apply Qle_bool_iff in E. simpl in H.
  destruct m as [|b m].
  - simpl in H. exfalso. lra.
  - apply IH; [discriminate|lra].
Qed.

Lemma map_sample_in : forall m sample cum e, map_sample sample cum m = Some e -> In e m.
Proof. intros m sample cum e H. apply map_sample_chosen in H. destruct H as (l1 & l2 & -> & _). apply in_or_app. right. left. reflexivity. Qed.

Lemma pick_in : forall (vs : list vehicle) r, vs <> [] -> exists v, nth_error vs (GetNumberBetween0 (List.length vs - 1) r) = Some v /\ In v vs.
Proof.
  intros vs r N. destruct (nth_error vs (GetNumberBetween0 (List.length vs - 1) r)) as [v|] eqn:E.
  - exists v. split; [reflexivity|]. eapply nth_error_In. exact E.
  - exfalso. apply nth_error_None in E. unfold GetNumberBetween0 in E. destruct vs as [|v vs]; [contradiction|].
    pose proof (Nat.mod_upper_bound r (S (List.length (v :: vs) - 1))) as B. simpl List.length in *. lia.
Qed.

Lemma pick_all : forall (vs : list vehicle) v, In v vs -> exists r, nth_error vs (GetNumberBetween0 (List.length vs - 1) r) = Some v.
Proof.
  intros vs v H. apply In_nth_error in H. destruct H as (n & H). exists n. rewrite <- H. f_equal. unfold GetNumberBetween0.
  assert (n < List.length vs)%nat by (apply nth_error_Some; congruence). apply Nat.mod_small. lia.
Qed.

Lemma find_pair : forall k m, find (fun e => String.eqb (fst e) k) m = match find_key k m with Some g => Some (k, g) | None => None end.
Proof.
  intros k m. unfold find_key. destruct (find _ m) as [(k1, g)|] eqn:E; [|reflexivity]. simpl.
  apply find_some in E. destruct E as [_ E]. apply String.eqb_eq in E. simpl in E. subst. reflexivity.
Qed.

(** Drawn by the given category or by weight. *)
Lemma random_named : forall p u r k g, find_key k (p_groups p) = Some g -> g_vehicles g <> [] ->
  GetRandomVehicle p u r k = Some (nth_error (g_vehicles g) (GetNumberBetween0 (List.length (g_vehicles g) - 1) r)).
Proof. intros p u r k g F N. unfold GetRandomVehicle. rewrite find_pair, F. simpl. destruct (g_vehicles g); [contradiction|reflexivity]. Qed.

Lemma random_weighted : forall p u r k, find_key k (p_groups p) = None -> 0 <= p_total p ->
  Forall (fun e => g_vehicles (snd e) <> []) (p_groups p) ->
  GetRandomVehicle p u r k =
  Some (match map_sample (u * p_total p) 0 (p_groups p) with
        | None => None
        | Some e => nth_error (g_vehicles (snd e)) (GetNumberBetween0 (List.length (g_vehicles (snd e)) - 1) r)
        end).
Proof.
  intros p u r k F T N. unfold GetRandomVehicle. rewrite find_pair, F. unfold GetRealBetween0. replace (Qle_bool 0 (p_total p)) with true by (symmetry; apply Qle_bool_iff; exact T).
  destruct (map_sample _ 0 (p_groups p)) as [e|] eqn:E; [|reflexivity]. rewrite Forall_forall in N. specialize (N e (map_sample_in _ _ _ _ E)).
  destruct (g_vehicles (snd e)); [contradiction|reflexivity].
Qed.

(** ** The pool made of a list of vehicles *)
Lemma used_nonempty : forall cs, used_categories cs <> [].
Proof. intros [|c cs]; discriminate. Qed.

Lemma GetVehicles_in : forall q k g, find_key k (p_groups q) = Some g -> GetVehicles q k = g_vehicles g.
Proof. intros q k g F. unfold GetVehicles. rewrite F. reflexivity. Qed.

Lemma groups_nonempty : forall cs accept l vs q d, entries l = map Some vs -> Initialize cs accept l fresh_pool = Some (q, d) ->
  Forall (fun e => g_vehicles (snd e) <> []) (p_groups q).
Proof.
  intros cs accept l vs q d E I. destruct (init_ok cs accept l fresh_pool vs ordered_nil E) as (q' & I' & O & V & K & _).
  rewrite I in I'. injection I' as <- ->. apply Forall_forall. intros (k, g) H. simpl.
  pose proof (in_find_key _ _ _ O H) as F. assert (N : find_key k (p_groups q) <> None) by (rewrite F; discriminate).
  apply K in N. destruct N as [N|(v & A & B & C)]; [exfalso; apply N; reflexivity|].
  rewrite <- (GetVehicles_in _ _ _ F), V. intros Z. apply app_eq_nil in Z. destruct Z as [_ Z].
  assert (In v (filter (fun v => wantedb (used_categories cs) accept v && String.eqb (key_of v) k) vs)) as J.
  { apply filter_In. split; [exact A|]. rewrite B. simpl. apply String.eqb_eq. exact C. }
  rewrite Z in J. exact J.
Qed.

(** Every group is one of a wanted vehicle; with nothing but named categories its weight is known. *)
Lemma group_weight : forall cs accept l vs q d k g, entries l = map Some vs -> Initialize cs accept l fresh_pool = Some (q, d) ->
  In (k, g) (p_groups q) ->
  exists v, In v vs /\ wanted (used_categories cs) accept v /\ key_of v = k /\
    (named (u_cat (v_self v)) -> exists it, find_category (u_cat (v_self v)) (used_categories cs) = Some it /\ g_weight g = snd it).
Proof.
  intros cs accept l vs q d k g E I H. destruct (init_ok cs accept l fresh_pool vs ordered_nil E) as (q' & I' & O & V & K & W & _).
  rewrite I in I'. injection I' as <- ->. pose proof (in_find_key _ _ _ O H) as F.
  assert (N : find_key k (p_groups q) <> None) by (rewrite F; discriminate).
  apply K in N. destruct N as [N|(v & A & B & C)]; [exfalso; apply N; reflexivity|].
  exists v. split; [exact A|]. apply wantedb_spec in B. split; [exact B|]. split; [exact C|]. intros Nc.
  destruct B as (B & _). apply find_category_in in B. destruct (find_category (u_cat (v_self v)) (used_categories cs)) as [it|] eqn:Ec; [|contradiction].
  exists it. split; [reflexivity|]. apply (W (fun c g it _ Z _ => ltac:(discriminate Z)) (u_cat (v_self v)) g it Nc); [|exact Ec].
  change (Category2String (u_cat (v_self v))) with (key_of v). rewrite C. exact F.
Qed.

Lemma find_category_some : forall c cs it, find_category c cs = Some it -> In it cs /\ fst it = c.
Proof. intros c cs it H. apply find_some in H. destruct H as [A B]. apply Z.eqb_eq in B. auto. Qed.

Lemma weights_ge : forall cs accept l vs q d, entries l = map Some vs -> Initialize cs accept l fresh_pool = Some (q, d) ->
  Forall (fun c => named (fst c) /\ 0 <= snd c) cs -> Forall (fun e => 0 <= g_weight (snd e)) (p_groups q).
Proof.
  intros cs accept l vs q d E I H. apply Forall_forall. intros (k, g) J. simpl.
  destruct (group_weight _ _ _ _ _ _ _ _ E I J) as (v & _ & Wv & _ & G).
  assert (U : Forall (fun c => named (fst c) /\ 0 <= snd c) (used_categories cs)).
  { destruct cs as [|c cs]; [|exact H]. unfold used_categories, default_categories, named, CAR, BUS, TRUCK, VAN, MOTORBIKE.
    repeat (apply Forall_cons; [simpl; split; [lia|lra]|]). apply Forall_nil. }
  rewrite Forall_forall in U. destruct Wv as (Wv & _). apply in_map_iff in Wv. destruct Wv as (it & Ei & Ii).
  destruct (U _ Ii) as [Nc _]. rewrite Ei in Nc. destruct (G Nc) as (it2 & F2 & ->). apply find_category_some in F2. destruct F2 as [F2 _]. exact (proj2 (U _ F2)).
Qed.

Lemma ordered_keys : forall m, ordered m -> NoDup (map fst m) /\ StronglySorted (fun a b => String.compare a b = Lt) (map fst m).
Proof.
  intros m H. induction H as [|e m HS IH HF]; simpl; [split; constructor|]. destruct IH as [D S]. split; constructor; auto.
  - intros K. apply in_map_iff in K. destruct K as (x & Ex & Ix). rewrite Forall_forall in HF. specialize (HF _ Ix). unfold before in HF.
    rewrite Ex, compare_refl in HF. discriminate.
  - apply Forall_forall. intros k K. apply in_map_iff in K. destruct K as (x & <- & Ix). rewrite Forall_forall in HF. exact (HF _ Ix).
Qed.

Lemma map_sample_prefix : forall m sample cum e m', map_sample sample cum m = Some e -> map_sample sample cum (m ++ m') = Some e.
Proof. induction m as [|a m IH]; intros sample cum e m'; simpl; [discriminate|]. destruct (negb _); [auto|]. apply IH. Qed.
