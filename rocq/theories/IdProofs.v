(** * Lemmas on internal ids *)
From Coq Require Import List Ascii NArith Bool Lia Arith.
From Verif Require Import StrModel StrProofs IdModel.
Import ListNotations.
Local Open Scope N_scope.

Lemma str_eqb_spec : forall a b, reflect (a = b) (str_eqb a b).
Proof. intros a b. apply iff_reflect. symmetry. apply str_eqb_eq. Qed.

(** ** Specification *)

(** [decimal s v]: [s] is a decimal numeral of value [v]. *)
Inductive decimal : str -> N -> Prop :=
| dec_one : forall c, isdigit c = true -> decimal [c] (N_of_ascii c - 48)
| dec_more : forall s v c, decimal s v -> isdigit c = true -> decimal (s ++ [c]) (10 * v + (N_of_ascii c - 48)).

(** [numeric s v]: the id string is a number that can be used as it is. *)
Definition numeric (s : str) (v : N) : Prop := decimal s v /\ (List.length s <= 10)%nat /\ v <= ID_MAX.

(** The id at position [k]. *)
Definition id_at (l : ids) (k : nat) : option N := option_map fst (nth_error l k).

(** ** Numbers *)

Lemma number_loop_spec : forall s m c, number_loop s (Some m) c = true <-> forallb isdigit s = true /\ (s = [] \/ c + N.of_nat (List.length s) <= m).
Proof.
  induction s as [|a s IH]; intros m c; cbn [number_loop forallb List.length].
  - split; auto.
  - destruct (isdigit a); cbn [negb orb andb]; [|split; [discriminate|intros [H _]; discriminate]].
    destruct (N.ltb_spec m (c + 1)) as [L|L].
    + split; [discriminate|]. intros [_ [H|H]]; [discriminate|lia].
    + rewrite IH. split; intros [H1 H2]; (split; [exact H1|]).
      * right. destruct H2 as [->|H2]; [cbn; lia|lia].
      * right. destruct H2 as [H2|H2]; [discriminate|lia].
Qed.

Lemma decimal_digits : forall s v, decimal s v -> s <> [] /\ forallb isdigit s = true /\ as_ullong s = v.
Proof.
  intros s v D. induction D as [c H|s v c D (I1 & I2 & I3) H].
  - split; [discriminate|]. split; [cbn; rewrite H; reflexivity|]. reflexivity.
  - split; [destruct s; discriminate|]. split; [rewrite forallb_app, I2; cbn; rewrite H; reflexivity|].
    unfold as_ullong in *. rewrite fold_left_app, I3. cbn [fold_left]. lia.
Qed.

Lemma digits_decimal : forall s, s <> [] -> forallb isdigit s = true -> decimal s (as_ullong s).
Proof.
  induction s as [|c s IH] using rev_ind; [congruence|]. intros _ H. rewrite forallb_app in H. apply andb_true_iff in H. destruct H as [H1 H2].
  cbn in H2. rewrite andb_true_r in H2.
  destruct s as [|a s]; [apply dec_one; exact H2|].
  unfold as_ullong. rewrite fold_left_app. cbn [fold_left]. rewrite (N.mul_comm _ 10). apply dec_more; [|exact H2]. apply IH; [discriminate|exact H1].
Qed.

Lemma numeric_test : forall s, IsNumber s (Some 10) && (as_ullong s <=? ID_MAX) = true <-> numeric s (as_ullong s).
Proof.
  intros s. unfold numeric. rewrite andb_true_iff, N.leb_le. unfold IsNumber. destruct s as [|a s].
  - split; [intros [H _]; discriminate|]. intros (D & _). apply decimal_digits in D. destruct D as [D _]. congruence.
  - rewrite number_loop_spec. split.
    + intros [[H1 H2] H3]. split; [apply digits_decimal; [discriminate|exact H1]|]. split; [|exact H3].
      destruct H2 as [H2|H2]; [discriminate|]. lia.
    + intros (D & L & H3). apply decimal_digits in D. destruct D as (_ & D & _). split; [|exact H3]. split; [exact D|]. right. lia.
Qed.

Lemma numeric_val : forall s v, numeric s v -> as_ullong s = v.
Proof. intros s v (D & _). apply decimal_digits in D. tauto. Qed.

Lemma numeric_yes : forall s v, numeric s v -> IsNumber s (Some 10) && (as_ullong s <=? ID_MAX) = true.
Proof. intros s v H. apply numeric_test. rewrite (numeric_val _ _ H). exact H. Qed.

(** ** Renumbering *)

Lemma resolve_strs : forall l c n, map snd (fst (resolve l c n)) = map snd l.
Proof.
  induction l as [|[i s] l IH]; intros c n; [reflexivity|]. cbn [resolve]. destruct (i =? c).
  - specialize (IH c (incr n)). destruct (resolve l c (incr n)). cbn in *. rewrite IH. reflexivity.
  - specialize (IH c n). destruct (resolve l c n). cbn in *. rewrite IH. reflexivity.
Qed.

Lemma resolve_nth : forall l c n k i s, nth_error l k = Some (i, s) -> i <> c -> nth_error (fst (resolve l c n)) k = Some (i, s).
Proof.
  induction l as [|[j t] l IH]; intros c n [|k] i s E D; try discriminate; cbn [resolve].
  - cbn in E. injection E as -> ->. destruct (N.eqb_spec i c); [contradiction|]. destruct (resolve l c n). reflexivity.
  - cbn in E. destruct (j =? c).
    + specialize (IH c (incr n) k i s E D). destruct (resolve l c (incr n)). exact IH.
    + specialize (IH c n k i s E D). destruct (resolve l c n). exact IH.
Qed.

Lemma resolve_notin : forall l c n, ~ In c (map fst l) -> resolve l c n = (l, n).
Proof.
  induction l as [|[j t] l IH]; intros c n H; [reflexivity|]. cbn [resolve]. cbn in H.
  destruct (N.eqb_spec j c); [tauto|]. rewrite IH by tauto. reflexivity.
Qed.

Lemma resolve_in : forall l c n, NoDup (map fst l) -> In c (map fst l) ->
  exists l1 s l2, l = l1 ++ (c, s) :: l2 /\ resolve l c n = (l1 ++ (n, s) :: l2, incr n).
Proof.
  induction l as [|[j t] l IH]; intros c n D H; [destruct H|]. cbn [map fst] in D. inversion D as [|? ? D1 D2]; subst. cbn [resolve].
  destruct (N.eqb_spec j c) as [->|Ne].
  - exists [], t, l. rewrite resolve_notin by exact D1. split; reflexivity.
  - destruct H as [H|H]; [contradiction|]. destruct (IH c n D2 H) as (l1 & s & l2 & -> & E). rewrite E.
    exists ((j, t) :: l1), s, l2. split; reflexivity.
Qed.

Lemma resolve_keeps_undef : forall l c n, c <= ID_MAX -> In ID_UNDEFINED (map fst l) -> In ID_UNDEFINED (map fst (fst (resolve l c n))).
Proof.
  intros l c n L H. apply in_map_iff in H. destruct H as ([i s] & E & H). cbn in E. subst. apply In_nth_error in H. destruct H as [k H].
  apply (resolve_nth _ c n) in H; [|unfold ID_UNDEFINED, ID_MAX in *; lia]. apply nth_error_In in H. apply in_map_iff. exists (ID_UNDEFINED, s). auto.
Qed.

(** ** The invariant *)

Definition fresh (st : ids * N) : Prop := NoDup (map fst (fst st)) /\ (forall i, In i (map fst (fst st)) -> i < snd st) /\ snd st <= ID_UNDEFINED.
Definition good (st : ids * N) : Prop := fresh st \/ In ID_UNDEFINED (map fst (fst st)).

Lemma incr_small : forall n, n < ID_UNDEFINED -> incr n = n + 1.
Proof. intros n H. unfold incr. apply N.mod_small. unfold ID_UNDEFINED in H. lia. Qed.

Lemma nodup_swap : forall (a : list N) c n b, NoDup (a ++ c :: b) -> (forall i, In i (a ++ c :: b) -> i < n) -> NoDup ((a ++ n :: b) ++ [c]).
Proof.
  intros a c n b D H. assert (E : Permutation.Permutation ((a ++ n :: b) ++ [c]) (n :: (a ++ c :: b))).
  { rewrite <- app_assoc. cbn [app]. apply Permutation.Permutation_sym. etransitivity; [|apply Permutation.Permutation_middle].
    constructor. apply Permutation.Permutation_app_head. apply Permutation.Permutation_cons_append. }
  apply (Permutation.Permutation_NoDup (Permutation.Permutation_sym E)). constructor; [|exact D].
  intros I. specialize (H _ I). lia.
Qed.

Lemma fresh_add : forall l n i s, NoDup (map fst l) -> ~ In i (map fst l) -> (forall j, In j (map fst l) -> j < n) -> i < n -> n <= ID_UNDEFINED ->
  fresh (l ++ [(i, s)], n).
Proof.
  intros l n i s D N L Li Ln. unfold fresh. cbn [fst snd]. rewrite map_app. cbn [map fst].
  split; [|split; [|exact Ln]].
  - apply (Permutation.Permutation_NoDup (l := i :: map fst l)); [apply Permutation.Permutation_cons_append|]. constructor; assumption.
  - intros j H. apply in_app_or in H. destruct H as [H|[<-|[]]]; auto.
Qed.

(** What one round does to the counter when nothing runs out. *)
Lemma step_fresh : forall l n s st', fresh (l, n) -> establish_step (l, n) s = Some st' ->
  good st' /\ (n < ID_UNDEFINED -> fresh st' /\ (snd st' <= N.max (n + 1) (as_ullong s + 1) \/ False)).
Proof.
  intros l n s st' (D & L & Ln) E. cbn [fst snd] in *. unfold establish_step in E.
  destruct (IsNumber s (Some 10) && (as_ullong s <=? ID_MAX)) eqn:T.
  - apply andb_true_iff in T. destruct T as [_ T]. apply N.leb_le in T. set (c := as_ullong s) in *.
    assert (Cu : c < ID_UNDEFINED) by (unfold ID_UNDEFINED, ID_MAX in *; lia).
    destruct (in_dec N.eq_dec c (map fst l)) as [I|I].
    + destruct (resolve_in l c n D I) as (l1 & t & l2 & El & R). rewrite R in E.
      pose proof (L c I) as Lc.
      destruct (N.ltb_spec n ID_UNDEFINED) as [Nu|Nu].
      * rewrite incr_small in E by exact Nu. destruct (N.leb_spec (n + 1) c); [lia|].
        destruct (N.ltb_spec ID_MAX c); [lia|]. injection E as <-.
        assert (F : fresh ((l1 ++ (n, t) :: l2) ++ [(c, s)], n + 1)).
        { subst l. rewrite map_app in D, L. cbn [map fst] in D, L. unfold fresh. cbn [fst snd]. rewrite !map_app. cbn [map fst].
          split; [|split; [|lia]].
          - apply nodup_swap; assumption.
          - intros i H1. apply in_app_or in H1. destruct H1 as [H1|[<-|[]]]; [|lia].
            apply in_app_or in H1. destruct H1 as [H1|[<-|H1]]; [|lia|].
            + specialize (L i). rewrite in_app_iff in L. cbn in L. specialize (L (or_introl H1)). lia.
            + specialize (L i). rewrite in_app_iff in L. cbn in L. specialize (L (or_intror (or_intror H1))). lia. }
        split; [left; exact F|]. intros _. split; [exact F|]. left. cbn [snd]. lia.
      * assert (n = ID_UNDEFINED) by lia. subst n.
        split; [|intros H; lia]. right.
        destruct (if incr ID_UNDEFINED <=? c then incr c else incr ID_UNDEFINED) eqn:G; destruct (ID_MAX <? c); try discriminate; injection E as <-;
          cbn [fst]; rewrite !map_app; apply in_or_app; left; apply in_or_app; right; left; reflexivity.
    + rewrite resolve_notin in E by exact I. destruct (N.ltb_spec ID_MAX c); [lia|].
      rewrite incr_small in E by exact Cu.
      assert (F : fresh (l ++ [(c, s)], if n <=? c then c + 1 else n)).
      { destruct (N.leb_spec n c); apply fresh_add; auto; try lia. intros j Hj. specialize (L j Hj). lia. }
      injection E as <-. split; [left; exact F|]. intros _. split; [exact F|]. left. cbn [snd]. destruct (N.leb_spec n c); lia.
  - destruct (N.ltb_spec ID_MAX n); [discriminate|]. injection E as <-.
    assert (Nu : n < ID_UNDEFINED) by (unfold ID_UNDEFINED, ID_MAX in *; lia). rewrite incr_small by exact Nu.
    assert (F : fresh (l ++ [(n, s)], n + 1)).
    { apply fresh_add; auto; try lia. intros I. specialize (L _ I). lia. intros j Hj. specialize (L j Hj). lia. }
    split; [left; exact F|]. intros _. split; [exact F|]. left. cbn [snd]. lia.
Qed.

Lemma step_good : forall st s st', good st -> establish_step st s = Some st' -> good st'.
Proof.
  intros [l n] s st' [F|U] E.
  - apply (step_fresh l n s st' F E).
  - right. cbn [fst] in U. unfold establish_step in E.
    destruct (IsNumber s (Some 10) && (as_ullong s <=? ID_MAX)) eqn:T.
    + apply andb_true_iff in T. destruct T as [_ T]. apply N.leb_le in T.
      pose proof (resolve_keeps_undef l _ n T U) as K. destruct (resolve l (as_ullong s) n) as [l' n']. cbn [fst] in K.
      destruct (ID_MAX <? as_ullong s); [discriminate|]. injection E as <-. cbn [fst]. rewrite map_app. apply in_or_app. left. exact K.
    + destruct (ID_MAX <? n); [discriminate|]. injection E as <-. cbn [fst]. rewrite map_app. apply in_or_app. left. exact U.
Qed.

Lemma loop_good : forall strs st st', good st -> establish_loop st strs = Some st' -> good st'.
Proof.
  induction strs as [|s strs IH]; intros st st' G E; cbn [establish_loop] in E; [injection E as <-; exact G|].
  destruct (establish_step st s) as [st1|] eqn:S1; [|discriminate]. apply (IH st1); [|exact E]. apply (step_good _ _ _ G S1).
Qed.

Lemma fresh_nil : fresh ([], 0).
Proof. unfold fresh. cbn. split; [constructor|]. split; [intros i []|unfold ID_UNDEFINED; lia]. Qed.

Lemma est_inv : forall l strs l', EstablishUniqueIds l strs = Some l' -> exists n, establish_loop (l, 0) strs = Some (l', n).
Proof.
  intros l strs l' E. unfold EstablishUniqueIds in E. revert E. generalize (establish_loop (l, 0) strs). intros [[a n]|] E; [|discriminate].
  injection E as ->. exists n. reflexivity.
Qed.

Lemma distinct : forall strs l, EstablishUniqueIds [] strs = Some l -> ~ In ID_UNDEFINED (map fst l) -> NoDup (map fst l).
Proof.
  intros strs l E U. destruct (est_inv _ _ _ E) as [n Lp]. destruct (loop_good _ _ _ (or_introl fresh_nil) Lp) as [(D & _)|H]; [exact D|contradiction].
Qed.

(** ** Strings *)

Lemma step_strs : forall st s st', establish_step st s = Some st' -> map snd (fst st') = map snd (fst st) ++ [s].
Proof.
  intros [l n] s st' E. unfold establish_step in E. destruct (IsNumber s (Some 10) && (as_ullong s <=? ID_MAX)).
  - pose proof (resolve_strs l (as_ullong s) n) as K. destruct (resolve l (as_ullong s) n) as [l' n']. cbn [fst] in K.
    destruct (ID_MAX <? as_ullong s); [discriminate|]. injection E as <-. cbn [fst]. rewrite map_app, K. reflexivity.
  - destruct (ID_MAX <? n); [discriminate|]. injection E as <-. cbn [fst]. rewrite map_app. reflexivity.
Qed.

Lemma loop_strs : forall strs st st', establish_loop st strs = Some st' -> map snd (fst st') = map snd (fst st) ++ strs.
Proof.
  induction strs as [|s strs IH]; intros st st' E; cbn [establish_loop] in E; [injection E as <-; rewrite app_nil_r; reflexivity|].
  destruct (establish_step st s) as [st1|] eqn:S1; [|discriminate]. rewrite (IH _ _ E), (step_strs _ _ _ S1), <- app_assoc. reflexivity.
Qed.

Lemma strings_kept : forall strs l l', EstablishUniqueIds l strs = Some l' -> map snd l' = map snd l ++ strs.
Proof.
  intros strs l l' E. destruct (est_inv _ _ _ E) as [n Lp]. apply (loop_strs _ _ _ Lp).
Qed.

(** ** Numeric ids *)

Lemma step_keeps : forall st s st' k i t, establish_step st s = Some st' -> nth_error (fst st) k = Some (i, t) -> ~ numeric s i ->
  nth_error (fst st') k = Some (i, t).
Proof.
  intros [l n] s st' k i t E H Nn. cbn [fst] in H. unfold establish_step in E.
  destruct (IsNumber s (Some 10) && (as_ullong s <=? ID_MAX)) eqn:T.
  - assert (i <> as_ullong s) by (intros ->; apply Nn, numeric_test, T).
    pose proof (resolve_nth l (as_ullong s) n k i t H H0) as K. destruct (resolve l (as_ullong s) n) as [l' n']. cbn [fst] in K.
    destruct (ID_MAX <? as_ullong s); [discriminate|]. injection E as <-. cbn [fst].
    rewrite nth_error_app1; [exact K|]. apply nth_error_Some. rewrite K. discriminate.
  - destruct (ID_MAX <? n); [discriminate|]. injection E as <-. cbn [fst]. rewrite nth_error_app1; [exact H|]. apply nth_error_Some. rewrite H. discriminate.
Qed.

Lemma loop_keeps : forall strs st st' k i t, establish_loop st strs = Some st' -> nth_error (fst st) k = Some (i, t) ->
  (forall s, In s strs -> ~ numeric s i) -> nth_error (fst st') k = Some (i, t).
Proof.
  induction strs as [|s strs IH]; intros st st' k i t E H A; cbn [establish_loop] in E; [injection E as <-; exact H|].
  destruct (establish_step st s) as [st1|] eqn:S1; [|discriminate]. apply (IH st1); [exact E| |intros u Hu; apply A; right; exact Hu].
  apply (step_keeps _ _ _ _ _ _ S1 H). apply A. left. reflexivity.
Qed.

Lemma step_own : forall st s st' v, establish_step st s = Some st' -> numeric s v -> nth_error (fst st') (List.length (fst st)) = Some (v, s).
Proof.
  intros [l n] s st' v E Nm. pose proof (numeric_yes _ _ Nm) as T. pose proof (numeric_val _ _ Nm) as V. unfold establish_step in E. rewrite T, V in E.
  assert (Ll : List.length (fst (resolve l v n)) = List.length l) by (rewrite <- (map_length snd), resolve_strs, map_length; reflexivity).
  destruct (resolve l v n) as [l' n']. cbn [fst] in *. destruct (ID_MAX <? v); [discriminate|]. injection E as <-. cbn [fst].
  rewrite <- Ll, nth_error_app2, Nat.sub_diag by lia. reflexivity.
Qed.

Lemma loop_split : forall a b st st', establish_loop st (a ++ b) = Some st' ->
  exists st1, establish_loop st a = Some st1 /\ establish_loop st1 b = Some st'.
Proof.
  induction a as [|s a IH]; intros b st st' E; [exists st; split; [reflexivity|exact E]|]. cbn [app establish_loop] in E.
  destruct (establish_step st s) as [st1|] eqn:S1; [|discriminate]. destruct (IH _ _ _ E) as (st2 & E1 & E2).
  exists st2. cbn [establish_loop]. rewrite S1. auto.
Qed.

Lemma kept : forall l0 before s after l v, EstablishUniqueIds l0 (before ++ s :: after) = Some l -> numeric s v ->
  (forall t, In t after -> ~ numeric t v) -> id_at l (List.length l0 + List.length before) = Some v.
Proof.
  intros l0 before s after l v E Nm A. destruct (est_inv _ _ _ E) as [n Lp].
  destruct (loop_split _ _ _ _ Lp) as (st1 & E1 & E2). cbn [establish_loop] in E2.
  destruct (establish_step st1 s) as [st2|] eqn:S1; [|discriminate].
  pose proof (step_own _ _ _ _ S1 Nm) as O1. pose proof (loop_strs _ _ _ E1) as Ls. cbn [fst] in Ls.
  assert (Le : List.length (fst st1) = (List.length l0 + List.length before)%nat).
  { rewrite <- (map_length snd), Ls, app_length, map_length. reflexivity. }
  rewrite Le in O1. pose proof (loop_keeps _ _ _ _ _ _ E2 O1 A) as K. cbn [fst] in K. unfold id_at. cbn [fst]. rewrite K. reflexivity.
Qed.

(** A number used again later: only the last one keeps it. *)
Lemma not_kept : forall before s mid t after l v, EstablishUniqueIds [] (before ++ s :: mid ++ t :: after) = Some l -> numeric s v -> numeric t v ->
  (forall u, In u after -> ~ numeric u v) -> ~ In ID_UNDEFINED (map fst l) ->
  id_at l (List.length before) <> Some v /\ id_at l (List.length before + 1 + List.length mid) = Some v.
Proof.
  intros before s mid t after l v E Ns Nt A U.
  assert (K : id_at l (List.length before + 1 + List.length mid) = Some v).
  { pose proof (kept [] (before ++ s :: mid) t after l v) as K. rewrite <- app_assoc in K. cbn [app List.length Nat.add] in K. specialize (K E Nt A).
    rewrite app_length in K. cbn [List.length] in K. rewrite <- K. f_equal. lia. }
  split; [|exact K]. intros H. pose proof (distinct _ _ E U) as D. unfold id_at in *.
  assert (N1 : nth_error (map fst l) (List.length before) = Some v) by (rewrite nth_error_map; exact H).
  assert (N2 : nth_error (map fst l) (List.length before + 1 + List.length mid) = Some v) by (rewrite nth_error_map; exact K).
  rewrite NoDup_nth_error in D. specialize (D (List.length before) (List.length before + 1 + List.length mid)%nat).
  assert (List.length before < List.length (map fst l))%nat by (apply nth_error_Some; rewrite N1; discriminate).
  specialize (D H0). rewrite N1, N2 in D. specialize (D eq_refl). lia.
Qed.

(** ** Room for all ids *)

Lemma loop_room : forall strs st M, fresh st -> snd st <= M -> (forall s v, In s strs -> numeric s v -> v < M) -> M + N.of_nat (List.length strs) <= ID_MAX ->
  exists st', establish_loop st strs = Some st' /\ fresh st' /\ snd st' <= ID_MAX.
Proof.
  induction strs as [|s strs IH]; intros [l n] M F Ln A R; cbn [establish_loop].
  - exists (l, n). cbn [List.length N.of_nat snd] in *. split; [reflexivity|]. split; [exact F|]. lia.
  - cbn [snd] in Ln. assert (Ru : n < ID_UNDEFINED) by (cbn [List.length] in R; unfold ID_UNDEFINED, ID_MAX in *; lia).
    assert (St : exists st', establish_step (l, n) s = Some st').
    { unfold establish_step. destruct (IsNumber s (Some 10) && (as_ullong s <=? ID_MAX)) eqn:T.
      - apply andb_true_iff in T. destruct T as [_ T]. apply N.leb_le in T. destruct (resolve l (as_ullong s) n). destruct (N.ltb_spec ID_MAX (as_ullong s)); [lia|]. eexists. reflexivity.
      - destruct (N.ltb_spec ID_MAX n); [cbn [List.length] in R; lia|]. eexists. reflexivity. }
    destruct St as [st' St]. rewrite St.
    assert (B : snd st' <= M + 1).
    { destruct (IsNumber s (Some 10) && (as_ullong s <=? ID_MAX)) eqn:T.
      - destruct (step_fresh _ _ _ _ F St) as [_ K]. destruct (K Ru) as [_ [K2|[]]].
        specialize (A s (as_ullong s) (or_introl eq_refl) (proj1 (numeric_test s) T)). lia.
      - unfold establish_step in St. rewrite T in St. destruct (ID_MAX <? n); [discriminate|]. injection St as <-. cbn [snd]. rewrite incr_small by exact Ru. lia. }
    destruct (step_fresh _ _ _ _ F St) as [_ K]. destruct (K Ru) as [F' _].
    destruct (IH st' (M + 1) F' B) as (st2 & E2 & F2 & B2).
    + intros u v Iu Nu. specialize (A u v (or_intror Iu) Nu). lia.
    + cbn [List.length] in R. lia.
    + exists st2. split; [exact E2|]. split; [exact F2|exact B2].
Qed.

Lemma room : forall strs M, (forall s v, In s strs -> numeric s v -> v < M) -> M + N.of_nat (List.length strs) <= ID_MAX ->
  exists l, EstablishUniqueIds [] strs = Some l /\ NoDup (map fst l) /\ forall i, In i (map fst l) -> i < ID_MAX.
Proof.
  intros strs M A R. destruct (loop_room strs ([], 0) M fresh_nil) as (st' & E & (D & L & _) & B); [cbn; lia|exact A|exact R|].
  exists (fst st'). split; [unfold EstablishUniqueIds; transitivity (option_map (@fst ids N) (Some st')); [f_equal; exact E|destruct st'; reflexivity]|].
  split; [exact D|]. intros i Hi. specialize (L i Hi). lia.
Qed.

(** ** Looking up *)

Lemma lookup_first : forall l k i s, nth_error l k = Some (i, s) -> (forall j t, (j < k)%nat -> nth_error (map snd l) j = Some t -> t <> s) -> LookupIdFromStr l s = i.
Proof.
  unfold LookupIdFromStr. induction l as [|[j t] l IH]; intros [|k] i s E A; try discriminate; cbn [find snd].
  - cbn in E. injection E as -> ->. destruct (str_eqb_spec s s); [reflexivity|congruence].
  - destruct (str_eqb_spec t s) as [->|N]; [exfalso; apply (A O s); [lia|reflexivity|reflexivity]|].
    apply (IH k); [exact E|]. intros j' t' Lj Hj. apply (A (S j') t'); [lia|exact Hj].
Qed.

Lemma lookup_none : forall l s, ~ In s (map snd l) -> LookupIdFromStr l s = ID_UNDEFINED.
Proof.
  unfold LookupIdFromStr. induction l as [|[j t] l IH]; intros s H; [reflexivity|]. cbn [find snd]. cbn in H.
  destruct (str_eqb_spec t s) as [->|N]; [tauto|]. apply IH. tauto.
Qed.

Lemma road_by_id : forall l k i, NoDup l -> nth_error l k = Some i -> GetRoadById l i = Some k.
Proof.
  induction l as [|a l IH]; intros [|k] i D E; try discriminate; cbn [GetRoadById].
  - cbn in E. injection E as ->. rewrite N.eqb_refl. reflexivity.
  - cbn in E. inversion D as [|? ? D1 D2]; subst. destruct (N.eqb_spec a i) as [->|Ne]; [exfalso; apply D1, (nth_error_In _ _ E)|].
    rewrite (IH _ _ D2 E). reflexivity.
Qed.

Lemma road_by_id_sound : forall l k i, GetRoadById l i = Some k -> nth_error l k = Some i.
Proof.
  induction l as [|a l IH]; intros k i E; [discriminate|]. cbn [GetRoadById] in E. destruct (N.eqb_spec a i) as [->|Ne]; [injection E as <-; reflexivity|].
  destruct (GetRoadById l i) as [k'|] eqn:G; [|discriminate]. injection E as <-. cbn. apply IH, G.
Qed.

Lemma roundtrip : forall strs l k s, EstablishUniqueIds [] strs = Some l -> ~ In ID_UNDEFINED (map fst l) -> NoDup strs -> nth_error strs k = Some s ->
  GetRoadById (map fst l) (LookupRoadIdFromStr l s) = Some k.
Proof.
  intros strs l k s E U D Hk. pose proof (strings_kept _ _ _ E) as Ks. cbn in Ks.
  assert (exists i, nth_error l k = Some (i, s)).
  { rewrite <- Ks, nth_error_map in Hk. destruct (nth_error l k) as [[i t]|]; [|discriminate]. cbn in Hk. injection Hk as ->. exists i. reflexivity. }
  destruct H as [i Hi]. unfold LookupRoadIdFromStr. rewrite (lookup_first _ _ _ _ Hi).
  - apply road_by_id; [exact (distinct _ _ E U)|]. rewrite nth_error_map, Hi. reflexivity.
  - rewrite Ks. intros j t Lj Hj ->. rewrite NoDup_nth_error in D. specialize (D j k).
    assert (j < List.length strs)%nat by (apply nth_error_Some; rewrite Hj; discriminate). rewrite Hj, Hk in D. specialize (D H eq_refl). lia.
Qed.

(** ** New ids *)

Lemma fold_max : forall l a i, i <= a \/ In i l -> i <= fold_left N.max l a.
Proof.
  induction l as [|b l IH]; intros a i H; cbn [fold_left]; [destruct H as [H|[]]; exact H|]. apply IH. destruct H as [H|[->|H]]; [left; lia|left; lia|right; exact H].
Qed.

Lemma fold_max_le : forall l a b, a <= b -> (forall i, In i l -> i <= b) -> fold_left N.max l a <= b.
Proof.
  induction l as [|c l IH]; intros a b H A; cbn [fold_left]; [exact H|]. apply IH; [|intros i Hi; apply A; right; exact Hi].
  specialize (A c (or_introl eq_refl)). lia.
Qed.

Lemma generated : forall road, (forall i, In i road -> i < ID_MAX) -> ~ In (GenerateRoadId road) road /\ GenerateRoadId road <= ID_MAX.
Proof.
  intros road A. unfold GenerateRoadId. assert (B : fold_left N.max road 0 < ID_MAX).
  { destruct road as [|a r]; [reflexivity|]. assert (fold_left N.max (a :: r) 0 <= ID_MAX - 1); [|unfold ID_MAX in *; lia].
    apply fold_max_le; [unfold ID_MAX; lia|]. intros i Hi. specialize (A i Hi). lia. }
  rewrite incr_small by (unfold ID_UNDEFINED, ID_MAX in *; lia). split; [|lia].
  intros H. pose proof (fold_max road 0 _ (or_intror H)). lia.
Qed.
