(** Proofs about time line lookups and navigation. *)
From Coq Require Import PeanoNat Lia.
From Verif Require Import QAux ReplayModel.
Open Scope nat_scope.

Lemma near_q_iff a b : near_q a b = true <-> (a - SMALL < b /\ b < a + SMALL)%Q.
Proof.
  unfold near_q. rewrite Qltb_lt, Qabs_Qlt_condition. split; intros [? ?]; split; lra.
Qed.

(** ** first_index *)

Lemma first_index_le {A} (f : A -> bool) l : first_index f l <= length l.
Proof. induction l; simpl; auto. destruct (f a); lia. Qed.

Lemma first_index_at {A} (f : A -> bool) l x :
  nth_error l (first_index f l) = Some x -> f x = true.
Proof.
  induction l; simpl; [discriminate|]. destruct (f a) eqn:E; simpl; auto. intros H; inversion H; subst; auto.
Qed.

Lemma first_index_before {A} (f : A -> bool) l : forall i x,
  i < first_index f l -> nth_error l i = Some x -> f x = false.
Proof.
  induction l; simpl; [lia|]. intros i x. destruct (f a) eqn:E; [lia|].
  destruct i; simpl; intros Hi H; [inversion H; subst; auto|]. apply IHl with i; auto. lia.
Qed.

Lemma first_index_lt {A} (f : A -> bool) l i x :
  nth_error l i = Some x -> f x = true -> first_index f l <= i.
Proof.
  intros H Hf. destruct (le_lt_dec (first_index f l) i) as [|Hlt]; auto.
  rewrite (first_index_before f l i x Hlt H) in Hf. discriminate.
Qed.

(** ** Specification of a lookup *)

(** [v] is the latest value whose time is not later than [t] (within the
    tolerance of the code), or the first value if all are later. *)
Definition is_latest {T} (l : tl T) (t : Q) (v : T) : Prop :=
  exists i ti, nth_error l i = Some (ti, v) /\ (i = 0 \/ (ti <= t + SMALL)%Q) /\
    forall j tj w, i < j -> nth_error l j = Some (tj, w) -> (t + SMALL < tj)%Q.

(** Times increase by at least twice the tolerance. *)
Definition separated {T} (l : tl T) : Prop :=
  forall i j a b, i < j -> nth_error l i = Some a -> nth_error l j = Some b ->
    (fst a + 2 * SMALL <= fst b)%Q.

(** Times do not decrease. *)
Definition ordered {T} (l : tl T) : Prop :=
  forall i j a b, i < j -> nth_error l i = Some a -> nth_error l j = Some b -> (fst a <= fst b)%Q.

Lemma separated_ordered {T} (l : tl T) : separated l -> ordered l.
Proof. intros H i j a b Hi Ha Hb. specialize (H i j a b Hi Ha Hb). qs. Qed.

Lemma latest_unique {T} (l : tl T) t v w : ordered l -> is_latest l t v -> is_latest l t w -> v = w.
Proof.
  intros Ho (i & ti & Hi & Hci & Hli) (j & tj & Hj & Hcj & Hlj).
  destruct (lt_eq_lt_dec i j) as [[Hlt|Heq]|Hlt].
  - pose proof (Hli j tj w Hlt Hj). destruct Hcj as [->|Hc]; [lia|]. lra.
  - subst. congruence.
  - pose proof (Hlj i ti v Hlt Hi). destruct Hci as [->|Hc]; [lia|]. lra.
Qed.

Lemma nth_some {A} (l : list A) i : i < length l -> exists x, nth_error l i = Some x.
Proof.
  intros H. destruct (nth_error l i) eqn:E; eauto. apply nth_error_None in E. lia.
Qed.
Lemma nth_lt {A} (l : list A) i x : nth_error l i = Some x -> i < length l.
Proof. intros H. apply nth_error_Some. congruence. Qed.

Section TL.
Context {T : Type}.
Implicit Types l : tl T.

Lemma scan_fwd_ok l time : forall fuel idx,
  ordered l -> idx < length l -> length l <= idx + S fuel ->
  (idx = 0 \/ exists t v, nth_error l idx = Some (t, v) /\ (t <= time + SMALL)%Q) ->
  exists t v, nth_error l (scan_fwd l fuel idx time) = Some (t, v) /\
    (scan_fwd l fuel idx time = 0 \/ (t <= time + SMALL)%Q) /\
    forall j tj w, scan_fwd l fuel idx time < j -> nth_error l j = Some (tj, w) -> (time + SMALL < tj)%Q.
Proof.
  induction fuel as [|f IH]; intros idx Ho Hi Hf Hc; cbn [scan_fwd].
  - destruct (nth_some l idx Hi) as [[t v] E]. exists t, v. split; auto. split.
    + destruct Hc as [|(t' & v' & E' & Ht)]; auto. rewrite E in E'. inversion E'; subst; auto.
    + intros j tj w Hj Hn. apply nth_lt in Hn. lia.
  - destruct (nth_error l (S idx)) as [[t1 v1]|] eqn:E1.
    + destruct (Qleb_spec t1 (time + SMALL)) as [Hle|Hgt].
      * apply IH; auto.
        -- eapply nth_lt; eauto.
        -- lia.
        -- right. eauto.
      * destruct (nth_some l idx Hi) as [[t v] E]. exists t, v. split; auto. split.
        -- destruct Hc as [|(t' & v' & E' & Ht)]; auto. rewrite E in E'. inversion E'; subst; auto.
        -- intros j tj w Hj Hn. destruct (Nat.eq_dec j (S idx)) as [->|Hne].
           ++ rewrite E1 in Hn. inversion Hn; subst. lra.
           ++ assert (Hlt : S idx < j) by lia.
              pose proof (Ho (S idx) j (t1, v1) (tj, w) Hlt E1 Hn). simpl in *. lra.
    + destruct (nth_some l idx Hi) as [[t v] E]. exists t, v. split; auto. split.
      * destruct Hc as [|(t' & v' & E' & Ht)]; auto. rewrite E in E'. inversion E'; subst; auto.
      * intros j tj w Hj Hn. apply nth_lt in Hn. apply nth_error_None in E1. lia.
Qed.

Lemma scan_bwd_ok l time : forall idx,
  ordered l -> idx < length l ->
  (forall j tj w, idx < j -> nth_error l j = Some (tj, w) -> (time + SMALL < tj)%Q) ->
  exists t v, nth_error l (scan_bwd l idx time) = Some (t, v) /\
    (scan_bwd l idx time = 0 \/ (t <= time + SMALL)%Q) /\
    forall j tj w, scan_bwd l idx time < j -> nth_error l j = Some (tj, w) -> (time + SMALL < tj)%Q.
Proof.
  induction idx as [|i IH]; intros Ho Hi Hl.
  - destruct (nth_some l 0 Hi) as [[t v] E]. exists t, v. simpl. auto.
  - cbn [scan_bwd]. destruct (nth_some l (S i) Hi) as [[t v] E]. rewrite E.
    destruct (Qltb_spec (time + SMALL) t) as [Hlt|Hge].
    + apply IH; auto; [lia|]. intros j tj w Hj Hn.
      destruct (Nat.eq_dec j (S i)) as [->|Hne]; [|apply (Hl j tj w); auto; lia].
      rewrite E in Hn. inversion Hn; subst; auto.
    + exists t, v. split; auto. split; [right; lra|]. auto.
Qed.

(** Cursor states that lookups can produce. *)
Definition cursor_ok l (c : cursor) : Prop :=
  2 <= length l ->
  (c_index c = 0 /\ c_time c = LARGE) \/
  exists v, nth_error l (c_index c) = Some (c_time c, v).

Lemma cursor0_ok l : cursor_ok l cursor0.
Proof. left. auto. Qed.

Lemma latest_single (t : Q) (v : T) time : is_latest [(t, v)] time v.
Proof.
  exists 0, t. simpl. repeat split; auto. intros j tj w Hj Hn.
  destruct j; [lia|]. simpl in Hn. destruct j; discriminate.
Qed.

Lemma incremental_ok l c time :
  separated l -> cursor_ok l c -> l <> [] -> (time <= LARGE - SMALL)%Q ->
  exists v c', get_value_incremental l c time = Some (Some v, c') /\ is_latest l time v /\ cursor_ok l c'.
Proof.
  intros Hs Hc Hne Ht. pose proof (separated_ordered _ Hs) as Ho.
  unfold get_value_incremental.
  destruct l as [|[t0 v0] [|e1 rest]]; [congruence| |].
  - exists v0, (mkCur 0 t0). split; auto. split; [apply latest_single|]. intros H; simpl in H; lia.
  - set (l := (t0, v0) :: e1 :: rest) in *.
    assert (Hlen : 2 <= length l) by (simpl; lia).
    specialize (Hc Hlen).
    assert (Hidx : c_index c < length l).
    { destruct Hc as [[-> _]|[v Hv]]; [lia|]. eapply nth_lt; eauto. }
    destruct (nth_some l (c_index c) Hidx) as [[ti vi] Ei]. rewrite Ei.
    destruct (near_q (c_time c) time) eqn:En.
    + apply near_q_iff in En. destruct En as [En1 En2].
      destruct Hc as [[_ Hl]|[v Hv]]; [rewrite Hl in *; exfalso; lra|].
      rewrite Hv in Ei. inversion Ei; subst.
      exists vi, c. split; auto. split.
      * exists (c_index c), (c_time c). split; auto. split; [right; lra|].
        intros j tj w Hj Hn. pose proof (Hs _ _ _ _ Hj Hv Hn). simpl in *. qs.
      * intros _. right. eauto.
    + set (j := if Qleb ti time then scan_fwd l (length l) (c_index c) time else scan_bwd l (c_index c) time).
      assert (Hj : exists t v, nth_error l j = Some (t, v) /\ (j = 0 \/ (t <= time + SMALL)%Q) /\
        forall k tk w, j < k -> nth_error l k = Some (tk, w) -> (time + SMALL < tk)%Q).
      { unfold j. destruct (Qleb_spec ti time) as [Hle|Hgt].
        - apply scan_fwd_ok; auto; [lia|]. right. exists ti, vi. split; auto. qs.
        - apply scan_bwd_ok; auto. intros k tk w Hk Hn.
          pose proof (Hs _ _ _ _ Hk Ei Hn). simpl in *. qs. }
      destruct Hj as (tj & vj & Ej & Hcj & Hlj).
      exists vj. eexists. fold j. rewrite Ej. split; [reflexivity|]. split.
      * exists j, tj. auto.
      * intros _. destruct (Nat.eqb_spec j (c_index c)) as [E|NE]; simpl.
        -- destruct (Nat.eqb_spec j 0) as [E0|NE0]; simpl.
           ++ right. exists vj. auto.
           ++ destruct Hc as [[H0 _]|Hv]; [congruence|]. right. auto.
        -- right. exists vj. auto.
Qed.

(** Any sequence of queries. *)
Fixpoint queries l (c : cursor) (qs : list Q) : option (list (option T)) :=
  match qs with
  | [] => Some []
  | q :: rest =>
      match get_value_incremental l c q with
      | Some (r, c') => match queries l c' rest with Some rs => Some (r :: rs) | None => None end
      | None => None
      end
  end.

Lemma queries_ok l : separated l -> l <> [] -> forall qs c,
  cursor_ok l c -> Forall (fun q => (q <= LARGE - SMALL)%Q) qs ->
  exists vs, queries l c qs = Some (map Some vs) /\ Forall2 (fun q v => is_latest l q v) qs vs.
Proof.
  intros Hs Hne. induction qs as [|q qs IH]; intros c Hc HF.
  - exists []. split; auto.
  - inversion HF; subst. destruct (incremental_ok l c q Hs Hc Hne) as (v & c' & E & Hl & Hc'); auto.
    destruct (IH c' Hc') as (vs & Evs & HF2); auto.
    exists (v :: vs). simpl. rewrite E, Evs. split; auto.
Qed.

Lemma empty_queries qs : forall c, queries [] c qs = Some (map (fun _ => None) qs).
Proof. induction qs; intros; simpl; auto. rewrite IHqs. reflexivity. Qed.

(** Binary search: right as long as something later exists. *)
Lemma binary_ok l time :
  ordered l -> l <> [] ->
  (length l = 1 \/ exists i ti w, nth_error l i = Some (ti, w) /\ (time + SMALL < ti)%Q) ->
  exists v, get_value_binary l time false = Some (Some v) /\ is_latest l time v.
Proof.
  intros Ho Hne Hc. unfold get_value_binary.
  destruct l as [|[t0 v0] [|e1 rest]]; [congruence| |].
  - exists v0. split; auto using latest_single.
  - set (l := (t0, v0) :: e1 :: rest) in *.
    destruct Hc as [Hc|(i & ti & w & Hi & Hlt)]; [simpl in Hc; lia|].
    set (stop := fun e : Q * T => Qltb (time + SMALL) (fst e)).
    assert (Hf : first_index stop l <= i).
    { eapply first_index_lt; eauto. unfold stop. qprop. auto. }
    assert (Hil : i < length l) by (eapply nth_lt; eauto).
    fold stop. destruct (first_index stop l) as [|k] eqn:Ek.
    + exists v0. split; [reflexivity|]. exists 0, t0. split; auto. split; auto.
      intros j tj x Hj Hn. 
      assert (H0 : stop (t0, v0) = true).
      { apply (first_index_at stop l). rewrite Ek. reflexivity. }
      unfold stop in H0. simpl in H0. qprop.
      pose proof (Ho 0 j (t0, v0) (tj, x) Hj eq_refl Hn). simpl in *. lra.
    + replace (S k =? length l) with false by (symmetry; apply Nat.eqb_neq; lia).
      cbn [pred].
      assert (Hk : k < length l) by lia.
      destruct (nth_some l k Hk) as [[tk vk] Etk]. rewrite Etk. exists vk. split; auto.
      exists k, tk. split; auto. split.
      * right. assert (Hs : stop (tk, vk) = false).
        { eapply first_index_before with (l := l) (i := k); [lia|auto]. }
        unfold stop in Hs. simpl in Hs. qprop. auto.
      * intros j tj x Hj Hn.
        assert (HSk : S k < length l) by lia.
        destruct (nth_some l (S k) HSk) as [[ts vs] Es].
        assert (Hs : stop (ts, vs) = true).
        { apply (first_index_at stop l). rewrite Ek. auto. }
        unfold stop in Hs. simpl in Hs. qprop.
        destruct (Nat.eq_dec j (S k)) as [->|Hne'].
        -- rewrite Es in Hn. inversion Hn; subst. auto.
        -- assert (Hlt' : S k < j) by lia.
           pose proof (Ho _ _ _ _ Hlt' Es Hn). simpl in *. lra.
Qed.

(** At or after the last entry the second to last value is returned. *)
Lemma binary_past_end l a b time :
  ordered (l ++ [a; b]) -> (fst b <= time + SMALL)%Q ->
  get_value_binary (l ++ [a; b]) time false = Some (Some (snd a)).
Proof.
  intros Ho Hb. unfold get_value_binary.
  set (L := l ++ [a; b]) in *.
  assert (HL : exists x y r, L = x :: y :: r).
  { unfold L. destruct l as [|x [|y r]]; simpl; eauto. }
  assert (Elen : length L = length l + 2) by (unfold L; rewrite app_length; reflexivity).
  assert (Ef : first_index (fun e : Q * T => Qltb (time + SMALL) (fst e)) L = length L).
  { destruct (le_lt_dec (length L) (first_index (fun e : Q * T => Qltb (time + SMALL) (fst e)) L)) as [H|H].
    - pose proof (first_index_le (fun e : Q * T => Qltb (time + SMALL) (fst e)) L). lia.
    - destruct (nth_some L _ H) as [x Ex]. pose proof (first_index_at _ _ _ Ex) as Hx. simpl in Hx. qprop.
      exfalso. set (i := first_index _ L) in *.
      assert (Eb : nth_error L (length l + 1) = Some b).
      { unfold L. rewrite nth_error_app2 by lia. replace (length l + 1 - length l) with 1 by lia. reflexivity. }
      destruct (Nat.eq_dec i (length l + 1)) as [E|NE].
      + rewrite E, Eb in Ex. inversion Ex; subst. lra.
      + assert (Hi : i < length l + 1) by lia. pose proof (Ho _ _ _ _ Hi Ex Eb). lra. }
  destruct HL as (x & y & r & EL). rewrite Ef.
  assert (Ea : nth_error L (length l) = Some a).
  { unfold L. rewrite nth_error_app2 by lia. rewrite Nat.sub_diag. reflexivity. }
  rewrite EL at 1. cbv iota. rewrite Elen.
  replace (length l + 2) with (S (S (length l))) by lia. cbn [pred]. rewrite Nat.eqb_refl. cbn [pred].
  rewrite Ea. destruct x, a; reflexivity.
Qed.

(** ** Replacing a section of a time line *)

Definition times_in l (a b : Q) : Prop := Forall (fun e => (a <= fst e <= b)%Q) l.

Lemma nth_firstn_lt {A} (l : list A) : forall n i, i < n -> nth_error (firstn n l) i = nth_error l i.
Proof.
  induction l; intros n i H; destruct n, i; simpl; auto; try lia. apply IHl. lia.
Qed.
Lemma nth_skipn {A} (l : list A) : forall n i, nth_error (skipn n l) i = nth_error l (n + i).
Proof. induction l; intros [|n] i; simpl; auto. destruct i; auto. Qed.

Lemma skipn_plus {A} (l : list A) : forall m n, skipn n (skipn m l) = skipn (m + n) l.
Proof. induction l; intros [|m] n; simpl; auto. destruct n; auto. Qed.

(** What is kept and what is inserted: entries strictly before the window
    (minus tolerance) stay, entries strictly after it (plus tolerance) stay,
    everything in between is the input. *)
Lemma replace_structure l t0 t1 input :
  ordered l -> input <> [] -> l <> [] -> (t0 <= t1)%Q ->
  exists pre mid post, l = pre ++ mid ++ post /\
    replace_between l t0 t1 input false = pre ++ input ++ post /\
    Forall (fun e => (fst e < t0 - SMALL)%Q) pre /\
    Forall (fun e => (t0 - SMALL <= fst e /\ fst e <= t1 + SMALL)%Q) mid /\
    Forall (fun e => (t1 + SMALL < fst e)%Q) post.
Proof.
  intros Ho Hi Hl Ht.
  set (f := first_index (fun e : Q * T => negb (Qltb (fst e) (t0 - SMALL))) l).
  set (g := first_index (fun e : Q * T => Qltb t1 (fst e - SMALL)) l).
  assert (Hg : g <= length l) by apply first_index_le.
  assert (Hfl : f <= length l) by apply first_index_le.
  assert (Hfg : f <= g).
  { destruct (le_lt_dec f g) as [|H]; auto. exfalso.
    assert (Hgl : g < length l) by lia.
    destruct (nth_some l g Hgl) as [x Ex].
    pose proof (first_index_at _ _ _ Ex) as H1. simpl in H1.
    pose proof (first_index_before _ _ _ _ H Ex) as H2. simpl in H2.
    apply negb_false_iff in H2. qprop. qs. }
  exists (firstn f l), (firstn (g - f) (skipn f l)), (skipn g l).
  repeat split.
  - rewrite <- (firstn_skipn f l) at 1. f_equal.
    rewrite <- (firstn_skipn (g - f) (skipn f l)) at 1. f_equal.
    rewrite skipn_plus. f_equal. lia.
  - unfold replace_between. destruct input as [|i input]; [congruence|].
    destruct l as [|x l]; [congruence|]. reflexivity.
  - apply Forall_forall. intros x Hx. apply In_nth_error in Hx. destruct Hx as [i Hx].
    assert (Hif : i < f). { apply nth_lt in Hx. rewrite firstn_length in Hx. lia. }
    rewrite nth_firstn_lt in Hx by auto.
    pose proof (first_index_before _ _ _ _ Hif Hx) as H. simpl in H.
    apply negb_false_iff in H. qprop. auto.
  - apply Forall_forall. intros x Hx. apply In_nth_error in Hx. destruct Hx as [i Hx].
    assert (Hif : i < g - f). { apply nth_lt in Hx. rewrite firstn_length in Hx. lia. }
    rewrite nth_firstn_lt in Hx by auto. rewrite nth_skipn in Hx.
    assert (Hlt : f + i < g) by lia.
    pose proof (first_index_before _ _ _ _ Hlt Hx) as H. simpl in H. qprop.
    split; [|lra].
    assert (Hff : f < length l) by lia.
    destruct (nth_some l f Hff) as [y Ey]. pose proof (first_index_at _ _ _ Ey) as H3. simpl in H3.
    apply negb_true_iff in H3. qprop.
    destruct i; [rewrite Nat.add_0_r in Hx; rewrite Ey in Hx; inversion Hx; subst; auto|].
    assert (Hf2 : f < f + S i) by lia. pose proof (Ho _ _ _ _ Hf2 Ey Hx). lra.
  - apply Forall_forall. intros x Hx. apply In_nth_error in Hx. destruct Hx as [i Hx].
    rewrite nth_skipn in Hx.
    assert (Hgl : g < length l). { apply nth_lt in Hx. lia. }
    destruct (nth_some l g Hgl) as [y Ey]. pose proof (first_index_at _ _ _ Ey) as H3. simpl in H3. qprop.
    destruct i; [rewrite Nat.add_0_r in Hx; rewrite Ey in Hx; inversion Hx; subst; lra|].
    assert (Hf2 : g < g + S i) by lia. pose proof (Ho _ _ _ _ Hf2 Ey Hx). lra.
Qed.

(** Removing near duplicates keeps the last of each group. *)
Lemma clean_in l x : In x (clean_duplicates l) -> In x l.
Proof.
  induction l as [|a [|b r] IH]; simpl in *; auto.
  destruct (near_q (fst a) (fst b)); simpl; intuition.
Qed.

Lemma clean_cons a b (r : tl T) :
  clean_duplicates (a :: b :: r)
  = if near_q (fst a) (fst b) then clean_duplicates (b :: r) else a :: clean_duplicates (b :: r).
Proof. reflexivity. Qed.

Fixpoint no_near_neighbours l : Prop :=
  match l with
  | a :: ((b :: _) as r) => near_q (fst a) (fst b) = false /\ no_near_neighbours r
  | _ => True
  end.

Lemma clean_head l : forall a r, l = a :: r ->
  exists b r', clean_duplicates l = b :: r' /\ In b l.
Proof.
  induction l as [|a l IH]; intros a0 r E; [discriminate|]. inversion E; subst.
  destruct r as [|b r].
  - exists a0, []. simpl; auto.
  - rewrite clean_cons. destruct (near_q (fst a0) (fst b)).
    + destruct (IH b r eq_refl) as (c & r' & Ec & Hc). exists c, r'. rewrite Ec. split; auto. right; auto.
    + exists a0, (clean_duplicates (b :: r)). split; auto. left; auto.
Qed.

Lemma clean_last l d : last (clean_duplicates l) d = last l d.
Proof.
  induction l as [|a [|b r] IH]; auto.
  rewrite clean_cons. destruct (near_q (fst a) (fst b)).
  - rewrite IH. reflexivity.
  - destruct (clean_head (b :: r) b r eq_refl) as (c & r' & E & _).
    rewrite E in *. change (last (a :: c :: r') d) with (last (c :: r') d). rewrite IH. reflexivity.
Qed.

Lemma ordered_tail (a : Q * T) (l : tl T) : ordered (a :: l) -> ordered l.
Proof. intros H i j x y Hi Hx Hy. apply (H (S i) (S j) x y); auto. lia. Qed.

Lemma ordered_head (a x : Q * T) (l : tl T) : ordered (a :: l) -> In x l -> (fst a <= fst x)%Q.
Proof.
  intros H Hx. apply In_nth_error in Hx. destruct Hx as [i Hi].
  apply (H 0 (S i) a x); auto. lia.
Qed.

Lemma clean_separates (l : tl T) : ordered l -> no_near_neighbours (clean_duplicates l).
Proof.
  induction l as [|a [|b r] IH]; intros Ho; [exact I|exact I|].
  rewrite clean_cons. specialize (IH (ordered_tail _ _ Ho)).
  destruct (near_q (fst a) (fst b)) eqn:En; auto.
  destruct (clean_head (b :: r) b r eq_refl) as (c & r' & E & Hc). rewrite E in *.
  split; auto. destruct (near_q (fst a) (fst c)) eqn:En2; auto. exfalso.
  apply near_q_iff in En2.
  assert (near_q (fst a) (fst b) = true); [|congruence].
  apply near_q_iff.
  assert (fst b <= fst c)%Q.
  { destruct Hc as [->|Hc]; [lra|]. eapply ordered_head; eauto using ordered_tail. }
  pose proof (ordered_head a b (b :: r) Ho (or_introl eq_refl)). qs.
Qed.

End TL.

(** ** Navigation *)

(** Strictly increasing frame times, more than twice the tolerance apart. *)
Definition frames_ok (ts : list Q) : Prop :=
  ts <> [] /\ forall i j a b, i < j -> nth_error ts i = Some a -> nth_error ts j = Some b -> (a + 2 * SMALL <= b)%Q.

Definition last_time (ts : list Q) : Q := last ts 0%Q.
Definition first_time (ts : list Q) : Q := hd 0%Q ts.

Lemma nth_last (ts : list Q) d : ts <> [] -> nth_error ts (length ts - 1) = Some (last ts d).
Proof.
  induction ts as [|a [|b r] IH]; [congruence|reflexivity|]. intros _.
  change (last (a :: b :: r) d) with (last (b :: r) d). rewrite <- IH by congruence.
  simpl. rewrite Nat.sub_0_r. reflexivity.
Qed.

Lemma last_indep (ts : list Q) d e : ts <> [] -> last ts d = last ts e.
Proof. induction ts as [|a [|b r] IH]; [congruence|reflexivity|]. intros _. apply IH. congruence. Qed.

(** The invariant: indices are valid and the window lies in the recording. *)
Record nav_ok (ts : list Q) (n : nav) : Prop := {
  ok_index : n_index n < length ts;
  ok_starti : n_starti n < length ts;
  ok_stopi : n_stopi n < length ts;
  ok_start : (n_start n <= last_time ts + SMALL)%Q;
  ok_stop : (n_stop n <= last_time ts + SMALL)%Q }.

Lemma find_index_ok ts n t :
  ts <> [] -> n_index n < length ts -> (t <= last_time ts + SMALL)%Q ->
  exists i, find_index ts n t = Some i /\ i < length ts.
Proof.
  intros Hne Hi Ht. unfold find_index. set (stop := fun x => negb (Qltb x (t - SMALL))).
  assert (Hlast : stop (last_time ts) = true).
  { unfold stop. apply negb_true_iff. qprop. lra. }
  pose proof (nth_last ts 0%Q Hne) as Hn.
  destruct (Qleb_spec (n_time n - SMALL) t).
  - replace (n_index n <=? length ts) with true by (symmetry; apply Nat.leb_le; lia).
    eexists. split; [reflexivity|].
    assert (Hk : nth_error (skipn (n_index n) ts) (length ts - 1 - n_index n) = Some (last ts 0%Q)).
    { rewrite nth_skipn. replace (n_index n + (length ts - 1 - n_index n)) with (length ts - 1) by lia. auto. }
    pose proof (first_index_lt stop _ _ _ Hk Hlast). lia.
  - replace (n_index n + 1 <=? length ts) with true by (symmetry; apply Nat.leb_le; lia).
    eexists. split; [reflexivity|].
    pose proof (first_index_le stop (firstn (n_index n + 1) ts)) as Hle. rewrite firstn_length in Hle.
    destruct (Nat.eq_dec (n_index n) (length ts - 1)) as [E|NE]; [|lia].
    rewrite firstn_all2 by lia.
    pose proof (first_index_lt stop _ _ _ Hn Hlast). lia.
Qed.

Lemma goto_ok ts n i t : nav_ok ts n -> i < length ts -> nav_ok ts (goto n i t).
Proof. intros [] Hi. constructor; simpl; auto. Qed.

Lemma go_to_start_ok ts n b : nav_ok ts n -> nav_ok ts (go_to_start n b).
Proof. intros H. unfold go_to_start. destruct (_ && _); apply goto_ok; auto; apply H. Qed.
Lemma go_to_end_ok ts n b : nav_ok ts n -> nav_ok ts (go_to_end n b).
Proof. intros H. unfold go_to_end. destruct (_ && _); apply goto_ok; auto; apply H. Qed.
Lemma clamp_window_ok ts n : nav_ok ts n -> nav_ok ts (clamp_window n).
Proof.
  intros H. unfold clamp_window. destruct (Qltb _ _); [apply go_to_end_ok; auto|].
  destruct (Qltb _ _); [apply go_to_start_ok; auto|auto].
Qed.

Lemma go_to_time_ok ts n t s : ts <> [] -> nav_ok ts n ->
  exists n', go_to_time ts n t s = Some n' /\ nav_ok ts n'.
Proof.
  intros Hne H. unfold go_to_time. destruct s; cbn [negb].
  - destruct (Qltb (n_time n) t).
    + destruct (nth_error ts (S (n_index n))) as [tn|] eqn:E.
      * destruct (Qleb _ _).
        { eexists; split; [reflexivity|]. apply clamp_window_ok, goto_ok; auto. eapply nth_lt; eauto. }
        destruct (Qltb _ _); eexists; split; try reflexivity; apply clamp_window_ok;
          [apply go_to_end_ok|apply goto_ok]; auto; apply H.
      * destruct (Qltb _ _); eexists; split; try reflexivity; apply clamp_window_ok;
          [apply go_to_end_ok|apply goto_ok]; auto; apply H.
    + destruct (Qltb t (n_time n)).
      * assert (HO : exists n', (if Qltb t (n_start n) then Some (clamp_window (go_to_start n false))
                                 else Some (clamp_window (goto n (n_index n) t))) = Some n' /\ nav_ok ts n').
        { destruct (Qltb _ _); eexists; split; try reflexivity; apply clamp_window_ok;
            [apply go_to_start_ok|apply goto_ok]; auto; apply H. }
        destruct (n_index n) as [|i] eqn:Ei; auto.
        pose proof (ok_index _ _ H) as Hi. rewrite Ei in Hi.
        destruct (nth_some ts i) as [tp Etp]; [lia|]. rewrite Etp.
        destruct (Qleb t tp); auto.
        eexists; split; [reflexivity|]. apply clamp_window_ok, goto_ok; auto. lia.
      * eexists; split; [reflexivity|]. apply clamp_window_ok; auto.
  - destruct (Qleb_spec (n_stop n) t) as [|Hlt].
    { eexists; split; [reflexivity|]. apply go_to_end_ok; auto. }
    destruct (Qleb t (n_start n)).
    { eexists; split; [reflexivity|]. apply go_to_start_ok; auto. }
    pose proof (ok_stop _ _ H).
    destruct (find_index_ok ts n t) as (i & Ei & Hi); auto; [apply H|lra|].
    rewrite Ei. eexists; split; [reflexivity|]. apply clamp_window_ok, goto_ok; auto.
Qed.

Lemma go_to_next_ok ts n : nav_ok ts n -> nav_ok ts (go_to_next ts n).
Proof.
  intros H. unfold go_to_next. destruct ts as [|t0 ts]; auto.
  destruct (nth_error _ _) as [t|] eqn:E; [|apply go_to_end_ok; auto].
  destruct (Qleb _ _); [apply goto_ok; auto; eapply nth_lt; eauto|apply go_to_end_ok; auto].
Qed.

Lemma go_to_previous_ok ts n : nav_ok ts n -> nav_ok ts (go_to_previous ts n).
Proof.
  intros H. unfold go_to_previous. destruct ts as [|t0 ts]; auto.
  destruct (first_index _ _) as [|i]; [apply go_to_start_ok; auto|].
  destruct (nth_error _ _) as [t|] eqn:E; auto.
  assert (nav_ok (t0 :: ts) (goto n i t)) by (apply goto_ok; auto; eapply nth_lt; eauto).
  destruct (Qltb _ _); auto. apply go_to_start_ok; auto.
Qed.

Lemma set_nearest_ok ts n : nav_ok ts n -> nav_ok ts (set_nearest ts n).
Proof.
  intros H. unfold set_nearest. destruct ts as [|t0 ts]; auto.
  destruct (first_index _ _); [apply goto_ok; auto; apply H|].
  destruct (nth_error _ _); apply goto_ok; auto; apply H.
Qed.

Lemma clamp_range_le ts t : ts <> [] -> (clamp_range ts t <= last_time ts \/ clamp_range ts t = first_time ts)%Q.
Proof.
  intros Hne. unfold clamp_range, last_time, first_time. destruct ts as [|f r]; [congruence|].
  destruct (Qltb_spec t f); [right; auto|]. left.
  rewrite (last_indep (f :: r) f 0%Q) by congruence.
  destruct (Qltb_spec (last (f :: r) 0%Q) t); lra.
Qed.

Lemma first_le_last ts : frames_ok ts -> (first_time ts <= last_time ts)%Q.
Proof.
  intros [Hne Hs]. unfold first_time, last_time. destruct ts as [|a r]; [congruence|].
  pose proof (nth_last (a :: r) 0%Q Hne) as Hn. simpl hd.
  destruct r as [|b r]; [simpl; lra|].
  assert (Hlt : 0 < length (a :: b :: r) - 1) by (simpl; lia).
  pose proof (Hs 0 _ _ _ Hlt eq_refl Hn). qs.
Qed.

Lemma clamp_range_last ts t : frames_ok ts -> (clamp_range ts t <= last_time ts)%Q.
Proof.
  intros H. destruct (clamp_range_le ts t) as [|E]; auto; [apply H|]. rewrite E. apply first_le_last; auto.
Qed.

Lemma do_req_ok ts n r : frames_ok ts -> nav_ok ts n ->
  exists n', do_req ts n r = Some n' /\ nav_ok ts n'.
Proof.
  intros Hf H. assert (Hne : ts <> []) by apply Hf. destruct r; simpl.
  - apply go_to_time_ok; auto.
  - apply go_to_time_ok; auto.
  - eexists; split; [reflexivity|]. apply go_to_next_ok; auto.
  - eexists; split; [reflexivity|]. apply go_to_previous_ok; auto.
  - eexists; split; [reflexivity|]. apply go_to_start_ok; auto.
  - eexists; split; [reflexivity|]. apply go_to_end_ok; auto.
  - eexists; split; [reflexivity|]. apply set_nearest_ok; auto.
  - pose proof (clamp_range_last ts t Hf) as Hc. set (c := clamp_range ts t) in *.
    unfold set_start. set (time := if Qltb (n_time n) c then c else n_time n).
    destruct (find_index_ok ts (mkNav time (n_index n) c (n_stop n) (n_starti n) (n_stopi n) (n_repeat n)) c)
      as (i & Ei & Hi); auto; [simpl; apply H|qs|].
    rewrite Ei. apply go_to_time_ok; auto.
    destruct H. constructor; simpl; auto. qs.
  - pose proof (clamp_range_last ts t Hf) as Hc. set (c := clamp_range ts t) in *.
    unfold set_stop. set (time := if Qltb c (n_time n) then c else n_time n).
    destruct (find_index_ok ts (mkNav time (n_index n) (n_start n) c (n_starti n) (n_stopi n) (n_repeat n)) c)
      as (i & Ei & Hi); auto; [simpl; apply H|qs|].
    rewrite Ei. eexists; split; [reflexivity|]. destruct H. constructor; simpl; auto. qs.
  - eexists; split; [reflexivity|]. destruct H. constructor; simpl; auto.
Qed.

Lemma do_reqs_ok ts : frames_ok ts -> forall rs n, nav_ok ts n ->
  exists n', do_reqs ts n rs = Some n' /\ nav_ok ts n'.
Proof.
  intros Hf. induction rs as [|r rs IH]; intros n H; simpl; eauto.
  destruct (do_req_ok ts n r Hf H) as (n1 & E & H1). rewrite E. apply IH; auto.
Qed.

Lemma nav0_ok ts stop : frames_ok ts -> (stop <= last_time ts + SMALL)%Q -> nav_ok ts (nav0 ts stop).
Proof.
  intros Hf Hs. pose proof (first_le_last ts Hf) as Hfl. destruct Hf as [Hne _].
  unfold nav0, first_time in *. destruct ts as [|a r]; [congruence|].
  constructor; simpl in *; try lia; auto. qs.
Qed.

(** Current time stays inside the window, up to the tolerance. *)
Definition in_window (n : nav) : Prop := (n_start n <= n_time n /\ n_time n <= n_stop n + SMALL)%Q.

Lemma start_in n b : (n_start n <= n_stop n)%Q -> in_window (go_to_start n b).
Proof. intros. unfold go_to_start, in_window. destruct (_ && _); simpl; qs. Qed.
Lemma end_in n b : (n_start n <= n_stop n)%Q -> in_window (go_to_end n b).
Proof. intros. unfold go_to_end, in_window. destruct (_ && _); simpl; qs. Qed.
Lemma clamp_in n : (n_start n <= n_stop n)%Q -> in_window (clamp_window n).
Proof.
  intros. unfold clamp_window. destruct (Qltb_spec (n_stop n) (n_time n)); [apply end_in; auto|].
  destruct (Qltb_spec (n_time n) (n_start n)); [apply start_in; auto|]. unfold in_window. qs.
Qed.

Lemma goto_win n i t : n_start (goto n i t) = n_start n /\ n_stop (goto n i t) = n_stop n.
Proof. split; reflexivity. Qed.
Lemma start_win n b : n_start (go_to_start n b) = n_start n /\ n_stop (go_to_start n b) = n_stop n.
Proof. unfold go_to_start; destruct (_ && _); split; reflexivity. Qed.
Lemma end_win n b : n_start (go_to_end n b) = n_start n /\ n_stop (go_to_end n b) = n_stop n.
Proof. unfold go_to_end; destruct (_ && _); split; reflexivity. Qed.
Lemma clamp_win n : n_start (clamp_window n) = n_start n /\ n_stop (clamp_window n) = n_stop n.
Proof.
  unfold clamp_window. destruct (Qltb _ _); [apply end_win|]. destruct (Qltb _ _); [apply start_win|auto].
Qed.

Lemma go_to_time_win ts n t s n' : go_to_time ts n t s = Some n' ->
  (n_start n <= n_stop n)%Q -> in_window n' /\ n_start n' = n_start n /\ n_stop n' = n_stop n.
Proof.
  intros E Hw. unfold go_to_time in E.
  assert (HC : forall m, n_start m = n_start n -> n_stop m = n_stop n ->
     in_window (clamp_window m) /\ n_start (clamp_window m) = n_start n /\ n_stop (clamp_window m) = n_stop n).
  { intros m E1 E2. destruct (clamp_win m). split; [apply clamp_in; rewrite E1, E2; auto|]. split; congruence. }
  assert (HS : forall b, in_window (go_to_start n b) /\ n_start (go_to_start n b) = n_start n /\ n_stop (go_to_start n b) = n_stop n).
  { intros b. split; [apply start_in; auto|apply start_win]. }
  assert (HE : forall b, in_window (go_to_end n b) /\ n_start (go_to_end n b) = n_start n /\ n_stop (go_to_end n b) = n_stop n).
  { intros b. split; [apply end_in; auto|apply end_win]. }
  assert (HCS : forall b, in_window (clamp_window (go_to_start n b)) /\ n_start (clamp_window (go_to_start n b)) = n_start n /\ n_stop (clamp_window (go_to_start n b)) = n_stop n).
  { intros b. apply HC; apply start_win. }
  assert (HCE : forall b, in_window (clamp_window (go_to_end n b)) /\ n_start (clamp_window (go_to_end n b)) = n_start n /\ n_stop (clamp_window (go_to_end n b)) = n_stop n).
  { intros b. apply HC; apply end_win. }
  repeat match type of E with
  | context [match ?x with _ => _ end] => destruct x eqn:?
  | Some _ = Some _ => inversion E; subst; clear E
  | None = Some _ => discriminate
  end; auto; apply HC; apply goto_win.
Qed.

Lemma go_to_next_win ts n : ts <> [] -> (n_start n <= n_stop n)%Q -> in_window n ->
  in_window (go_to_next ts n) /\ n_start (go_to_next ts n) = n_start n /\ n_stop (go_to_next ts n) = n_stop n.
Proof.
  intros Hne Hw Hin. unfold go_to_next. destruct ts as [|t0 ts]; [congruence|].
  set (L := t0 :: ts) in *.
  destruct (nth_error L _) as [t|] eqn:E; [|split; [apply end_in; auto|apply end_win]].
  destruct (Qleb_spec t (n_stop n + SMALL)); [|split; [apply end_in; auto|apply end_win]].
  apply first_index_at in E. qprop. split; [|split; reflexivity].
  unfold in_window in *. simpl. qs.
Qed.

Lemma go_to_previous_win ts n : (n_start n <= n_stop n)%Q -> in_window n ->
  in_window (go_to_previous ts n) /\ n_start (go_to_previous ts n) = n_start n /\ n_stop (go_to_previous ts n) = n_stop n.
Proof.
  intros Hw Hin. unfold go_to_previous. destruct ts as [|t0 ts]; auto.
  set (L := t0 :: ts) in *.
  destruct (first_index _ L) as [|i] eqn:Ei; [split; [apply start_in; auto|apply start_win]|].
  destruct (nth_error L i) as [t|] eqn:E; [|split; auto].
  destruct (Qltb_spec t (n_start n)).
  - split; [apply start_in; auto|]. destruct (start_win (goto n i t) false). auto.
  - split; [|split; reflexivity].
    assert (Hi : i < first_index (fun x => negb (Qltb x (n_time n - SMALL))) L) by (rewrite Ei; lia).
    pose proof (first_index_before _ _ _ _ Hi E) as Hb. simpl in Hb. apply negb_false_iff in Hb. qprop.
    unfold in_window in *. simpl. qs.
Qed.

(** Requests that do not change the window; the nearest-frame request is excluded, see the refutation. *)
Definition keeps_window (r : req) : bool :=
  match r with RNearest | RSetStart _ | RSetStop _ => false | _ => true end.

Lemma do_req_win ts n r n' : ts <> [] -> keeps_window r = true ->
  (n_start n <= n_stop n)%Q -> in_window n -> do_req ts n r = Some n' ->
  in_window n' /\ n_start n' = n_start n /\ n_stop n' = n_stop n.
Proof.
  intros Hne Hk Hw Hin E. destruct r; try discriminate; cbn [do_req] in E.
  - eapply go_to_time_win; eauto.
  - eapply go_to_time_win; eauto.
  - inversion E; subst. apply go_to_next_win; auto.
  - inversion E; subst. apply go_to_previous_win; auto.
  - inversion E; subst. split; [apply start_in; auto|apply start_win].
  - inversion E; subst. split; [apply end_in; auto|apply end_win].
  - inversion E; subst. auto.
Qed.

Lemma do_reqs_win ts : ts <> [] -> forall rs n n', forallb keeps_window rs = true ->
  (n_start n <= n_stop n)%Q -> in_window n -> do_reqs ts n rs = Some n' ->
  in_window n' /\ n_start n' = n_start n /\ n_stop n' = n_stop n.
Proof.
  intros Hne. induction rs as [|r rs IH]; intros n n' Hk Hw Hin E; cbn [do_reqs] in E.
  - inversion E; subst; auto.
  - simpl in Hk. apply andb_true_iff in Hk. destruct Hk as [Hr Hk].
    destruct (do_req ts n r) as [n1|] eqn:E1; [|discriminate].
    destruct (do_req_win _ _ _ _ Hne Hr Hw Hin E1) as (H1 & H2 & H3).
    destruct (IH n1 n' Hk) as (H4 & H5 & H6); auto; [rewrite H2, H3; auto|].
    split; auto. split; congruence.
Qed.

(** Changing the window puts the current time inside the new one. *)
Lemma set_window_in ts n r n' : frames_ok ts -> nav_ok ts n -> in_window n ->
  do_req ts n r = Some n' -> (exists t, r = RSetStart t \/ r = RSetStop t) ->
  (n_start n' <= n_stop n')%Q -> in_window n'.
Proof.
  intros Hf Hok Hin E (t & [-> | ->]) Hw; cbn [do_req] in E.
  - destruct (set_start _ _ _) as [n1|] eqn:E1; [|discriminate].
    unfold set_start in E1. destruct (find_index _ _ _); [|discriminate].
    inversion E1; subst; clear E1.
    destruct (Qlt_le_dec (n_stop n) (clamp_range ts t)) as [Hlt|Hle].
    + exfalso. unfold go_to_time in E. cbn [negb n_stop n_start] in E.
      destruct (Qleb_spec (n_stop n) (clamp_range ts t)) as [|Hn]; [|lra].
      inversion E; subst. destruct (end_win (mkNav (if Qltb (n_time n) (clamp_range ts t)
        then clamp_range ts t else n_time n) n0 (clamp_range ts t) (n_stop n) n0 (n_stopi n) (n_repeat n)) false) as [W1 W2].
      rewrite W1, W2 in Hw. simpl in Hw. lra.
    + eapply go_to_time_win in E; [apply E|]. simpl. auto.
  - unfold set_stop in E. destruct (find_index _ _ _); [|discriminate].
    inversion E; subst. simpl in Hw. unfold in_window in *. simpl.
    destruct (Qltb_spec (clamp_range ts t) (n_time n)); qs.
Qed.

Lemma first_index_unique {A} (f : A -> bool) l i x :
  nth_error l i = Some x -> f x = true ->
  (forall j y, j < i -> nth_error l j = Some y -> f y = false) -> first_index f l = i.
Proof.
  intros Hx Hf Hb. pose proof (first_index_lt f l i x Hx Hf) as Hle.
  destruct (Nat.eq_dec (first_index f l) i) as [|Hne]; auto. exfalso.
  pose proof (nth_lt _ _ _ Hx). destruct (nth_some l (first_index f l)) as [y Hy]; [lia|].
  pose proof (first_index_at f l y Hy). rewrite (Hb (first_index f l) y) in H0; [discriminate|lia|auto].
Qed.

(** Next, then previous. *)
Lemma next_prev ts n i a b : frames_ok ts ->
  nth_error ts i = Some a -> nth_error ts (S i) = Some b ->
  (n_time n == a)%Q -> (n_start n <= a)%Q -> (b <= n_stop n)%Q ->
  go_to_next ts n = goto n (S i) b /\
  go_to_previous ts (go_to_next ts n) = goto n i a.
Proof.
  intros [Hne Hs] Ha Hb Ht Hst Hsp.
  assert (E1 : first_index (fun x => Qltb (n_time n + SMALL) x) ts = S i).
  { apply first_index_unique with (x := b); auto.
    - pose proof (Hs i (S i) a b (Nat.lt_succ_diag_r i) Ha Hb). qprop. qs.
    - intros j y Hj Hy. destruct (Nat.eq_dec j i) as [->|].
      + rewrite Ha in Hy. inversion Hy; subst. qprop. qs.
      + assert (Hji : j < i) by lia. pose proof (Hs j i y a Hji Hy Ha). qprop. qs. }
  assert (E : go_to_next ts n = goto n (S i) b).
  { unfold go_to_next. destruct ts as [|t0 ts]; [congruence|]. rewrite E1, Hb.
    destruct (Qleb_spec b (n_stop n + SMALL)); auto. exfalso. qs. }
  split; auto. rewrite E.
  assert (E2 : first_index (fun x => negb (Qltb x (n_time (goto n (S i) b) - SMALL))) ts = S i).
  { apply first_index_unique with (x := b); auto.
    - simpl. apply negb_true_iff. qprop. qs.
    - intros j y Hj Hy. pose proof (Hs j (S i) y b Hj Hy Hb). apply negb_false_iff. simpl. qprop. qs. }
  unfold go_to_previous. destruct ts as [|t0 ts]; [congruence|]. rewrite E2, Ha.
  cbn [n_start goto]. destruct (Qltb_spec a (n_start n)); [exfalso; lra|]. reflexivity.
Qed.

(** Playing forward with stop-at-frame does not jump over frames. *)
Definition synced (ts : list Q) (n : nav) : Prop :=
  (exists a, nth_error ts (n_index n) = Some a /\ (a <= n_time n)%Q) /\
  (forall b, nth_error ts (S (n_index n)) = Some b -> (n_time n <= b - SMALL)%Q).

Definition whole_window (ts : list Q) (n : nav) : Prop :=
  n_repeat n = false /\ n_start n = first_time ts /\ n_stop n = last_time ts /\
  n_starti n = 0 /\ n_stopi n = length ts - 1.

Lemma play_no_skip ts n dt n' : frames_ok ts -> whole_window ts n -> synced ts n -> (0 < dt)%Q ->
  go_to_delta ts n dt true = Some n' ->
  synced ts n' /\ whole_window ts n' /\ (n_time n' <= n_time n + dt + SMALL)%Q /\
  (forall t, In t ts -> (n_time n < t)%Q -> (n_time n' <= t)%Q).
Proof.
  intros Hf (Hr & Hst & Hsp & Hsti & Hspi) [(a & Ha & Hat) Hnext] Hdt E.
  pose proof (first_le_last ts Hf) as Hfl.
  destruct Hf as [Hne Hs].
  pose proof (nth_last ts 0%Q Hne) as Hlast. fold (last_time ts) in Hlast.
  assert (Hmax : forall j t, nth_error ts j = Some t -> (t <= last_time ts)%Q).
  { intros j t Hj. pose proof (nth_lt _ _ _ Hj).
    destruct (Nat.eq_dec j (length ts - 1)) as [->|]; [rewrite Hlast in Hj; inversion Hj; lra|].
    assert (Hjl : j < length ts - 1) by lia.
    pose proof (Hs j (length ts - 1) _ _ Hjl Hj Hlast). qs. }
  assert (Hmin : (first_time ts <= a)%Q).
  { unfold first_time. destruct ts as [|t0 ts]; [congruence|]. simpl.
    destruct (n_index n) as [|k]; [simpl in Ha; inversion Ha; lra|].
    assert (H0 : 0 < S k) by lia. pose proof (Hs 0 (S k) _ _ H0 eq_refl Ha). qs. }
  (* frames later than the current time are at least the next one *)
  assert (Hlater : forall t, In t ts -> (n_time n < t)%Q ->
     exists b, nth_error ts (S (n_index n)) = Some b /\ (b <= t)%Q).
  { intros t Hin Hlt. apply In_nth_error in Hin. destruct Hin as [j Hj].
    destruct (le_lt_dec j (n_index n)) as [Hle|Hgt].
    - exfalso. destruct (Nat.eq_dec j (n_index n)) as [->|]; [rewrite Ha in Hj; inversion Hj; subst; lra|].
      assert (Hjl : j < n_index n) by lia. pose proof (Hs _ _ _ _ Hjl Hj Ha). qs.
    - pose proof (nth_lt _ _ _ Hj). destruct (nth_some ts (S (n_index n))) as [b Hb]; [lia|].
      exists b. split; auto. destruct (Nat.eq_dec j (S (n_index n))) as [->|]; [rewrite Hb in Hj; inversion Hj; lra|].
      assert (Hjl : S (n_index n) < j) by lia. pose proof (Hs _ _ _ _ Hjl Hb Hj). qs. }
  unfold go_to_delta, go_to_time in E. cbn [negb] in E.
  destruct (Qltb_spec (n_time n) (n_time n + dt)) as [_|Hn]; [|exfalso; lra].
  assert (Hend : go_to_end n false = goto n (length ts - 1) (last_time ts)).
  { unfold go_to_end. rewrite Hr, Hsp, Hspi. reflexivity. }
  assert (Hsync_end : synced ts (goto n (length ts - 1) (last_time ts))).
  { split; cbn [goto n_index n_time].
    - exists (last_time ts). split; auto. lra.
    - intros b Hb. pose proof (nth_lt _ _ _ Hb). lia. }
  assert (Hww : forall i t, whole_window ts (goto n i t)) by (intros; repeat split; simpl; auto).
  destruct (nth_error ts (S (n_index n))) as [b|] eqn:Eb.
  - pose proof (Hmax _ _ Eb) as Hbl.
    assert (Hbs : (first_time ts <= b)%Q).
    { pose proof (Hs _ _ _ _ (Nat.lt_succ_diag_r _) Ha Eb). qs. }
    destruct (Qleb_spec (b - SMALL) (n_time n + dt)) as [Hge|Hlt].
    + unfold clamp_window in E. cbn [goto n_stop n_start n_time] in E. rewrite Hsp, Hst in E.
      destruct (Qltb_spec (last_time ts) b) as [Hx|_]; [exfalso; lra|].
      destruct (Qltb_spec b (first_time ts)) as [Hx|_]; [exfalso; lra|].
      inversion E; subst.
      split; [|split; [apply Hww|split]].
      * split; cbn [goto n_index n_time]; [exists b; split; auto; lra|].
        intros c Hc. pose proof (Hs _ _ _ _ (Nat.lt_succ_diag_r _) Eb Hc). qs.
      * cbn [goto n_time]. specialize (Hnext b eq_refl).
        qs.
      * intros t Hin Hlt. destruct (Hlater t Hin Hlt) as (b' & Hb' & Hle). cbn [goto n_time]. congruence || (inversion Hb'; subst; auto).
    + assert (Hstep : goto n (n_index n) (n_time n + dt) = n' \/ go_to_end n false = n' /\ (last_time ts < n_time n + dt)%Q).
      { destruct (Qltb_spec (n_stop n) (n_time n + dt)) as [Hx|Hx].
        - exfalso. rewrite Hsp in Hx. qs.
        - left. unfold clamp_window in E. cbn [goto n_stop n_start n_time] in E.
          destruct (Qltb_spec (n_stop n) (n_time n + dt)); [contradiction|].
          destruct (Qltb_spec (n_time n + dt) (n_start n)) as [Hy|_]; [exfalso; rewrite Hst in Hy; lra|].
          inversion E; auto. }
      destruct Hstep as [<-|[_ Hx]]; [|exfalso; qs].
      split; [|split; [apply Hww|split; cbn [goto n_index n_time]; [qs|]]].
      * split; cbn [goto n_index n_time]; [exists a; split; auto; lra|]. intros c Hc. rewrite Eb in Hc. inversion Hc; subst. lra.
      * intros t Hin Hlt2. destruct (Hlater t Hin Hlt2) as (b' & Hb' & Hle). inversion Hb'; subst. qs.
  - assert (Hnone : forall t, In t ts -> (n_time n < t)%Q -> False).
    { intros t Hin Hlt. destruct (Hlater t Hin Hlt) as (b' & Hb' & Hle). discriminate. }
    assert (Hlen : n_index n = length ts - 1).
    { pose proof (nth_lt _ _ _ Ha). apply nth_error_None in Eb. lia. }
    rewrite Hlen in Ha. rewrite Hlast in Ha. inversion Ha; subst a.
    destruct (Qltb_spec (n_stop n) (n_time n + dt)) as [Hx|Hx]; [|rewrite Hsp in Hx; exfalso; lra].
    rewrite Hend in E. unfold clamp_window in E. cbn [goto n_stop n_start n_time] in E. rewrite Hsp, Hst in E.
    destruct (Qltb_spec (last_time ts) (last_time ts)) as [Hy|_]; [exfalso; lra|].
    destruct (Qltb_spec (last_time ts) (first_time ts)) as [Hy|_]; [exfalso; lra|].
    inversion E; subst. split; auto. split; [apply Hww|]. split; cbn [goto n_index n_time]; [qs|].
    intros t Hin Hlt. exfalso. eauto.
Qed.

(** Deciding the ordering conditions on concrete lists (for the examples). *)
Fixpoint pairs_check {A} (f : A -> A -> bool) (l : list A) : bool :=
  match l with [] => true | a :: r => forallb (f a) r && pairs_check f r end.

Lemma pairs_check_ok {A} (f : A -> A -> bool) l : pairs_check f l = true ->
  forall i j a b, i < j -> nth_error l i = Some a -> nth_error l j = Some b -> f a b = true.
Proof.
  induction l as [|x l IH]; intros H i j a b Hij Ha Hb; [destruct i; discriminate|].
  simpl in H. apply andb_true_iff in H. destruct H as [H1 H2].
  destruct j as [|j]; [lia|]. destruct i as [|i]; simpl in Ha, Hb.
  - inversion Ha; subst. rewrite forallb_forall in H1. apply H1. eapply nth_error_In; eauto.
  - apply (IH H2 i j); auto. lia.
Qed.

Lemma separated_check {T} (l : tl T) :
  pairs_check (fun a b => Qleb (fst a + 2 * SMALL) (fst b)) l = true -> separated l.
Proof. intros H i j a b Hij Ha Hb. pose proof (pairs_check_ok _ l H i j a b Hij Ha Hb) as E. simpl in E. qprop. auto. Qed.
Lemma ordered_check {T} (l : tl T) : pairs_check (fun a b => Qleb (fst a) (fst b)) l = true -> ordered l.
Proof. intros H i j a b Hij Ha Hb. pose proof (pairs_check_ok _ l H i j a b Hij Ha Hb) as E. simpl in E. qprop. auto. Qed.
Lemma frames_check (l : list Q) : l <> [] -> pairs_check (fun a b => Qleb (a + 2 * SMALL) b) l = true -> frames_ok l.
Proof. intros Hn H. split; auto. intros i j a b Hij Ha Hb. pose proof (pairs_check_ok _ l H i j a b Hij Ha Hb) as E. simpl in E. qprop. auto. Qed.
