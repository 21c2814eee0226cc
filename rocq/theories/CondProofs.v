(** Specification and proofs for conditions, groups and triggers. *)
From Coq Require Import Floats.SpecFloat String Ascii NArith.
From Verif Require Import QAux CondModel.
Local Open Scope nat_scope.

(* ------------------------------------------------------------------------------------------ *)
(** * Comparison rules (C06) *)

Lemma rule_q_lt_ge a b : evaluate_rule_q a b LESS_THAN = negb (evaluate_rule_q a b GREATER_OR_EQUAL).
Proof. cbn. repeat qcase; qfin. Qed.
Lemma rule_q_gt_le a b : evaluate_rule_q a b GREATER_THAN = negb (evaluate_rule_q a b LESS_OR_EQUAL).
Proof. cbn. repeat qcase; qfin. Qed.
Lemma rule_q_eq_ne a b : evaluate_rule_q a b EQUAL_TO = negb (evaluate_rule_q a b NOT_EQUAL_TO).
Proof. cbn. now rewrite negb_involutive. Qed.
Lemma rule_q_exclusive a b :
  (evaluate_rule_q a b LESS_THAN = true -> evaluate_rule_q a b EQUAL_TO = false /\ evaluate_rule_q a b GREATER_THAN = false) /\
  (evaluate_rule_q a b GREATER_THAN = true -> evaluate_rule_q a b EQUAL_TO = false /\ evaluate_rule_q a b LESS_THAN = false).
Proof. cbn. split; intro H; qprop; split; repeat qcase; qfin. Qed.
Lemma rule_q_swap a b :
  evaluate_rule_q a b LESS_THAN = evaluate_rule_q b a GREATER_THAN /\
  evaluate_rule_q a b EQUAL_TO = evaluate_rule_q b a EQUAL_TO.
Proof. cbn. split; repeat qcase; qfin. Qed.
Lemma rule_q_refl a : evaluate_rule_q a a EQUAL_TO = true.
Proof. cbn. repeat qcase; qfin. Qed.
(** off the exact tolerance boundary the three-way split is complete *)
Lemma rule_q_trichotomy a b :
  ~ (a - b == SMALL)%Q -> ~ (b - a == SMALL)%Q ->
  evaluate_rule_q a b LESS_THAN || evaluate_rule_q a b EQUAL_TO || evaluate_rule_q a b GREATER_THAN = true.
Proof.
  intros H1 H2. cbn. repeat qcase; try reflexivity; exfalso.
  all: unfold SMALL in *.
  all: try (apply H1; lra); try (apply H2; lra).
Qed.
Lemma rule_q_ge_split a b :
  ~ (b - a == SMALL)%Q ->
  evaluate_rule_q a b GREATER_OR_EQUAL =
  evaluate_rule_q a b GREATER_THAN || evaluate_rule_q a b EQUAL_TO || Qeqb (a - b) SMALL.
Proof.
  intros H. cbn. repeat qcase; try reflexivity; exfalso.
  all: unfold SMALL in *.
  all: try (match goal with h : ~ (_ == _)%Q |- _ => apply h; lra end).
  all: try (apply H; lra).
  all: try lra.
Qed.

(** ** the binary64 version *)
Definition is_nan_f (x : spec_float) : bool := match x with S754_nan => true | _ => false end.
Lemma sfcompare_some a b : is_nan_f a = false -> is_nan_f b = false -> exists c, SFcompare a b = Some c.
Proof.
  destruct a as [[]|[]| |[] ? ?], b as [[]|[]| |[] ? ?]; cbn; intros; try discriminate; eexists; reflexivity.
Qed.
Lemma sfcompare_swap a b : SFcompare a b = match SFcompare b a with Some c => Some (CompOpp c) | None => None end.
Proof.
  destruct a as [[]|[]| |[] ma ea], b as [[]|[]| |[] mb eb]; cbn; auto.
  all: change (Pos.compare_cont Eq ma mb) with (Pos.compare ma mb);
       change (Pos.compare_cont Eq mb ma) with (Pos.compare mb ma);
       rewrite (Z.compare_antisym ea eb), (Pos.compare_antisym ma mb);
       destruct (ea ?= eb)%Z, (ma ?= mb)%positive; reflexivity.
Qed.
Lemma sfltb_leb a b : is_nan_f a = false -> is_nan_f b = false -> SFltb a b = negb (SFleb b a).
Proof.
  intros Ha Hb. unfold SFltb, SFleb. rewrite (sfcompare_swap b a).
  destruct (sfcompare_some a b Ha Hb) as [c ->]. destruct c; reflexivity.
Qed.
Definition shr_ok (r : shr_record) : Prop := (0 <= shr_m r)%Z.
Lemma shr_1_ok r : shr_ok r -> shr_ok (shr_1 r).
Proof. destruct r as [m g s]. unfold shr_ok. destruct m as [|[p|p|]|[p|p|]]; cbn; lia. Qed.
Lemma iter_ok p : forall r, shr_ok r -> shr_ok (SpecFloat.iter_pos shr_1 p r).
Proof. induction p; intros r H; cbn; auto using shr_1_ok. Qed.
Lemma shr_fexp_ok m e l : (0 <= m)%Z -> shr_ok (fst (shr_fexp 53 1024 m e l)).
Proof.
  intro H. unfold shr_fexp, shr.
  assert (K : shr_ok (shr_record_of_loc m l)) by (destruct l as [|[]]; exact H).
  destruct (fexp 53 1024 (Zdigits2 m + e) - e)%Z; cbn [fst]; auto. apply iter_ok; auto.
Qed.
Lemma round_ne_ok m l : (0 <= m)%Z -> (0 <= round_nearest_even m l)%Z.
Proof. intro. destruct l as [|[]]; cbn; try destruct (Z.even m); lia. Qed.
Lemma round_aux_nan s m e loc : (0 <= m)%Z -> is_nan_f (binary_round_aux 53 1024 s m e loc) = false.
Proof.
  intro H. unfold binary_round_aux.
  assert (K1 := shr_fexp_ok m e loc H). destruct (shr_fexp 53 1024 m e loc) as [r1 e1]. cbn [fst] in K1.
  assert (K2 := shr_fexp_ok _ e1 loc_Exact (round_ne_ok (shr_m r1) (loc_of_shr_record r1) K1)).
  destruct (shr_fexp 53 1024 (round_nearest_even (shr_m r1) (loc_of_shr_record r1)) e1 loc_Exact) as [r2 e2].
  cbn [fst] in K2. unfold shr_ok in K2. destruct (shr_m r2); cbn; auto.
  - destruct (Z.leb e2 971); auto.
  - lia.
Qed.
Lemma normalize_nan m e s : is_nan_f (binary_normalize 53 1024 m e s) = false.
Proof.
  unfold binary_normalize, binary_round. destruct m; auto.
  - destruct (shl_align p e _) as [q z]. apply round_aux_nan. lia.
  - destruct (shl_align p e _) as [q z]. apply round_aux_nan. lia.
Qed.
Lemma add_f_nan b : is_nan_f (add_f b) = is_nan_f b.
Proof. destruct b as [[]|[]| |s m e]; auto. apply normalize_nan. Qed.
Lemma sub_f_nan b : is_nan_f (sub_f b) = is_nan_f b.
Proof. destruct b as [[]|[]| |s m e]; auto. apply normalize_nan. Qed.
Lemma rule_f_complement a b : is_nan_f a = false -> is_nan_f b = false ->
  evaluate_rule_f a b LESS_THAN = negb (evaluate_rule_f a b GREATER_OR_EQUAL) /\
  evaluate_rule_f a b GREATER_THAN = negb (evaluate_rule_f a b LESS_OR_EQUAL) /\
  evaluate_rule_f a b NOT_EQUAL_TO = negb (evaluate_rule_f a b EQUAL_TO).
Proof.
  intros Ha Hb. cbn [evaluate_rule_f]. split; [|split; auto].
  - apply sfltb_leb; auto. rewrite sub_f_nan; auto.
  - apply sfltb_leb; auto. rewrite add_f_nan; auto.
Qed.
Lemma cmp_nan_l b : SFcompare S754_nan b = None. Proof. reflexivity. Qed.
Lemma cmp_nan_r a : SFcompare a S754_nan = None. Proof. destruct a as [[]|[]| |[] ? ?]; reflexivity. Qed.
Lemma rule_f_nan a b r : is_nan_f a = true \/ is_nan_f b = true ->
  evaluate_rule_f a b r = match r with NOT_EQUAL_TO => true | _ => false end.
Proof.
  intro H. assert (N : forall x, is_nan_f x = true -> x = S754_nan) by (intros []; cbn; congruence).
  destruct H as [H|H].
  - apply N in H. subst. destruct r; cbn [evaluate_rule_f]; unfold SFltb, SFleb, SFeqb; rewrite ?cmp_nan_r, ?cmp_nan_l; reflexivity.
  - assert (Ea : add_f b = S754_nan) by (apply N; rewrite add_f_nan; auto).
    assert (Es : sub_f b = S754_nan) by (apply N; rewrite sub_f_nan; auto).
    apply N in H. subst. destruct r; cbn [evaluate_rule_f]; rewrite ?Ea, ?Es; unfold SFltb, SFleb, SFeqb; rewrite ?cmp_nan_r, ?cmp_nan_l; reflexivity.
Qed.

(** the exact three-way law required of an ordered type *)
Definition rule_laws {A} (ev : A -> A -> rule -> bool) : Prop :=
  forall a b,
    ev a b LESS_THAN = negb (ev a b GREATER_OR_EQUAL) /\
    ev a b GREATER_THAN = negb (ev a b LESS_OR_EQUAL) /\
    ev a b NOT_EQUAL_TO = negb (ev a b EQUAL_TO) /\
    ev a b GREATER_OR_EQUAL = ev a b GREATER_THAN || ev a b EQUAL_TO /\
    ev a b LESS_OR_EQUAL = ev a b LESS_THAN || ev a b EQUAL_TO /\
    ev a b LESS_THAN = ev b a GREATER_THAN /\
    (ev a b EQUAL_TO = true <-> a = b).

Lemma rule_z_laws : rule_laws evaluate_rule_z.
Proof.
  intros a b. cbn. repeat split; try (intro H; lia).
  all: destruct (Z.ltb_spec a b), (Z.ltb_spec b a), (Z.leb_spec a b), (Z.leb_spec b a), (Z.eqb_spec a b); cbn; auto; lia.
Qed.
Lemma rule_b_laws : rule_laws evaluate_rule_b.
Proof. intros [] []; cbn; repeat split; intros; auto; discriminate. Qed.

Lemma str_lt_irrefl a : str_lt a a = false.
Proof. induction a as [|x a IH]; cbn; auto. rewrite N.ltb_irrefl, N.eqb_refl. exact IH. Qed.
Lemma N_of_ascii_inj x y : N_of_ascii x = N_of_ascii y -> x = y.
Proof. intro H. rewrite <- (ascii_N_embedding x), <- (ascii_N_embedding y), H. reflexivity. Qed.
Lemma str_lt_asym a : forall b, str_lt a b = true -> str_lt b a = false.
Proof.
  induction a as [|x a IH]; intros [|y b]; cbn; auto; intro H.
  destruct (N.ltb_spec (N_of_ascii x) (N_of_ascii y)), (N.ltb_spec (N_of_ascii y) (N_of_ascii x)); try lia; auto.
  - destruct (N.eqb_spec (N_of_ascii y) (N_of_ascii x)); auto; lia.
  - discriminate || (destruct (N.eqb_spec (N_of_ascii x) (N_of_ascii y)); [lia|discriminate]).
  - destruct (N.eqb_spec (N_of_ascii x) (N_of_ascii y)); [|discriminate].
    destruct (N.eqb_spec (N_of_ascii y) (N_of_ascii x)); auto.
Qed.
Lemma str_lt_total a : forall b, str_lt a b = false -> str_lt b a = false -> a = b.
Proof.
  induction a as [|x a IH]; intros [|y b]; cbn; auto; try discriminate.
  destruct (N.ltb_spec (N_of_ascii x) (N_of_ascii y)); try discriminate.
  destruct (N.ltb_spec (N_of_ascii y) (N_of_ascii x)); try discriminate.
  assert (E : N_of_ascii x = N_of_ascii y) by lia.
  rewrite E, N.eqb_refl. intros H1 H2. f_equal; auto. apply N_of_ascii_inj; auto.
Qed.
Lemma rule_s_laws : rule_laws evaluate_rule_s.
Proof.
  intros a b. cbn. rewrite !negb_involutive.
  split; [auto|]. split; [auto|]. split; [auto|].
  assert (K : negb (str_lt a b) = str_lt b a || String.eqb a b).
  { destruct (str_lt a b) eqn:E1; cbn.
    - rewrite (str_lt_asym _ _ E1). destruct (String.eqb_spec a b); auto. subst.
      rewrite str_lt_irrefl in E1; discriminate.
    - destruct (str_lt b a) eqn:E2; auto. destruct (String.eqb_spec a b) as [|n]; auto.
      exfalso; apply n; apply str_lt_total; auto. }
  assert (K2 : negb (str_lt b a) = str_lt a b || String.eqb a b).
  { destruct (str_lt b a) eqn:E1; cbn.
    - rewrite (str_lt_asym _ _ E1). destruct (String.eqb_spec a b); auto. subst.
      rewrite str_lt_irrefl in E1; discriminate.
    - clear K. destruct (str_lt a b) eqn:E2; auto. destruct (String.eqb_spec a b) as [|n]; auto.
      exfalso; apply n; apply str_lt_total; auto. }
  repeat split; auto; apply String.eqb_eq.
Qed.

(** ** meaning of the rules *)
Lemma rule_q_meaning a b :
  (evaluate_rule_q a b LESS_THAN = true <-> (SMALL < b - a)%Q) /\
  (evaluate_rule_q a b GREATER_THAN = true <-> (SMALL < a - b)%Q) /\
  (evaluate_rule_q a b LESS_OR_EQUAL = true <-> (a - b <= SMALL)%Q) /\
  (evaluate_rule_q a b GREATER_OR_EQUAL = true <-> (b - a <= SMALL)%Q) /\
  (evaluate_rule_q a b EQUAL_TO = true <-> (a - b < SMALL)%Q /\ (b - a < SMALL)%Q).
Proof.
  cbn.
  split; [|split; [|split; [|split]]].
  - destruct (Qltb_spec a (b - SMALL)); split; intro; auto; try discriminate; lra.
  - destruct (Qltb_spec (b + SMALL) a); split; intro; auto; try discriminate; lra.
  - destruct (Qleb_spec a (b + SMALL)); split; intro; auto; try discriminate; lra.
  - destruct (Qleb_spec (b - SMALL) a); split; intro; auto; try discriminate; lra.
  - destruct (Qeqb_spec a b), (Qltb_spec (b - SMALL) a), (Qltb_spec a (b + SMALL)); cbn;
      (split; [intro H; try discriminate; split; qs | intros [H1 H2]; auto; exfalso; lra]).
Qed.
Lemma rule_z_meaning a b :
  (evaluate_rule_z a b LESS_THAN = true <-> (a < b)%Z) /\ (evaluate_rule_z a b GREATER_THAN = true <-> (a > b)%Z).
Proof. cbn. rewrite !Z.ltb_lt. lia. Qed.
(** dictionary order of byte strings *)
Inductive lex_lt : string -> string -> Prop :=
| lex_prefix x y : lex_lt EmptyString (String x y)
| lex_head x y a b : (N_of_ascii x < N_of_ascii y)%N -> lex_lt (String x a) (String y b)
| lex_tail x a b : lex_lt a b -> lex_lt (String x a) (String x b).
Lemma str_lt_lex a : forall b, str_lt a b = true <-> lex_lt a b.
Proof.
  induction a as [|x a IH]; intros [|y b]; cbn.
  - split; [discriminate|]. intro H; inversion H.
  - split; auto. intros _; constructor.
  - split; [discriminate|]. intro H; inversion H.
  - destruct (N.ltb_spec (N_of_ascii x) (N_of_ascii y)).
    + split; auto. intros _; constructor; auto.
    + destruct (N.eqb_spec (N_of_ascii x) (N_of_ascii y)).
      * apply N_of_ascii_inj in e. subst y. rewrite IH. split; [apply lex_tail; auto|].
        intro L; inversion L; subst; auto; lia.
      * split; [discriminate|]. intro L; inversion L; subst; lia.
Qed.
Lemma rule_s_meaning a b :
  (evaluate_rule_s a b LESS_THAN = true <-> lex_lt a b) /\ (evaluate_rule_s a b GREATER_THAN = true <-> lex_lt b a).
Proof. cbn. split; apply str_lt_lex. Qed.
Lemma rule_b_meaning a b :
  (evaluate_rule_b a b LESS_THAN = true <-> a = false /\ b = true) /\ (evaluate_rule_b a b GREATER_THAN = true <-> a = true /\ b = false).
Proof. destruct a, b; cbn; intuition discriminate. Qed.

(* ------------------------------------------------------------------------------------------ *)
(** * Delay (C08): specification over the complete sample history *)

(** a sample is due at query time q *)
Definition due (q : Q) (e : Q * bool) : bool := Qltb (fst e - SMALL) q.
(** value in effect at query time q: the last due sample, false if none *)
Definition value_at (h : list (Q * bool)) (q : Q) : bool :=
  match rev (filter (due q) h) with [] => false | (_, v) :: _ => v end.
(** value of the last sample *)
Definition last_value (h : list (Q * bool)) : option bool :=
  match rev h with [] => None | (_, v) :: _ => Some v end.
(** the sampled signal rises to true at a sample that became due after query q0 (if any) and is due at q *)
Definition rises_between (h : list (Q * bool)) (q0 : option Q) (q : Q) : Prop :=
  exists pre t post, h = pre ++ (t, true) :: post /\ last_value pre <> Some true /\
    due q (t, true) = true /\
    match q0 with None => True | Some q0 => due q0 (t, true) = false end.
(** consecutive samples at least the tolerance apart *)
Fixpoint spaced (h : list (Q * bool)) : Prop :=
  match h with
  | (t1, _) :: (((t2, _) :: _) as r) => (t1 + SMALL <= t2)%Q /\ spaced r
  | _ => True
  end.

(** register and query, as OSCCondition::Evaluate does, over a list of samples *)
Fixpoint hist_run (d : Q) (h : hist) (samples : list (Q * bool)) : option (list bool * hist) :=
  match samples with
  | [] => Some ([], h)
  | (t, v) :: r =>
    match get_value_at_time (fst (register_value h t v)) (t - d) with
    | None => None
    | Some (b, h') => match hist_run d h' r with
                      | None => None
                      | Some (bs, h'') => Some (b :: bs, h'')
                      end
    end
  end.

(** ** change points *)
Fixpoint comp (prev : option bool) (h : list (Q * bool)) : list (Q * bool) :=
  match h with
  | [] => []
  | (t, v) :: r =>
      match prev with
      | Some p => if Bool.eqb p v then comp prev r else (t, v) :: comp (Some v) r
      | None => (t, v) :: comp (Some v) r
      end
  end.
Definition lastv (prev : option bool) (h : list (Q * bool)) : option bool :=
  match last_value h with Some v => Some v | None => prev end.

Lemma last_value_snoc h t v : last_value (h ++ [(t, v)]) = Some v.
Proof. unfold last_value. rewrite rev_app_distr. reflexivity. Qed.
Lemma last_value_cons a h : last_value (a :: h) = match last_value h with Some v => Some v | None => Some (snd a) end.
Proof.
  unfold last_value. cbn. destruct (rev h) as [|[t v] r] eqn:E; cbn; auto.
  destruct a; auto.
Qed.
Lemma last_value_app h1 h2 : last_value (h1 ++ h2) = match last_value h2 with Some v => Some v | None => last_value h1 end.
Proof.
  unfold last_value. rewrite rev_app_distr. destruct (rev h2) as [|[t v] r]; cbn; auto.
Qed.
Lemma last_value_none h : last_value h = None -> h = [].
Proof.
  unfold last_value. destruct (rev h) as [|[t v] r] eqn:E; [|discriminate].
  intros _. rewrite <- (rev_involutive h), E. reflexivity.
Qed.
Lemma lastv_cons prev t v h : lastv prev ((t, v) :: h) = lastv (Some v) h.
Proof. unfold lastv. rewrite last_value_cons. destruct (last_value h); auto. Qed.

Lemma comp_snoc h : forall prev t v,
  comp prev (h ++ [(t, v)]) = comp prev h ++
    (match lastv prev h with Some p => if Bool.eqb p v then [] else [(t, v)] | None => [(t, v)] end).
Proof.
  induction h as [|[t0 v0] h IH]; intros prev t v.
  - cbn. destruct prev; cbn; auto.
  - rewrite lastv_cons. cbn. destruct prev as [p|].
    + destruct (Bool.eqb p v0) eqn:E.
      * apply eqb_prop in E; subst. rewrite IH. reflexivity.
      * cbn. f_equal. apply IH.
    + cbn. f_equal. apply IH.
Qed.

Lemma comp_last h : forall prev, match last_value (comp prev h) with
                                 | Some v => lastv prev h = Some v
                                 | None => lastv prev h = prev
                                 end.
Proof.
  induction h as [|[t v] h IH]; intros prev.
  - cbn. reflexivity.
  - rewrite lastv_cons. cbn. destruct prev as [p|].
    + destruct (Bool.eqb p v) eqn:E.
      * apply eqb_prop in E; subst. apply IH.
      * specialize (IH (Some v)). rewrite last_value_cons. destruct (last_value (comp (Some v) h)); auto.
    + specialize (IH (Some v)). rewrite last_value_cons. destruct (last_value (comp (Some v) h)); auto.
Qed.

Lemma comp_incl h : forall prev e, In e (comp prev h) -> In e h.
Proof.
  induction h as [|[t v] h IH]; intros prev e; cbn; auto.
  destruct prev as [p|]; [destruct (Bool.eqb p v)|]; cbn; intuition eauto.
Qed.

(** sortedness *)
Definition before (t : Q) (h : list (Q * bool)) : Prop := forall e, In e h -> (fst e + SMALL <= t)%Q.
Fixpoint sorted (h : list (Q * bool)) : Prop :=
  match h with
  | [] => True
  | e :: r => (forall e', In e' r -> (fst e + SMALL <= fst e')%Q) /\ sorted r
  end.
Lemma spaced_sorted h : spaced h -> sorted h.
Proof.
  induction h as [|[t v] h IH]; cbn; auto.
  destruct h as [|[t2 v2] h]; cbn in *; [split; auto; contradiction|].
  intros [H1 H2]. specialize (IH H2). destruct IH as [IH1 IH2].
  split; [|split; auto].
  intros e [<-|He]; cbn; auto. specialize (IH1 _ He). qs.
Qed.
Lemma sorted_app h1 h2 : sorted (h1 ++ h2) <->
  sorted h1 /\ sorted h2 /\ (forall a b, In a h1 -> In b h2 -> (fst a + SMALL <= fst b)%Q).
Proof.
  induction h1 as [|e h1 IH]; cbn.
  - intuition.
  - rewrite IH. split.
    + intros (H1 & H2 & H3 & H4). repeat split; auto.
      * intros e' He'. apply H1, in_or_app; auto.
      * intros a b [<-|Ha] Hb; auto. apply H1, in_or_app; auto.
    + intros ((H1 & H2) & H3 & H4). repeat split; auto.
      intros e' He'. apply in_app_or in He'. destruct He'; auto.
Qed.
Lemma comp_sorted h : forall prev, sorted h -> sorted (comp prev h).
Proof.
  induction h as [|[t v] h IH]; intros prev; cbn; auto.
  intros [H1 H2].
  destruct prev as [p|]; [destruct (Bool.eqb p v)|]; cbn; auto.
  all: split; auto; intros e' He'; apply H1; eapply comp_incl; eauto.
Qed.

(** number of due entries, a prefix of a sorted list *)
Definition ndue (q : Q) (l : list (Q * bool)) : nat := length (filter (due q) l).
Lemma due_antitone q e e' : (fst e <= fst e')%Q -> due q e' = true -> due q e = true.
Proof. unfold due. intros H1 H2. qprop. lra. Qed.
Lemma due_mono q q' e : (q <= q')%Q -> due q e = true -> due q' e = true.
Proof. unfold due. intros H1 H2. qprop. lra. Qed.
Lemma filter_none {A} (f : A -> bool) l : (forall x, In x l -> f x = false) -> filter f l = [].
Proof.
  induction l as [|a l IH]; cbn; intro H; auto. rewrite (H a) by auto. apply IH. intros; apply H; auto.
Qed.
Lemma sorted_split q l : sorted l ->
  exists l1 l2, l = l1 ++ l2 /\ filter (due q) l = l1 /\ (forall e, In e l1 -> due q e = true) /\
                (forall e, In e l2 -> due q e = false).
Proof.
  induction l as [|e l IH]; intros Hs.
  - exists [], []. cbn. intuition.
  - destruct Hs as [H1 H2]. destruct (due q e) eqn:E.
    + destruct (IH H2) as (l1 & l2 & -> & F & A & B). exists (e :: l1), l2. cbn. rewrite E, F.
      repeat split; auto. intros e' [<-|]; auto.
    + exists [], (e :: l). cbn. rewrite E. repeat split; auto.
      * apply filter_none. intros x Hx. destruct (due q x) eqn:D; auto.
        exfalso. assert (due q e = true); [|congruence].
        eapply due_antitone; eauto. specialize (H1 _ Hx). qs.
      * intros e' [<-|Hx]; auto. destruct (due q e') eqn:D; auto.
        exfalso. assert (due q e = true); [|congruence].
        eapply due_antitone; eauto. specialize (H1 _ Hx). qs.
Qed.

Lemma due_loop_spec l1 : forall q l2 acc i,
  (forall e, In e l1 -> due q e = true) ->
  (forall e, In e l2 -> due q e = false) ->
  due_loop (l1 ++ l2) q acc i = (acc || existsb snd l1, i + length l1).
Proof.
  induction l1 as [|[t v] l1 IH]; intros q l2 acc i H1 H2; cbn.
  - rewrite orb_false_r, Nat.add_0_r. destruct l2 as [|[t v] l2]; cbn; auto.
    specialize (H2 (t, v) (or_introl eq_refl)). unfold due in H2. cbn in H2. rewrite H2. reflexivity.
  - assert (D := H1 (t, v) (or_introl eq_refl)). unfold due in D. cbn in D. rewrite D.
    rewrite IH; auto; [|intros; apply H1; right; auto].
    f_equal; [now rewrite orb_assoc | lia].
Qed.

Lemma back_last l : match back l with Some (_, v) => last_value l = Some v | None => l = [] end.
Proof.
  unfold back, last_value. destruct l as [|a l] using rev_ind; cbn; auto.
  rewrite app_length. cbn. replace (length l + 1 - 1) with (length l) by lia.
  rewrite nth_error_app2 by lia. rewrite Nat.sub_diag. cbn. rewrite rev_app_distr. destruct a; auto.
Qed.
Lemma back_in l e : back l = Some e -> In e l.
Proof. unfold back. apply nth_error_In. Qed.

(** the value returned for a sorted change list whose first [n0] entries were due before *)
Lemma get_value_sorted l1 l2 l3 q : 
  sorted (l1 ++ l2 ++ l3) -> l1 ++ l2 ++ l3 <> [] ->
  (forall e, In e (l1 ++ l2) -> due q e = true) ->
  (forall e, In e l3 -> due q e = false) ->
  get_value_at_time (mkHist (l1 ++ l2 ++ l3) (length l1)) q =
  Some (match l2 with
        | [] => match last_value l1 with Some v => v | None => false end
        | _ => existsb snd l2
        end, mkHist (l1 ++ l2 ++ l3) (length (l1 ++ l2))).
Proof.
  intros Hs Hne D1 D3. unfold get_value_at_time. cbn [values cur].
  destruct (l1 ++ l2 ++ l3) as [|a l] eqn:E; [congruence|]. rewrite <- E in *. clear Hne.
  assert (CI : restart_index (l1 ++ l2 ++ l3) (length l1) q = Some (length l1)).
  { unfold restart_index. destruct (length l1) as [|j] eqn:L; auto.
    rewrite nth_error_app1 by lia.
    destruct (nth_error l1 j) as [[t v]|] eqn:N.
    - apply nth_error_In in N.
      assert (D := D1 (t, v) (in_or_app _ _ _ (or_introl N))). unfold due in D. cbn in D.
      destruct (Qltb_spec q (t - SMALL)); auto. qprop. exfalso; lra.
    - apply nth_error_None in N. lia. }
  rewrite CI.
  rewrite nth_error_app2, Nat.sub_diag by lia.
  destruct l2 as [|[t2 v2] l2].
  - cbn [app]. rewrite app_nil_r. destruct l3 as [|[t3 v3] l3].
    + cbn. rewrite app_nil_r. assert (B := back_last l1).
      destruct (back l1) as [[t v]|]; [rewrite B; auto|].
      subst l1. cbn in E. discriminate.
    + cbn [nth_error]. assert (D := D3 (t3, v3) (or_introl eq_refl)). unfold due in D; cbn in D. rewrite D.
      destruct (length l1) as [|j] eqn:L.
      * destruct l1; [|discriminate]. reflexivity.
      * rewrite nth_error_app1 by lia. assert (B := back_last l1). unfold back in B.
        rewrite L in B. cbn in B. rewrite Nat.sub_0_r in B.
        destruct (nth_error l1 j) as [[t v]|]; [rewrite B; reflexivity|].
        subst. discriminate.
  - cbn [app nth_error]. assert (D : due q (t2, v2) = true) by (apply D1, in_or_app; right; left; auto).
    unfold due in D; cbn in D. rewrite D.
    rewrite skipn_app, skipn_all, Nat.sub_diag. cbn [app skipn].
    change ((t2, v2) :: l2 ++ l3) with (((t2, v2) :: l2) ++ l3).
    rewrite (due_loop_spec ((t2, v2) :: l2) q l3 false (length l1)).
    + rewrite app_length. reflexivity.
    + intros e He. apply D1, in_or_app; auto.
    + auto.
Qed.

(** the register step on a sorted history *)
Lemma register_comp h c t v :
  before t h -> 
  fst (register_value (mkHist (comp None h) c) t v) = mkHist (comp None (h ++ [(t, v)])) c.
Proof.
  intros Hb. unfold register_value. cbn [values cur].
  assert (B := back_last (comp None h)). assert (L := comp_last h None).
  rewrite comp_snoc.
  destruct (back (comp None h)) as [[bt bv]|] eqn:E.
  - rewrite B in L. rewrite L.
    apply back_in in E. apply comp_incl in E. specialize (Hb _ E). cbn in Hb.
    destruct (Qltb_spec t (bt + SMALL)); [exfalso; lra|].
    destruct v, bv; cbn; rewrite ?app_nil_r; reflexivity.
  - rewrite B in *. cbn in L. rewrite L. reflexivity.
Qed.

(** ** relation between samples and change points *)
Lemma comp_rise h : forall prev t,
  In (t, true) (comp prev h) <->
  exists pre post, h = pre ++ (t, true) :: post /\ lastv prev pre <> Some true.
Proof.
  induction h as [|[t0 v0] h IH]; intros prev t.
  - cbn. split; [contradiction|]. intros (pre & post & H & _). destruct pre; discriminate.
  - assert (Step : forall p', (exists pre post, h = pre ++ (t, true) :: post /\ lastv (Some v0) pre <> Some true)
              -> exists pre post, (t0, v0) :: h = pre ++ (t, true) :: post /\ lastv p' pre <> Some true).
    { intros p' (pre & post & -> & H). exists ((t0, v0) :: pre), post. split; auto. now rewrite lastv_cons. }
    assert (Back : (exists pre post, (t0, v0) :: h = pre ++ (t, true) :: post /\ lastv prev pre <> Some true) ->
              ((t0, v0) = (t, true) /\ prev <> Some true) \/
              exists pre post, h = pre ++ (t, true) :: post /\ lastv (Some v0) pre <> Some true).
    { intros (pre & post & H & N). destruct pre as [|[t1 v1] pre]; cbn in H; injection H; intros; subst.
      - left; auto.
      - right. exists pre, post. split; auto. rewrite lastv_cons in N. auto. }
    cbn. destruct prev as [p|].
    + destruct (Bool.eqb p v0) eqn:E.
      * apply eqb_prop in E; subst p. rewrite IH. split; [apply Step|].
        intro H. destruct (Back H) as [[E N]|]; auto. injection E; intros; subst. congruence.
      * cbn. rewrite IH. split.
        -- intros [H|H]; [|apply Step; auto]. injection H; intros; subst.
           exists [], h. split; auto. cbn. destruct p; [discriminate|congruence].
        -- intro H. destruct (Back H) as [[E2 N]|]; auto.
    + cbn. rewrite IH. split.
      * intros [H|H]; [|apply Step; auto]. injection H; intros; subst.
        exists [], h. split; auto. cbn. congruence.
      * intro H. destruct (Back H) as [[E2 N]|]; auto.
Qed.

Lemma due_filter_comp q h : forall prev, sorted h -> filter (due q) (comp prev h) = comp prev (filter (due q) h).
Proof.
  induction h as [|[t v] h IH]; intros prev Hs; cbn; auto. destruct Hs as [H1 H2].
  destruct (due q (t, v)) eqn:D.
  - destruct prev as [p|]; [destruct (Bool.eqb p v) eqn:E|]; cbn; rewrite ?E, ?D; cbn; rewrite ?IH; auto.
  - assert (F : filter (due q) h = []).
    { apply filter_none. intros x Hx. destruct (due q x) eqn:Dx; auto. exfalso.
      assert (due q (t, v) = true); [|congruence].
      eapply due_antitone; eauto. specialize (H1 _ Hx). cbn in *. qs. }
    rewrite F. cbn.
    assert (G : forall p, filter (due q) (comp p h) = []).
    { intro p. rewrite IH, F; auto. }
    destruct prev as [p|]; [destruct (Bool.eqb p v)|]; cbn; rewrite ?D, ?G; auto.
Qed.
Lemma value_at_lastv h q : value_at h q = match lastv None (filter (due q) h) with Some v => v | None => false end.
Proof.
  unfold value_at, lastv, last_value. destruct (rev (filter (due q) h)) as [|[t v] r]; auto.
Qed.

(** the state of the history after processing all samples of [h] with the last query at [q0] *)
Definition hist_inv (h : list (Q * bool)) (q0 : option Q) (s : hist) : Prop :=
  values s = comp None h /\
  cur s = match q0 with None => 0 | Some q => ndue q (comp None h) end.

Lemma hist_step h q0 s t v d :
  hist_inv h q0 s -> sorted (h ++ [(t, v)]) ->
  (0 <= d)%Q ->
  match q0 with None => True | Some q => (q <= t - d)%Q /\ due q (t, v) = false end ->
  exists b s', get_value_at_time (fst (register_value s t v)) (t - d) = Some (b, s') /\
    hist_inv (h ++ [(t, v)]) (Some (t - d)%Q) s' /\
    (b = true <-> value_at (h ++ [(t, v)]) (t - d) = true \/ rises_between (h ++ [(t, v)]) q0 (t - d)).
Proof.
  intros [Hv Hc] Hs Hd Hq.
  assert (Hb : before t h).
  { intros e He. apply sorted_app in Hs. destruct Hs as (_ & _ & H). apply (H e (t, v)); cbn; auto. }
  destruct s as [vals cu]. cbn [values cur] in *. subst vals.
  rewrite (register_comp h cu t v Hb).
  set (h' := h ++ [(t, v)]) in *.
  assert (Sc : sorted (comp None h')) by (apply comp_sorted; auto).
  destruct (sorted_split (t - d) (comp None h') Sc) as (l12 & l3 & E & F & D & ND).
  (* split the due part at the previously due entries *)
  assert (P : exists l1 l2, l12 = l1 ++ l2 /\ length l1 = cu /\
               (forall e, In e l2 -> match q0 with None => True | Some q => due q e = false end) /\
               (forall e, In e l1 -> match q0 with None => False | Some q => due q e = true end)).
  { destruct q0 as [q|].
    - destruct Hq as [Hqle Hqt].
      assert (S12 : sorted l12). { rewrite E in Sc. apply sorted_app in Sc. tauto. }
      destruct (sorted_split q l12 S12) as (l1 & l2 & E1 & F1 & D1 & ND1).
      exists l1, l2. split; auto. split; [|split]; auto.
      rewrite Hc. unfold ndue.
      assert (Ef : filter (due q) (comp None h') = l1).
      { rewrite E, filter_app, F1. rewrite (filter_none _ l3); [apply app_nil_r|].
        intros x Hx. destruct (due q x) eqn:Dx; auto.
        exfalso. specialize (ND _ Hx). rewrite (due_mono q (t - d) x Hqle Dx) in ND. discriminate. }
      rewrite <- Ef. unfold h'. rewrite comp_snoc, filter_app, app_length.
      destruct (lastv None h) as [p|]; [destruct (Bool.eqb p v)|]; cbn; rewrite ?Hqt; cbn; lia.
    - exists [], l12. rewrite Hc. cbn. intuition. }
  destruct P as (l1 & l2 & -> & L1 & N2 & D1').
  rewrite <- app_assoc in E.
  assert (NE : comp None h' <> []).
  { intro Z. assert (K := comp_last h' None). rewrite Z in K. cbn in K.
    unfold h', lastv in K. rewrite last_value_snoc in K. discriminate. }
  rewrite E in *. rewrite <- L1.
  rewrite (get_value_sorted l1 l2 l3 (t - d) Sc NE D ND).
  eexists _, _. split; [reflexivity|]. split.
  - split; cbn [values cur]; [symmetry; exact E|]. rewrite E. unfold ndue.
    rewrite F. reflexivity.
  - (* value *)
    assert (VA : value_at h' (t - d) = match last_value (l1 ++ l2) with Some x => x | None => false end).
    { rewrite value_at_lastv.
      assert (DF := due_filter_comp (t - d) h' None Hs). rewrite E, F in DF. 
      assert (CL := comp_last (filter (due (t - d)) h') None). rewrite <- DF in CL.
      destruct (last_value (l1 ++ l2)); rewrite CL; auto. }
    assert (RB : rises_between h' q0 (t - d) <-> exists t', In (t', true) l2).
    { split.
      - intros (pre & t' & post & Eh & Hl & Dt & N0).
        assert (I1 : In (t', true) (comp None h')).
        { apply comp_rise. exists pre, post. split; auto. unfold lastv. destruct (last_value pre); auto. }
        rewrite E in I1. exists t'. apply in_app_or in I1. destruct I1 as [I1|I1].
        + specialize (D1' _ I1). destruct q0; [congruence|contradiction].
        + apply in_app_or in I1. destruct I1 as [I1|I1]; auto. rewrite (ND _ I1) in Dt. discriminate.
      - intros (t' & I1).
        assert (I2 : In (t', true) (comp None h')). { rewrite E. apply in_or_app; right; apply in_or_app; auto. }
        apply comp_rise in I2. destruct I2 as (pre & post & Eh & Hl).
        exists pre, t', post. split; auto. split.
        + unfold lastv in Hl. destruct (last_value pre); auto.
        + split; [apply D, in_or_app; auto|]. specialize (N2 _ I1). destruct q0; auto. }
    rewrite VA, RB. clear VA RB. rewrite last_value_app.
    destruct l2 as [|[t2 v2] l2].
    + cbn. split; [auto|]. intros [H|[t' []]]; auto.
    + set (l2' := (t2, v2) :: l2) in *. split.
      * intro H. right. apply existsb_exists in H. destruct H as ((t' & b) & I1 & Hb1). cbn in Hb1; subst.
        exists t'; auto.
      * intros [H|[t' H]]; apply existsb_exists.
        -- unfold last_value in H. destruct (rev l2') as [|[tr vr] rr] eqn:R.
           ++ exfalso. apply (f_equal (@length _)) in R. rewrite rev_length in R. discriminate.
           ++ exists (tr, vr). split; auto. apply in_rev. rewrite R. left; auto.
        -- exists (t', true). auto.
Qed.

(** query time of the evaluation preceding the ones in [h] (none before the first) *)
Definition last_query (h : list (Q * bool)) (d : Q) : option Q :=
  match rev h with [] => None | (t, _) :: _ => Some (t - d)%Q end.
Lemma last_query_snoc h t v d : last_query (h ++ [(t, v)]) d = Some (t - d)%Q.
Proof. unfold last_query. rewrite rev_app_distr. reflexivity. Qed.

(** what a delayed condition must report at sample [(t,v)] after the samples [pre] *)
Definition delay_spec (d : Q) (pre : list (Q * bool)) (t : Q) (v : bool) (b : bool) : Prop :=
  b = true <-> value_at (pre ++ [(t, v)]) (t - d) = true \/
               rises_between (pre ++ [(t, v)]) (last_query pre d) (t - d).

Lemma last_query_ok h t v d : sorted (h ++ [(t, v)]) -> (0 <= d)%Q ->
  match last_query h d with None => True | Some q => (q <= t - d)%Q /\ due q (t, v) = false end.
Proof.
  intros Hs Hd. unfold last_query. destruct (rev h) as [|[t0 v0] r] eqn:E; auto.
  assert (I : In (t0, v0) h) by (apply in_rev; rewrite E; left; auto).
  apply sorted_app in Hs. destruct Hs as (_ & _ & H). specialize (H _ (t, v) I (or_introl eq_refl)). cbn in H.
  unfold due. cbn. split; [qs|]. qprop. qs.
Qed.

Lemma hist_run_gen d : (0 <= d)%Q -> forall samples h s,
  hist_inv h (last_query h d) s -> sorted (h ++ samples) ->
  exists bs s', hist_run d s samples = Some (bs, s') /\ length bs = length samples /\
    hist_inv (h ++ samples) (last_query (h ++ samples) d) s' /\
    forall pre t v post b, samples = pre ++ (t, v) :: post -> nth_error bs (length pre) = Some b ->
      delay_spec d (h ++ pre) t v b.
Proof.
  intros Hd. induction samples as [|[t v] samples IH]; intros h s Hi Hs.
  - exists [], s. cbn. rewrite app_nil_r. split; [|split; [|split]]; auto.
    intros; destruct pre; discriminate.
  - replace (h ++ (t, v) :: samples) with ((h ++ [(t, v)]) ++ samples) in * by (rewrite <- app_assoc; reflexivity).
    assert (Hs1 : sorted (h ++ [(t, v)])) by (apply sorted_app in Hs; tauto).
    destruct (hist_step h _ s t v d Hi Hs1 Hd (last_query_ok h t v d Hs1 Hd)) as (b & s1 & G & Hi1 & Sp).
    rewrite <- (last_query_snoc h t v d) in Hi1.
    destruct (IH _ _ Hi1 Hs) as (bs & s' & R & L & Hi' & Sp').
    exists (b :: bs), s'. cbn [hist_run]. rewrite G, R. cbn [length].
    split; [reflexivity|]. split; [lia|]. split; [exact Hi'|].
    intros pre t0 v0 post b0 Heq Hn. destruct pre as [|p pre]; cbn in Heq; injection Heq; intros; subst.
    + cbn in Hn. injection Hn; intros; subst. rewrite app_nil_r. exact Sp.
    + cbn in Hn. assert (K := Sp' pre t0 v0 post b0 eq_refl Hn). rewrite <- app_assoc in K. exact K.
Qed.

(** link between a condition with edge none and the delay history *)
Definition evals (samples : list (Q * bool)) : list cop := map (fun e => OpEval (fst e) (snd e)) samples.

Lemma cond_run_hist samples : forall c bs h',
  c_edge c = NONE ->
  hist_run (delay c) (history c) samples = Some (bs, h') ->
  exists os, cond_run c (evals samples) = Some os /\ map out_value os = bs.
Proof.
  induction samples as [|[t v] samples IH]; intros c bs h' He H.
  - cbn in H. injection H; intros; subst. exists []. auto.
  - cbn [hist_run] in H. cbn [evals map cond_run fst snd]. unfold cond_evaluate.
    rewrite He. cbn [check_edge].
    destruct (register_value (history c) t v) as [h1 x]. cbn [fst] in H.
    destruct (get_value_at_time h1 (t - delay c)) as [[b h2]|]; [|discriminate].
    destruct (hist_run (delay c) h2 samples) as [[bs2 h3]|] eqn:R; [|discriminate].
    injection H; intros; subst. fold (evals samples).
    match goal with |- context [cond_run ?c2 _] => destruct (IH c2 bs2 h' eq_refl R) as (os & -> & <-) end.
    eexists. split; [reflexivity|]. reflexivity.
Qed.

Lemma delayed_condition d samples :
  (0 <= d)%Q -> spaced samples ->
  exists os, cond_run (new_cond d NONE) (evals samples) = Some os /\ length os = length samples /\
    forall pre t v post o, samples = pre ++ (t, v) :: post -> nth_error os (length pre) = Some o ->
      delay_spec d pre t v (out_value o).
Proof.
  intros Hd Hs.
  destruct (hist_run_gen d Hd samples [] (mkHist [] 0)) as (bs & s' & R & L & _ & Sp).
  - split; reflexivity.
  - apply spaced_sorted; auto.
  - destruct (cond_run_hist samples (new_cond d NONE) bs s' eq_refl R) as (os & Ro & <-).
    exists os. rewrite map_length in L. split; [|split]; auto.
    intros pre t v post o Heq Hn. assert (K := Sp pre t v post (out_value o) Heq).
    rewrite nth_error_map, Hn in K. exact (K eq_refl).
Qed.

(** uniform time steps: the value is exactly the one in effect at t-d *)
Definition uniform (t0 dt : Q) (vs : list bool) : list (Q * bool) :=
  map (fun p => ((t0 + inject_Z (Z.of_nat (fst p)) * dt)%Q, snd p)) (combine (seq 0 (length vs)) vs).

Fixpoint uniform_from (k : nat) (t0 dt : Q) (vs : list bool) : list (Q * bool) :=
  match vs with
  | [] => []
  | v :: r => ((t0 + inject_Z (Z.of_nat k) * dt)%Q, v) :: uniform_from (S k) t0 dt r
  end.
Lemma uniform_eq t0 dt vs : uniform t0 dt vs = uniform_from 0 t0 dt vs.
Proof.
  unfold uniform. generalize 0 as k. induction vs as [|v vs IH]; intro k; cbn; auto. now rewrite IH.
Qed.
Lemma inject_S k : (inject_Z (Z.of_nat (S k)) == inject_Z (Z.of_nat k) + 1)%Q.
Proof. rewrite Nat2Z.inj_succ, <- Z.add_1_r, inject_Z_plus. reflexivity. Qed.
Lemma uniform_spaced t0 dt vs : forall k, (SMALL <= dt)%Q -> spaced (uniform_from k t0 dt vs).
Proof.
  induction vs as [|v vs IH]; intros k H; [exact I|].
  destruct vs as [|v2 vs]; [exact I|]. cbn [uniform_from spaced]. split.
  - rewrite inject_S. set (x := inject_Z (Z.of_nat k)). nra.
  - apply (IH (S k)); auto.
Qed.
(** every sample of a uniform history is one step apart from the next *)
Lemma uniform_split vs : forall k t0 dt pre t v post,
  uniform_from k t0 dt vs = pre ++ (t, v) :: post ->
  (t == t0 + inject_Z (Z.of_nat (k + length pre)) * dt)%Q.
Proof.
  induction vs as [|v0 vs IH]; intros k t0 dt pre t v post H.
  - destruct pre; discriminate.
  - destruct pre as [|p pre]; cbn [uniform_from app] in H; injection H; intros; subst.
    + cbn [length]. rewrite Nat.add_0_r. reflexivity.
    + rewrite (IH _ _ _ _ _ _ _ H0). cbn [length]. rewrite Nat.add_succ_r. reflexivity.
Qed.

Lemma app_split3 {A} (h pre pre' : list A) x y post post' :
  h = pre ++ x :: post -> h = pre' ++ y :: post' -> length pre < length pre' ->
  exists mid, pre' = pre ++ x :: mid.
Proof.
  revert h pre'. induction pre as [|a pre IH]; intros h pre' H1 H2 L.
  - destruct pre' as [|b pre']; cbn in L; [lia|]. subst. cbn in H2. injection H2; intros; subst.
    exists pre'; auto.
  - destruct pre' as [|b pre']; cbn in L; [lia|]. subst. cbn in H2. injection H2; intros; subst.
    destruct (IH _ pre' eq_refl H) as [mid ->]; [lia|]. exists mid. reflexivity.
Qed.

(** with uniform steps at most one sample becomes due per evaluation *)
Lemma uniform_rise d t0 dt vs pre t v post :
  (0 <= d)%Q -> (SMALL <= dt)%Q ->
  uniform_from 0 t0 dt vs = pre ++ (t, v) :: post ->
  rises_between (pre ++ [(t, v)]) (last_query pre d) (t - d) ->
  value_at (pre ++ [(t, v)]) (t - d) = true.
Proof.
  intros Hd Hdt Hu (p1 & t' & q1 & E & _ & D & N).
  unfold value_at.
  (* everything after the rise is not yet due *)
  assert (ND : forall e, In e q1 -> due (t - d) e = false).
  { intros [te ve] He. apply in_split in He. destruct He as (m1 & m2 & ->).
    assert (U1 : uniform_from 0 t0 dt vs = p1 ++ (t', true) :: (m1 ++ (te, ve) :: m2) ++ post).
    { rewrite Hu. replace (pre ++ (t, v) :: post) with ((pre ++ [(t, v)]) ++ post) by (rewrite <- app_assoc; auto).
      rewrite E, <- app_assoc. reflexivity. }
    assert (U2 : uniform_from 0 t0 dt vs = (p1 ++ (t', true) :: m1) ++ (te, ve) :: (m2 ++ post)).
    { rewrite U1. rewrite <- !app_assoc. reflexivity. }
    assert (T1 := uniform_split _ _ _ _ _ _ _ _ U1).
    assert (T2 := uniform_split _ _ _ _ _ _ _ _ U2).
    assert (T0 := uniform_split _ _ _ _ _ _ _ _ Hu).
    rewrite app_length in T2. cbn [length] in T2.
    assert (LE : (inject_Z (Z.of_nat (0 + length p1)) + 1 <= inject_Z (Z.of_nat (0 + (length p1 + S (length m1)))))%Q).
    { rewrite <- inject_S. rewrite <- Zle_Qle. lia. }
    unfold due in *. cbn [fst] in *. qprop.
    unfold last_query in N. destruct (rev pre) as [|[tl vl] rr] eqn:R.
    - (* single sample: nothing after it *)
      assert (pre = []) by (rewrite <- (rev_involutive pre), R; auto). subst pre.
      cbn in E. destruct p1 as [|? [|? ?]]; cbn in E; try discriminate.
      injection E; intros. destruct m1; discriminate.
    - assert (P : pre = rev rr ++ [(tl, vl)]) by (rewrite <- (rev_involutive pre), R; auto).
      assert (U3 : uniform_from 0 t0 dt vs = rev rr ++ (tl, vl) :: (t, v) :: post).
      { rewrite Hu, P, <- app_assoc. reflexivity. }
      assert (T3 := uniform_split _ _ _ _ _ _ _ _ U3).
      assert (LP : length pre = S (length (rev rr))) by (rewrite P, app_length; cbn; lia).
      rewrite LP in T0. cbn [Nat.add] in T0. rewrite inject_S in T0. cbn [Nat.add] in *.
      unfold due in N; cbn [fst] in N; qprop.
      set (a := inject_Z (Z.of_nat (length p1))) in *.
      set (b := inject_Z (Z.of_nat (length p1 + S (length m1)))) in *.
      set (c := inject_Z (Z.of_nat (length (rev rr)))) in *.
      assert (B : (b * dt >= a * dt + dt)%Q) by (unfold SMALL in *; nra).
      unfold SMALL in *. lra. }
  rewrite E, filter_app. cbn [filter]. rewrite D.
  rewrite (filter_none (due (t - d)) q1 ND).
  rewrite rev_app_distr. reflexivity.
Qed.

Lemma delayed_condition_uniform d t0 dt vs :
  (0 <= d)%Q -> (SMALL <= dt)%Q ->
  exists os, cond_run (new_cond d NONE) (evals (uniform t0 dt vs)) = Some os /\ length os = length vs /\
    forall pre t v post o, uniform t0 dt vs = pre ++ (t, v) :: post -> nth_error os (length pre) = Some o ->
      out_value o = value_at (uniform t0 dt vs) (t - d).
Proof.
  intros Hd Hdt. rewrite uniform_eq.
  destruct (delayed_condition d (uniform_from 0 t0 dt vs) Hd (uniform_spaced t0 dt vs 0 Hdt)) as (os & R & L & Sp).
  exists os. split; auto. split.
  - rewrite L. clear. generalize 0 as k. induction vs as [|v vs IH]; intro k; cbn; auto.
  - intros pre t v post o Hu Hn. specialize (Sp _ _ _ _ _ Hu Hn). unfold delay_spec in Sp.
    assert (So := spaced_sorted _ (uniform_spaced t0 dt vs 0 Hdt)).
    assert (V : value_at (uniform_from 0 t0 dt vs) (t - d) = value_at (pre ++ [(t, v)]) (t - d)).
    { unfold value_at. rewrite Hu.
      replace (pre ++ (t, v) :: post) with ((pre ++ [(t, v)]) ++ post) by (rewrite <- app_assoc; auto).
      rewrite filter_app, (filter_none _ post), app_nil_r; auto.
      intros e He. rewrite Hu in So. apply sorted_app in So. destruct So as (_ & So & _).
      cbn in So. destruct So as [So _]. specialize (So _ He). cbn in So. unfold due. qprop. qs. }
    rewrite V.
    destruct (out_value o) eqn:O.
    + destruct (proj1 Sp eq_refl) as [H|H]; [auto|]. symmetry. eapply uniform_rise; eauto.
    + destruct (value_at (pre ++ [(t, v)]) (t - d)) eqn:E; auto. apply Sp. auto.
Qed.

(* ------------------------------------------------------------------------------------------ *)
(** * Edge detection (C07) *)

(** mathematical definition of an edge between the previous outcome (if any) and the new one *)
Definition edge_def (e : edge) (prev : option bool) (raw : bool) : bool :=
  match e, prev with
  | NONE, _ => raw
  | RISING, Some false => raw
  | FALLING, Some true => negb raw
  | RISING_OR_FALLING, Some p => negb (Bool.eqb p raw)
  | _, _ => false
  end.
(** raw outcome of the previous evaluation, forgotten when the trigger fired; newest op first *)
Fixpoint scan_prev (base : option bool) (r : list cop) : option bool :=
  match r with
  | [] => base
  | OpEval _ b :: _ => Some b
  | OpFired :: _ => None
  | OpReset :: r => scan_prev base r
  end.
Definition prev_raw (pre : list cop) : option bool := scan_prev None (rev pre).
(** the samples evaluated by a list of operations *)
Fixpoint samples_of (ops : list cop) : list (Q * bool) :=
  match ops with
  | [] => []
  | OpEval t b :: r => (t, b) :: samples_of r
  | _ :: r => samples_of r
  end.

Definition ready (h : hist) (t : Q) : Prop := before t (values h) /\ cur h = length (values h).

Lemma zero_delay_step h t d v :
  (d == 0)%Q -> ready h t ->
  exists h', get_value_at_time (fst (register_value h t v)) (t - d) = Some (v, h') /\
             (forall t', (t + SMALL <= t')%Q -> ready h' t').
Proof.
  intros Hd [Hb Hc]. destruct h as [l c]. cbn [values cur] in *. subst c.
  unfold register_value. cbn [values cur].
  assert (B := back_last l).
  destruct (back l) as [[bt bv]|] eqn:E.
  - assert (Ib := back_in _ _ E). assert (Hbt := Hb _ Ib). cbn in Hbt.
    destruct (Qltb_spec t (bt + SMALL)); [exfalso; lra|].
    assert (Ln : exists j, length l = S j /\ nth_error l j = Some (bt, bv)).
    { unfold back in E. destruct l as [|a l0]; [discriminate|].
      exists (length (a :: l0) - 1). split; [cbn; lia | exact E]. }
    destruct Ln as (j & Lj & Nj).
    destruct (Bool.eqb v bv) eqn:Ev.
    + apply eqb_prop in Ev. subst bv. cbn [negb fst]. unfold get_value_at_time. cbn [values cur].
      destruct l as [|a l0]; [discriminate|]. 
      unfold restart_index. rewrite Lj, Nj.
      destruct (Qltb_spec (t - d) (bt - SMALL)); [exfalso; qs|].
      rewrite <- Lj. rewrite (proj2 (nth_error_None (a :: l0) (length (a :: l0)))) by lia.
      rewrite E. eexists. split; [reflexivity|]. intros t' Ht'. split; cbn [values cur]; auto.
      intros e He. specialize (Hb _ He). qs.
    + cbn [negb fst]. unfold get_value_at_time. cbn [values cur].
      destruct (l ++ [(t, v)]) as [|a0 l0] eqn:El; [destruct l; discriminate|]. rewrite <- El.
      unfold restart_index. rewrite Lj. rewrite nth_error_app1 by lia. rewrite Nj.
      destruct (Qltb_spec (t - d) (bt - SMALL)); [exfalso; qs|].
      rewrite nth_error_app2 by lia. rewrite Lj, Nat.sub_diag. cbn [nth_error].
      destruct (Qltb_spec (t - SMALL) (t - d)); [|exfalso; qs].
      rewrite skipn_app, <- Lj, skipn_all, Nat.sub_diag. cbn [skipn app due_loop].
      destruct (Qltb_spec (t - SMALL) (t - d)); [|exfalso; qs].
      cbn [orb]. eexists. split; [reflexivity|]. intros t' Ht'. split; cbn [values cur].
      * intros e He. apply in_app_or in He. destruct He as [He|[<-|[]]]; cbn; [|lra].
        specialize (Hb _ He). qs.
      * rewrite app_length. cbn. lia.
  - subst l. cbn [fst length]. unfold get_value_at_time. cbn [values cur restart_index nth_error skipn].
    destruct (Qltb_spec (t - SMALL) (t - d)); [|exfalso; qs]. cbn [due_loop].
    destruct (Qltb_spec (t - SMALL) (t - d)); [|exfalso; qs]. cbn [orb].
    eexists. split; [reflexivity|]. intros t' Ht'. split; cbn [values cur]; auto.
    intros e [<-|[]]. cbn. lra.
Qed.

(** previous reported value since the last reset; newest op/out first *)
Fixpoint zip_outs (ops : list cop) (os : list eval_out) : list (cop * option eval_out) :=
  match ops with
  | [] => []
  | OpEval t b :: r => match os with
                       | o :: os' => (OpEval t b, Some o) :: zip_outs r os'
                       | [] => (OpEval t b, None) :: zip_outs r []
                       end
  | x :: r => (x, None) :: zip_outs r os
  end.

Lemma spaced_tail e h : spaced (e :: h) -> spaced h.
Proof. destruct e as [t v], h as [|[t2 v2] h]; cbn; tauto. Qed.

Lemma before_samples h t b r :
  sorted ((t, b) :: samples_of r) -> (forall t', (t + SMALL <= t')%Q -> ready h t') ->
  forall t' v', In (t', v') (samples_of r) -> ready h t'.
Proof. intros [H _] K t' v' I. apply K. apply (H _ I). Qed.

(** the outcome of the evaluation [OpEval t raw] performed after [pre], counted from state [c] *)
Lemma edge_run ops : forall c base,
  (delay c == 0)%Q ->
  (evaluated c = true -> base = Some (last_result c)) -> (evaluated c = false -> base = None) ->
  sorted (samples_of ops) ->
  (forall t v, In (t, v) (samples_of ops) -> ready (history c) t) ->
  exists os, cond_run c ops = Some os /\ length os = length (samples_of ops) /\
    forall pre t raw post, ops = pre ++ OpEval t raw :: post ->
      exists o, nth_error os (length (samples_of pre)) = Some o /\
                out_value o = edge_def (c_edge c) (scan_prev base (rev pre)) raw.
Proof.
  induction ops as [|op ops IH]; intros c base Hd Hb1 Hb2 Hs Hr.
  - exists []. cbn. repeat split; auto. intros pre ? ? ? H. destruct pre; discriminate.
  - destruct op as [t raw| |].
    + cbn [samples_of] in *. cbn [cond_run]. unfold cond_evaluate.
      set (cv := check_edge (evaluated c) raw (last_result c) (c_edge c)).
      destruct (zero_delay_step (history c) t (delay c) cv Hd (Hr t raw (or_introl eq_refl))) as (h' & G & R').
      destruct (register_value (history c) t cv) as [h1 x]. cbn [fst] in G. rewrite G.
      match goal with |- context [cond_run ?c2 ops] =>
        destruct (IH c2 (Some raw)) as (os & Ro & Lo & Sp) end; cbn [delay evaluated last_result history]; auto.
      * discriminate.
      * apply Hs.
      * intros t' v' I. apply (before_samples _ _ _ _ Hs R' _ _ I).
      * rewrite Ro. eexists. split; [reflexivity|]. split; [cbn; lia|].
        intros pre t0 raw0 post H. destruct pre as [|p pre]; cbn [app] in H; injection H; intros; subst.
        -- cbn [samples_of length nth_error rev]. eexists. split; [reflexivity|]. cbn [out_value scan_prev].
           subst cv. destruct (evaluated c).
           ++ rewrite (Hb1 eq_refl). destruct (c_edge c), raw0, (last_result c); reflexivity.
           ++ rewrite (Hb2 eq_refl). destruct (c_edge c), raw0; reflexivity.
        -- destruct (Sp pre t0 raw0 post eq_refl) as (o & N & V).
           exists o. cbn [samples_of length nth_error]. split; auto.
           rewrite V. cbn [c_edge rev]. f_equal.
           clear. induction (rev pre) as [|q l IHl]; cbn; auto. destruct q; auto.
    + cbn [samples_of] in *. cbn [cond_run].
      destruct (IH (set_idle c) None) as (os & Ro & Lo & Sp); auto.
      * discriminate.
      * rewrite Ro. exists os. split; auto. split; auto.
        intros pre t0 raw0 post H. destruct pre as [|p pre]; cbn [app] in H; [discriminate|]. injection H; intros; subst.
        destruct (Sp pre t0 raw0 post eq_refl) as (o & N & V).
        exists o. cbn [samples_of]. split; auto.
        rewrite V. cbn [c_edge set_idle rev]. f_equal.
        clear. induction (rev pre) as [|q l IHl]; cbn; auto. destruct q; auto.
    + cbn [samples_of] in *. cbn [cond_run].
      destruct (IH (cond_reset c) base) as (os & Ro & Lo & Sp); auto.
      * intros t v I. split; cbn; auto. intros e [].
      * rewrite Ro. exists os. split; auto. split; auto.
        intros pre t0 raw0 post H. destruct pre as [|p pre]; cbn [app] in H; [discriminate|]. injection H; intros; subst.
        destruct (Sp pre t0 raw0 post eq_refl) as (o & N & V).
        exists o. cbn [samples_of]. split; auto.
        rewrite V. cbn [c_edge cond_reset rev]. f_equal.
        clear. induction (rev pre) as [|q l IHl]; cbn; auto. destruct q; auto.
Qed.

Lemma edge_detection e ops :
  spaced (samples_of ops) ->
  exists os, cond_run (new_cond 0 e) ops = Some os /\ length os = length (samples_of ops) /\
    forall pre t raw post, ops = pre ++ OpEval t raw :: post ->
      exists o, nth_error os (length (samples_of pre)) = Some o /\
                out_value o = edge_def e (prev_raw pre) raw.
Proof.
  intros Hs. apply (edge_run ops (new_cond 0 e) None); cbn; auto.
  - reflexivity.
  - discriminate.
  - apply spaced_sorted; auto.
  - intros. split; cbn; auto. intros ? [].
Qed.

(** ** the condition callback fires exactly when the reported value becomes true *)
Fixpoint callbacks_ok (prev : bool) (ops : list cop) (os : list eval_out) : Prop :=
  match ops with
  | [] => True
  | OpEval _ _ :: r => match os with
                       | o :: os' => out_callback o = (out_value o && negb prev) /\ callbacks_ok (out_value o) r os'
                       | [] => False
                       end
  | OpReset :: r => callbacks_ok false r os
  | OpFired :: r => callbacks_ok prev r os
  end.
Lemma callback_run ops : forall c os,
  cond_run c ops = Some os -> callbacks_ok (cond_value c) ops os.
Proof.
  induction ops as [|op ops IH]; intros c os H; cbn in *; auto.
  destruct op as [t raw| |].
  - unfold cond_evaluate in H.
    destruct (register_value (history c) t (check_edge (evaluated c) raw (last_result c) (c_edge c))) as [h1 x].
    destruct (get_value_at_time h1 (t - delay c)) as [[b h2]|]; [|discriminate].
    match type of H with context [cond_run ?c2 ops] => destruct (cond_run c2 ops) as [os2|] eqn:E; [|discriminate] end.
    injection H; intros; subst. split.
    + cbn. destruct b, (cond_value c); reflexivity.
    + apply (IH _ _ E).
  - apply (IH _ _ H).
  - apply (IH _ _ H).
Qed.

(* ------------------------------------------------------------------------------------------ *)
(** * Groups and triggers (C09) *)

(** a condition holds now: evaluating it at this time with this raw outcome yields true *)
Definition holds (t : Q) (cr : cond * bool) : Prop :=
  exists o c', cond_evaluate (fst cr) t (snd cr) = Some (o, c') /\ out_value o = true.

Lemma group_loop_false cs : forall t b cs', group_loop cs t false = Some (b, cs') -> b = false.
Proof.
  induction cs as [|[c raw] cs IH]; intros t b cs' H; cbn in H.
  - congruence.
  - destruct (Qltb 0 (delay c)).
    + destruct (cond_evaluate c t raw) as [[o c']|]; [|discriminate].
      destruct (group_loop cs t false) as [[res cs'']|] eqn:E; [|discriminate].
      injection H; intros; subst. eapply IH; eauto.
    + destruct (group_loop cs t false) as [[res cs'']|] eqn:E; [|discriminate].
      injection H; intros; subst. eapply IH; eauto.
Qed.
Lemma group_loop_true cs : forall t b cs', group_loop cs t true = Some (b, cs') ->
  (b = true <-> forall cr, In cr cs -> holds t cr).
Proof.
  induction cs as [|[c raw] cs IH]; intros t b cs' H; cbn in H.
  - injection H; intros; subst. split; auto. intros _ cr [].
  - destruct (cond_evaluate c t raw) as [[o c']|] eqn:E; [|discriminate].
    destruct (out_value o) eqn:O; cbn in H.
    + destruct (group_loop cs t true) as [[res cs'']|] eqn:E2; [|discriminate].
      injection H; intros; subst. rewrite (IH _ _ _ E2). split.
      * intros A cr [<-|I]; auto. exists o, c'. auto.
      * intros A cr I. apply A. right; auto.
    + destruct (group_loop cs t false) as [[res cs'']|] eqn:E2; [|discriminate].
      injection H; intros; subst. apply group_loop_false in E2. subst. split; [discriminate|].
      intro A. destruct (A (c, raw) (or_introl eq_refl)) as (o' & c'' & E' & O'). cbn in E'. congruence.
Qed.
Lemma group_spec cs t b cs' : group_evaluate cs t = Some (b, cs') ->
  (b = true <-> cs <> [] /\ forall cr, In cr cs -> holds t cr).
Proof.
  destruct cs as [|c cs]; intro H.
  - cbn in H. injection H; intros; subst. split; [discriminate|]. intros [N _]. congruence.
  - unfold group_evaluate in H. rewrite (group_loop_true _ _ _ _ H). split.
    + intro A. split; [discriminate|auto].
    + intros [_ A]; auto.
Qed.
Lemma groups_loop_spec gs : forall t acc b gs', groups_loop gs t acc = Some (b, gs') ->
  (b = true <-> acc = true \/ exists g, In g gs /\ g <> [] /\ forall cr, In cr g -> holds t cr).
Proof.
  induction gs as [|g gs IH]; intros t acc b gs' H; cbn in H.
  - injection H; intros; subst. split; auto. intros [|[g [[] _]]]; auto.
  - destruct (group_evaluate g t) as [[v g']|] eqn:E; [|discriminate].
    destruct (groups_loop gs t (acc || v)) as [[res gs'']|] eqn:E2; [|discriminate].
    injection H; intros; subst. rewrite (IH _ _ _ _ E2). rewrite orb_true_iff, (group_spec _ _ _ _ E).
    split.
    + intros [[H1|[H1 H2]]|(g0 & H1 & H2)]; auto.
      * right. exists g. split; [left; auto|auto].
      * right. exists g0. split; [right; auto|auto].
    + intros [H1|(g0 & [<-|H1] & H2)]; auto. right. exists g0; auto.
Qed.
Lemma trigger_spec dflt gs t b gs' : gs <> [] -> trigger_evaluate dflt gs t = Some (b, gs') ->
  (b = true <-> exists g, In g gs /\ g <> [] /\ forall cr, In cr g -> holds t cr).
Proof.
  intros N H. destruct gs as [|g gs]; [congruence|]. unfold trigger_evaluate in H.
  destruct (groups_loop (g :: gs) t false) as [[[] gs'']|] eqn:E; [| |discriminate].
  - apply groups_loop_spec in E. injection H; intros; subst. rewrite E. split; auto. intros [|]; auto. discriminate.
  - apply groups_loop_spec in E. injection H; intros; subst. rewrite E. split; auto. intros [|]; auto. discriminate.
Qed.

(** evaluated conditions: delayed ones always are, whatever the others yield *)
Lemma group_loop_delayed cs : forall t acc b cs', group_loop cs t acc = Some (b, cs') ->
  length cs' = length cs /\
  forall i c raw c', nth_error cs i = Some (c, raw) -> nth_error cs' i = Some c' -> (0 < delay c)%Q ->
    exists o, cond_evaluate c t raw = Some (o, c').
Proof.
  induction cs as [|[c raw] cs IH]; intros t acc b cs' H; cbn in H.
  - injection H; intros; subst. split; auto. intros [|i]; discriminate.
  - destruct (acc || Qltb 0 (delay c)) eqn:A.
    + destruct (cond_evaluate c t raw) as [[o c2]|] eqn:E; [|discriminate].
      destruct (group_loop cs t (acc && out_value o)) as [[res cs'']|] eqn:E2; [|discriminate].
      injection H; intros; subst. destruct (IH _ _ _ _ E2) as [L N]. split; [cbn; lia|].
      intros [|i] c0 raw0 c' H1 H2 D; cbn in *.
      * injection H1; injection H2; intros; subst. exists o; auto.
      * eapply N; eauto.
    + destruct (group_loop cs t acc) as [[res cs'']|] eqn:E2; [|discriminate].
      injection H; intros; subst. destruct (IH _ _ _ _ E2) as [L N]. split; [cbn; lia|].
      intros [|i] c0 raw0 c' H1 H2 D; cbn in *.
      * injection H1; injection H2; intros; subst.
        apply orb_false_elim in A. destruct A as [_ A]. qprop. exfalso; lra.
      * eapply N; eauto.
Qed.

(** ** whole runs of a trigger *)
(** one engine step: the time and the raw outcome of condition [j] of group [i] *)
Notation tstep := (Q * (nat -> nat -> bool))%type.
Fixpoint attach_g (i j : nat) (g : list cond) (rw : nat -> nat -> bool) : list (cond * bool) :=
  match g with [] => [] | c :: r => (c, rw i j) :: attach_g i (S j) r rw end.
Fixpoint attach (i : nat) (gs : list (list cond)) (rw : nat -> nat -> bool) : list (list (cond * bool)) :=
  match gs with [] => [] | g :: r => attach_g i 0 g rw :: attach (S i) r rw end.
Fixpoint trigger_run (dflt : bool) (gs : list (list cond)) (steps : list tstep) : option (list bool) :=
  match steps with
  | [] => Some []
  | (t, rw) :: r =>
    match trigger_evaluate dflt (attach 0 gs rw) t with
    | None => None
    | Some (b, gs') => match trigger_run dflt gs' r with None => None | Some bs => Some (b :: bs) end
    end
  end.

(** sample history of one condition *)
Definition samples (i j : nat) (pre : list tstep) : list (Q * bool) := map (fun s => (fst s, snd s i j)) pre.
Definition times (pre : list tstep) : list (Q * bool) := map (fun s => (fst s, true)) pre.
(** what a condition with delay [d] must report *)
Definition reports (d : Q) (h : list (Q * bool)) (t : Q) (v : bool) : Prop :=
  value_at (h ++ [(t, v)]) (t - d) = true \/ rises_between (h ++ [(t, v)]) (last_query h d) (t - d).

Lemma sorted_map (f : tstep -> Q * bool) (g : tstep -> Q * bool) l :
  (forall x, fst (f x) = fst (g x)) -> sorted (map f l) -> sorted (map g l).
Proof.
  intro E. induction l as [|x l IH]; cbn; auto. intros [H1 H2]. split; auto.
  intros e He. apply in_map_iff in He. destruct He as (y & <- & I).
  rewrite <- !E. apply H1. apply in_map; auto.
Qed.

Lemma reports_zero d h t v : (d == 0)%Q -> sorted (h ++ [(t, v)]) -> (reports d h t v <-> v = true).
Proof.
  intros Hd Hs. unfold reports.
  assert (D : due (t - d) (t, v) = true) by (unfold due; cbn; qprop; qs).
  assert (V : value_at (h ++ [(t, v)]) (t - d) = v).
  { unfold value_at. rewrite filter_app. cbn [filter]. rewrite D, rev_app_distr. reflexivity. }
  rewrite V. split; [|auto]. intros [|(pre & t' & post & E & Lv & Du & N)]; auto.
  destruct (exists_last (l := (t', true) :: post) ltac:(discriminate)) as (q & [tz vz] & Eq).
  rewrite Eq, app_assoc in E. apply app_inj_tail in E. destruct E as [Eh Ez]. injection Ez; intros; subst tz vz.
  destruct q as [|q0 q].
  - injection Eq; intros; subst. auto.
  - injection Eq; intros Eq' Eq0. subst q0 h.
    exfalso. unfold last_query in N.
    destruct (rev (pre ++ (t', true) :: q)) as [|[tl vl] r] eqn:Er.
    + apply (f_equal (@length _)) in Er. rewrite rev_length, app_length in Er. cbn in Er. lia.
    + apply (f_equal (@rev _)) in Er. rewrite rev_involutive in Er. cbn [rev] in Er.
      destruct (exists_last (l := (t', true) :: q) ltac:(discriminate)) as (q' & z & Ez').
      rewrite Ez', app_assoc in Er. apply app_inj_tail in Er. destruct Er as [_ ->].
      apply sorted_app in Hs. destruct Hs as (Hs & _ & _). rewrite Ez' in Hs.
      apply sorted_app in Hs. destruct Hs as (_ & Hs & _).
      destruct q' as [|w q'].
      * injection Ez'; intros; subst. unfold due in N. cbn in N. qprop. qs.
      * injection Ez'; intros _ Ew. subst w. cbn in Hs. destruct Hs as [Hs _].
        specialize (Hs (tl, vl)). cbn in Hs.
        assert (t' + SMALL <= tl)%Q by (apply Hs; apply in_or_app; right; left; auto).
        unfold due in N. cbn in N. qprop. qs.
Qed.

Definition cinv (i j : nat) (pre : list tstep) (d : Q) (c : cond) : Prop :=
  delay c = d /\ c_edge c = NONE /\ (0 <= d)%Q /\
  ((d == 0)%Q -> forall t, before t (times pre) -> ready (history c) t) /\
  ((0 < d)%Q -> hist_inv (samples i j pre) (last_query (samples i j pre) d) (history c)).
Fixpoint ginv (i j : nat) (pre : list tstep) (ds : list Q) (cs : list cond) : Prop :=
  match ds, cs with
  | [], [] => True
  | d :: ds, c :: cs => cinv i j pre d c /\ ginv i (S j) pre ds cs
  | _, _ => False
  end.
Fixpoint tinv (i : nat) (pre : list tstep) (ds : list (list Q)) (gs : list (list cond)) : Prop :=
  match ds, gs with
  | [], [] => True
  | d :: ds, g :: gs => ginv i 0 pre d g /\ tinv (S i) pre ds gs
  | _, _ => False
  end.

Lemma cinv_eval i j pre d c t rw :
  cinv i j pre d c -> sorted (times (pre ++ [(t, rw)])) ->
  exists o c', cond_evaluate c t (rw i j) = Some (o, c') /\ cinv i j (pre ++ [(t, rw)]) d c' /\
    (out_value o = true <-> reports d (samples i j pre) t (rw i j)).
Proof.
  intros (Hd & He & H0 & Hz & Hp) Hs.
  assert (Hs' : sorted (samples i j pre ++ [(t, rw i j)])).
  { replace (samples i j pre ++ [(t, rw i j)]) with (samples i j (pre ++ [(t, rw)])) by (unfold samples; rewrite map_app; auto).
    unfold samples. refine (sorted_map (fun s => (fst s, true)) _ _ _ Hs). reflexivity. }
  assert (Hb : before t (times pre)).
  { unfold times in Hs. rewrite map_app in Hs. apply sorted_app in Hs. destruct Hs as (_ & _ & H).
    intros e I. apply (H e (t, true) I). left; auto. }
  unfold cond_evaluate. rewrite He. cbn [check_edge]. rewrite Hd.
  destruct (Qlt_le_dec 0 d) as [Hlt|Hle].
  - destruct (hist_step (samples i j pre) _ (history c) t (rw i j) d (Hp Hlt) Hs' H0 (last_query_ok _ _ _ _ Hs' H0))
      as (b & s1 & G & Hi & Sp).
    destruct (register_value (history c) t (rw i j)) as [h1 x]. cbn [fst] in G. rewrite G.
    do 2 eexists. split; [reflexivity|]. split; [|exact Sp].
    split; [auto|]. split; [auto|]. split; [auto|]. cbn [history]. split; [intro; exfalso; lra|].
    intros _. unfold samples. rewrite map_app. cbn [map fst snd].
    rewrite last_query_snoc. exact Hi.
  - assert (Ez : (d == 0)%Q) by lra.
    destruct (zero_delay_step (history c) t d (rw i j) Ez (Hz Ez t Hb)) as (h' & G & R).
    destruct (register_value (history c) t (rw i j)) as [h1 x]. cbn [fst] in G. rewrite G.
    do 2 eexists. split; [reflexivity|]. split.
    + split; [auto|]. split; [auto|]. split; [auto|]. cbn [history]. split; [|intro; exfalso; lra].
      intros _ t' Hb'. apply R. apply (Hb' (t, true)). unfold times. rewrite map_app. apply in_or_app. right; left; auto.
    + cbn [out_value]. rewrite (reports_zero d _ _ _ Ez Hs'). tauto.
Qed.
Lemma cinv_skip i j pre d c t rw :
  cinv i j pre d c -> (d == 0)%Q -> cinv i j (pre ++ [(t, rw)]) d c.
Proof.
  intros (Hd & He & H0 & Hz & Hp) Ez. split; [auto|]. split; [auto|]. split; [auto|].
  split; [|intro; exfalso; lra]. intros _ t' Hb. apply Hz; auto.
  intros e I. apply Hb. unfold times. rewrite map_app. apply in_or_app; auto.
Qed.
Lemma cinv_idle i j pre d c : cinv i j pre d c -> cinv i j pre d (set_idle c).
Proof. intros (Hd & He & H). split; [auto|]. split; auto. Qed.

Lemma ginv_loop ds : forall i j pre cs t rw acc,
  ginv i j pre ds cs -> sorted (times (pre ++ [(t, rw)])) ->
  exists b cs', group_loop (attach_g i j cs rw) t acc = Some (b, cs') /\ ginv i j (pre ++ [(t, rw)]) ds cs' /\
    (b = true <-> acc = true /\ forall k d, nth_error ds k = Some d -> reports d (samples i (j + k) pre) t (rw i (j + k))).
Proof.
  induction ds as [|d ds IH]; intros i j pre [|c cs] t rw acc G Hs; try contradiction.
  - exists acc, []. cbn. split; auto. split; auto. split; [|tauto]. intro; split; auto. intros [|k]; discriminate.
  - destruct G as [Hc G]. cbn [attach_g group_loop].
    destruct (acc || Qltb 0 (delay c)) eqn:A.
    + destruct (cinv_eval _ _ _ _ _ _ _ Hc Hs) as (o & c' & E & Hc' & Ho). rewrite E.
      destruct (IH i (S j) pre cs t rw (acc && out_value o) G Hs) as (b & cs' & El & G' & Hb). rewrite El.
      exists b, (c' :: cs'). split; auto. split; [split; auto|].
      rewrite Hb, andb_true_iff, Ho. split.
      * intros [[H1 H2] H3]. split; auto. intros [|k] d0 N; cbn in N.
        -- injection N; intros; subst. rewrite Nat.add_0_r. auto.
        -- rewrite <- Nat.add_succ_comm. apply H3; auto.
      * intros [H1 H2]. split; [split; auto|].
        -- specialize (H2 0 d eq_refl). rewrite Nat.add_0_r in H2. auto.
        -- intros k d0 N. specialize (H2 (S k) d0 N). rewrite <- Nat.add_succ_comm in H2. auto.
    + apply orb_false_elim in A. destruct A as [-> A].
      assert (Ez : (d == 0)%Q).
      { destruct Hc as (Hd & _ & H0 & _). rewrite Hd in A. qprop. lra. }
      destruct (IH i (S j) pre cs t rw false G Hs) as (b & cs' & El & G' & Hb). rewrite El.
      exists b, (c :: cs'). split; auto. split; [split; auto; apply cinv_skip; auto|].
      rewrite Hb. split; intros [H _]; discriminate.
Qed.
Lemma attach_g_nil i j cs rw : attach_g i j cs rw = [] <-> cs = [].
Proof. destruct cs; cbn; split; congruence. Qed.
Lemma ginv_nil i j pre ds cs : ginv i j pre ds cs -> (ds = [] <-> cs = []).
Proof. destruct ds, cs; cbn; try tauto; split; congruence. Qed.
Lemma ginv_idle ds : forall i j pre cs, ginv i j pre ds cs -> ginv i j pre ds (map set_idle cs).
Proof. induction ds; intros i j pre [|c cs]; cbn; auto. intros [H1 H2]. split; [apply cinv_idle|]; auto. Qed.
Lemma tinv_idle ds : forall i pre gs, tinv i pre ds gs -> tinv i pre ds (map (map set_idle) gs).
Proof. induction ds; intros i pre [|c cs]; cbn; auto. intros [H1 H2]. split; [apply ginv_idle|]; auto. Qed.

Definition group_true (i : nat) (ds : list Q) (pre : list tstep) (t : Q) (rw : nat -> nat -> bool) : Prop :=
  ds <> [] /\ forall k d, nth_error ds k = Some d -> reports d (samples i k pre) t (rw i k).

Lemma tinv_loop ds : forall i pre gs t rw acc,
  tinv i pre ds gs -> sorted (times (pre ++ [(t, rw)])) ->
  exists b gs', groups_loop (attach i gs rw) t acc = Some (b, gs') /\ tinv i (pre ++ [(t, rw)]) ds gs' /\
    (b = true <-> acc = true \/ exists k g, nth_error ds k = Some g /\ group_true (i + k) g pre t rw).
Proof.
  induction ds as [|d ds IH]; intros i pre [|g gs] t rw acc G Hs; try contradiction.
  - exists acc, []. cbn. split; auto. split; auto. split; auto. intros [|([|k] & g & N & _)]; auto; discriminate.
  - destruct G as [Hg G]. cbn [attach groups_loop].
    assert (Eg : exists v g', group_evaluate (attach_g i 0 g rw) t = Some (v, g') /\ ginv i 0 (pre ++ [(t, rw)]) d g' /\
                 (v = true <-> group_true i d pre t rw)).
    { destruct g as [|c g]; destruct d as [|d0 d]; try contradiction.
      - exists false, []. cbn. split; auto. split; auto. unfold group_true. split; [discriminate|]. intros [N _]; congruence.
      - destruct (ginv_loop _ _ _ _ _ t rw true Hg Hs) as (v & g' & E & G' & Hv).
        exists v, g'. split; [exact E|]. split; auto. rewrite Hv. unfold group_true. split.
        + intros [_ H]. split; [discriminate|]. exact H.
        + intros [_ H]. split; auto. }
    destruct Eg as (v & g' & Ev & G' & Hv). rewrite Ev.
    destruct (IH (S i) pre gs t rw (acc || v) G Hs) as (b & gs' & El & T' & Hb). rewrite El.
    exists b, (g' :: gs'). split; auto. split; [split; auto|].
    rewrite Hb, orb_true_iff, Hv. split.
    + intros [[H|H]|(k & g0 & N & H)]; auto.
      * right. exists 0, d. rewrite Nat.add_0_r. auto.
      * right. exists (S k), g0. rewrite <- Nat.add_succ_comm. auto.
    + intros [H|([|k] & g0 & N & H)]; auto.
      * cbn in N. injection N; intros; subst. rewrite Nat.add_0_r in H. auto.
      * right. exists k, g0. rewrite <- Nat.add_succ_comm in H. auto.
Qed.

Lemma trigger_run_gen dflt ds steps : forall pre gs,
  ds <> [] -> tinv 0 pre ds gs -> sorted (times (pre ++ steps)) ->
  exists bs, trigger_run dflt gs steps = Some bs /\ length bs = length steps /\
    forall p t rw post b, steps = p ++ (t, rw) :: post -> nth_error bs (length p) = Some b ->
      (b = true <-> exists i g, nth_error ds i = Some g /\ group_true i g (pre ++ p) t rw).
Proof.
  intros pre gs Hn. revert pre gs. induction steps as [|[t rw] steps IH]; intros pre gs T Hs.
  - exists []. cbn. split; auto. split; auto. intros [|] ? ? ? ? H; discriminate.
  - replace (pre ++ (t, rw) :: steps) with ((pre ++ [(t, rw)]) ++ steps) in Hs by (rewrite <- app_assoc; auto).
    assert (Hs1 : sorted (times (pre ++ [(t, rw)]))).
    { unfold times in *. rewrite map_app in Hs. apply sorted_app in Hs. tauto. }
    destruct (tinv_loop ds 0 pre gs t rw false T Hs1) as (b & gs' & E & T' & Hb).
    assert (Et : exists gs2, trigger_evaluate dflt (attach 0 gs rw) t = Some (b, gs2) /\ tinv 0 (pre ++ [(t, rw)]) ds gs2).
    { destruct gs as [|g gs]; [destruct ds; [congruence|contradiction]|].
      unfold trigger_evaluate. cbn [attach] in *. rewrite E. destruct b.
      - eexists. split; [reflexivity|]. apply tinv_idle; auto.
      - eexists. split; [reflexivity|]. auto. }
    destruct Et as (gs2 & Et & T2). cbn [trigger_run]. rewrite Et.
    destruct (IH _ _ T2 Hs) as (bs & Er & L & Sp). rewrite Er.
    exists (b :: bs). split; auto. split; [cbn; lia|].
    intros p t0 rw0 post b0 H N. destruct p as [|x p]; cbn [app] in H; injection H; intros; subst.
    + cbn in N. injection N; intros; subst. rewrite app_nil_r, Hb. split; [intros [|]; auto; discriminate|auto].
    + cbn in N. rewrite (Sp p t0 rw0 post b0 eq_refl N), <- app_assoc. tauto.
Qed.

Lemma ginv_init ds : forall i j, (forall d, In d ds -> (0 <= d)%Q) ->
  ginv i j [] ds (map (fun d => new_cond d NONE) ds).
Proof.
  induction ds as [|d ds IH]; intros i j H; cbn; auto. split.
  - split; [auto|]. split; [auto|]. split; [apply H; left; auto|]. cbn. split.
    + intros _ t _. split; cbn; auto. intros e [].
    + intros _. split; reflexivity.
  - apply IH. intros; apply H; right; auto.
Qed.
Lemma tinv_init ds : forall i, (forall g d, In g ds -> In d g -> (0 <= d)%Q) ->
  tinv i [] ds (map (map (fun d => new_cond d NONE)) ds).
Proof.
  induction ds as [|g ds IH]; intros i H; cbn; auto. split.
  - apply ginv_init. intros d I. apply (H g d); auto. left; auto.
  - apply IH. intros g0 d I1 I2. apply (H g0 d); auto. right; auto.
Qed.

Lemma trigger_run_spec dflt ds steps :
  ds <> [] -> (forall g d, In g ds -> In d g -> (0 <= d)%Q) -> spaced (times steps) ->
  exists bs, trigger_run dflt (map (map (fun d => new_cond d NONE)) ds) steps = Some bs /\ length bs = length steps /\
    forall pre t rw post b, steps = pre ++ (t, rw) :: post -> nth_error bs (length pre) = Some b ->
      (b = true <-> exists i g, nth_error ds i = Some g /\ g <> [] /\
                     forall j d, nth_error g j = Some d -> reports d (samples i j pre) t (rw i j)).
Proof.
  intros Hn Hd Hs.
  destruct (trigger_run_gen dflt ds steps [] _ Hn (tinv_init ds 0 Hd) (spaced_sorted _ Hs)) as (bs & E & L & Sp).
  exists bs. split; auto.
Qed.
