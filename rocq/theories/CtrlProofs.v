(** * Laws of controllers: what is active where, and who is assigned *)
From Coq Require Import List Bool ZArith NArith Lia.
From Verif Require Import CtrlModel.
Import ListNotations.

(** ** Specification *)

(** A controller is active, or can operate, on a domain. *)
Definition on (c : ctrl) (d : nat) : Prop := N.testbit (c_active c) (N.of_nat d) = true.
Definition operates (c : ctrl) (d : nat) : Prop := N.testbit (c_operating c) (N.of_nat d) = true.
(** A mask names a domain. *)
Definition names (mask : N) (d : nat) : Prop := N.testbit mask (N.of_nat d) = true.
(** A request for a domain. *)
Definition requests (mode : list act) (d : nat) (a : act) : Prop := d < 4 /\ nth d mode UNDEFINED = a.
(** What belongs to the identity of a controller and never changes. *)
Definition same_ctrl (a b : ctrl) : Prop :=
  c_name a = c_name b /\ c_type a = c_type b /\ c_operating a = c_operating b /\ c_mode a = c_mode b /\ c_align_off a = c_align_off b /\
  c_align_on a = c_align_on b.
(** No two controllers of an object are active on one domain. *)
Definition exclusive (w : world) (o : N) : Prop :=
  forall k k' d, In k (objs w o) -> In k' (objs w o) -> d < 4 -> on (ctrls w k) d -> on (ctrls w k') d -> k = k'.
(** No controller is active outside its operating domains. *)
Definition within (w : world) : Prop := forall k d, on (ctrls w k) d -> operates (ctrls w k) d.
(** The first element of a list that satisfies a property. *)
Definition is_first {A} (P : A -> Prop) (l : list A) (k : A) : Prop := exists l1 l2, l = l1 ++ k :: l2 /\ P k /\ Forall (fun x => ~ P x) l1.

(** ** Bits *)

Lemma mask_pow d : d < 4 -> ControlDomain2DomainMask d = (2 ^ N.of_nat d)%N.
Proof. intro H. do 4 (destruct d as [|d]; [reflexivity|]). lia. Qed.

Lemma mask_bit i j : i < 4 -> N.testbit (ControlDomain2DomainMask i) (N.of_nat j) = (i =? j).
Proof.
  intro H. rewrite (mask_pow i H), N.pow2_bits_eqb. destruct (Nat.eqb_spec i j) as [->|Hne].
  - apply N.eqb_refl.
  - apply N.eqb_neq. lia.
Qed.

Lemma of_nat_bit (P : N -> Prop) : (forall d, P (N.of_nat d)) -> forall d, P d.
Proof. intros H d. rewrite <- (N2Nat.id d). apply H. Qed.

Lemma bits_eq a b : (forall d, N.testbit a (N.of_nat d) = N.testbit b (N.of_nat d)) -> a = b.
Proof. intro H. apply N.bits_inj. intro n. rewrite <- (N2Nat.id n). apply H. Qed.

Lemma land_mask_zero a i : i < 4 -> (N.land a (ControlDomain2DomainMask i) =? 0)%N = negb (N.testbit a (N.of_nat i)).
Proof.
  intro H. destruct (N.testbit a (N.of_nat i)) eqn:E; cbn.
  - apply N.eqb_neq. intro Z0. assert (F : N.testbit (N.land a (ControlDomain2DomainMask i)) (N.of_nat i) = false) by (rewrite Z0; apply N.bits_0).
    rewrite N.land_spec, E, mask_bit, Nat.eqb_refl in F by exact H. discriminate.
  - apply N.eqb_eq. apply bits_eq. intro d. rewrite N.land_spec, mask_bit, N.bits_0 by exact H. destruct (Nat.eqb_spec i d) as [->|]; [rewrite E; reflexivity|].
    apply andb_false_r.
Qed.

Lemma on_domains c mask : IsActiveOnDomains c mask = true <-> (forall d, names mask d -> on c d).
Proof.
  unfold IsActiveOnDomains, names, on. rewrite N.eqb_eq. split.
  - intros E d H. rewrite <- E, N.land_spec in H. apply andb_true_iff in H. apply H.
  - intro H. apply bits_eq. intro d. rewrite N.land_spec. specialize (H d). destruct (N.testbit mask (N.of_nat d)); [rewrite H; auto|reflexivity].
Qed.

Lemma on_any c mask : IsActiveOnAnyOfDomains c mask = true <-> (exists d, names mask d /\ on c d).
Proof.
  unfold IsActiveOnAnyOfDomains, names, on. rewrite negb_true_iff, N.eqb_neq. split.
  - intro H. destruct (N.bits_inj_iff (N.land mask (c_active c)) 0) as [F _].
    assert (E : exists d, N.testbit (N.land mask (c_active c)) d = true).
    { exists (N.log2 (N.land mask (c_active c))). apply N.bit_log2. exact H. }
    destruct E as [d E]. exists (N.to_nat d). rewrite N2Nat.id. rewrite N.land_spec in E. apply andb_true_iff in E. exact E.
  - intros [d [A B]] E. assert (F : N.testbit (N.land mask (c_active c)) (N.of_nat d) = true) by (rewrite N.land_spec, A, B; reflexivity).
    rewrite E, N.bits_0 in F. discriminate.
Qed.

Lemma on_none c mask : IsNotActiveOnDomains c mask = true <-> (forall d, names mask d -> ~ on c d).
Proof.
  assert (E : IsNotActiveOnDomains c mask = negb (IsActiveOnAnyOfDomains c mask)) by (unfold IsNotActiveOnDomains, IsActiveOnAnyOfDomains; rewrite negb_involutive; reflexivity).
  rewrite E, negb_true_iff, <- not_true_iff_false, on_any. split.
  - intros H d A B. apply H. exists d. auto.
  - intros H [d [A B]]. exact (H d A B).
Qed.

Lemma on_only c mask : IsActiveOnDomainsOnly c mask = true <-> (forall d, names mask d <-> on c d).
Proof.
  unfold IsActiveOnDomainsOnly, names, on. rewrite N.eqb_eq. split.
  - intros <- d. reflexivity.
  - intro H. apply bits_eq. intro d. specialize (H d). destruct (N.testbit mask (N.of_nat d)), (N.testbit (c_active c) (N.of_nat d)); intuition.
Qed.

Lemma active_any c : IsActive c = true <-> exists d, on c d.
Proof.
  unfold IsActive, on. rewrite negb_true_iff, N.eqb_neq. split.
  - intro H. exists (N.to_nat (N.log2 (c_active c))). rewrite N2Nat.id. apply N.bit_log2. exact H.
  - intros [d E] Z0. rewrite Z0, N.bits_0 in E. discriminate.
Qed.

Lemma on_one c i : i < 4 -> IsActiveOnDomains c (ControlDomain2DomainMask i) = true <-> on c i.
Proof.
  intro H. rewrite on_domains. unfold names. split.
  - intro F. apply F. rewrite mask_bit, Nat.eqb_refl by exact H. reflexivity.
  - intros F d E. rewrite mask_bit in E by exact H. apply Nat.eqb_eq in E. subst. exact F.
Qed.

Lemma mask_str mask d : In d (ControlDomainMask2Str mask) <-> d < 4 /\ names mask d.
Proof.
  unfold ControlDomainMask2Str, names.
  change MASK_LAT with (ControlDomain2DomainMask 1). change MASK_LONG with (ControlDomain2DomainMask 0).
  change MASK_LIGHT with (ControlDomain2DomainMask 2). change MASK_ANIM with (ControlDomain2DomainMask 3).
  rewrite !land_mask_zero by lia. rewrite !in_app_iff.
  assert (B : forall i, In d (if negb (N.testbit mask (N.of_nat i)) then [] else [i]) <-> d = i /\ N.testbit mask (N.of_nat d) = true).
  { intro i. destruct (N.testbit mask (N.of_nat i)) eqn:E; cbn.
    - split; [intros [<-|[]]; auto|intros [-> _]; auto].
    - split; [intros []|intros [-> F]; congruence]. }
  unfold DOMAIN_LAT, DOMAIN_LONG, DOMAIN_LIGHT, DOMAIN_ANIM. rewrite (B 1), (B 0), (B 2), (B 3). split.
  - intros [H|[H|[H|H]]]; destruct H as [-> H]; (split; [lia|exact H]).
  - intros [H1 H2]. assert (E : d = 0 \/ d = 1 \/ d = 2 \/ d = 3) by lia. destruct E as [E|[E|[E|E]]]; subst; auto.
Qed.

(** ** Activation of a controller *)

Lemma activate_domain_bit mode c i d :
  i < 4 -> N.testbit (c_active (activate_domain mode c i)) (N.of_nat d) =
  if i =? d then match mode_at mode i with OFF => false | ON => N.testbit (c_active c) (N.of_nat d) || N.testbit (c_operating c) (N.of_nat d) | UNDEFINED => N.testbit (c_active c) (N.of_nat d) end
  else N.testbit (c_active c) (N.of_nat d).
Proof.
  intro H. unfold activate_domain. destruct (mode_at mode i).
  - destruct (i =? d); reflexivity.
  - cbn. rewrite N.ldiff_spec, mask_bit by exact H. destruct (i =? d); cbn; [apply andb_false_r|apply andb_true_r].
  - rewrite land_mask_zero by exact H. destruct (N.testbit (c_operating c) (N.of_nat i)) eqn:E; cbn.
    + rewrite N.lor_spec, mask_bit by exact H. destruct (Nat.eqb_spec i d) as [->|]; [rewrite E; reflexivity|apply orb_false_r].
    + destruct (Nat.eqb_spec i d) as [->|]; [rewrite E, orb_false_r; reflexivity|reflexivity].
Qed.

Lemma activate_domain_keeps mode c i :
  same_ctrl (activate_domain mode c i) c /\ c_object (activate_domain mode c i) = c_object c /\ c_deleted (activate_domain mode c i) = c_deleted c /\
  c_aligned (activate_domain mode c i) = c_aligned c.
Proof. unfold activate_domain, same_ctrl. destruct (mode_at mode i); [|cbn|destruct (_ =? _)%N]; repeat split; reflexivity. Qed.

Lemma align_keeps c :
  same_ctrl (AlignToRoadHeading c) c /\ c_object (AlignToRoadHeading c) = c_object c /\ c_deleted (AlignToRoadHeading c) = c_deleted c /\
  c_active (AlignToRoadHeading c) = c_active c.
Proof. unfold AlignToRoadHeading, same_ctrl. destruct (c_object c) eqn:E; cbn; rewrite ?E; repeat split; reflexivity. Qed.

Lemma same_refl c : same_ctrl c c.
Proof. repeat split. Qed.

Lemma same_trans a b c : same_ctrl a b -> same_ctrl b c -> same_ctrl a c.
Proof. unfold same_ctrl. intuition congruence. Qed.

(** The controller as it enters the loop. *)
Definition pre_align (c : ctrl) (mode : list act) : ctrl :=
  let c := match mode_at mode DOMAIN_LAT with OFF => if c_align_off c && IsActiveOnDomains c MASK_LAT then AlignToRoadHeading c else c | _ => c end in
  match mode_at mode DOMAIN_LAT with ON => if c_align_on c then AlignToRoadHeading c else c | _ => c end.

Lemma pre_align_keeps c mode :
  same_ctrl (pre_align c mode) c /\ c_object (pre_align c mode) = c_object c /\ c_deleted (pre_align c mode) = c_deleted c /\ c_active (pre_align c mode) = c_active c.
Proof.
  unfold pre_align. destruct (mode_at mode DOMAIN_LAT); cbv zeta.
  - auto using same_refl.
  - destruct (_ && _); [apply align_keeps|auto using same_refl].
  - destruct (c_align_on c); [apply align_keeps|auto using same_refl].
Qed.

Lemma activate_base_eq c mode : Activate_base c mode = fold_left (activate_domain mode) domains (pre_align c mode).
Proof. reflexivity. Qed.

Lemma activate_keeps c mode :
  same_ctrl (Activate_base c mode) c /\ c_object (Activate_base c mode) = c_object c /\ c_deleted (Activate_base c mode) = c_deleted c.
Proof.
  rewrite activate_base_eq. destruct (pre_align_keeps c mode) as [A [B [C _]]]. cbn [domains fold_left].
  set (p := pre_align c mode) in *. clearbody p.
  destruct (activate_domain_keeps mode p 0) as [A0 [B0 [C0 _]]]. set (p0 := activate_domain mode p 0) in *. clearbody p0.
  destruct (activate_domain_keeps mode p0 1) as [A1 [B1 [C1 _]]]. set (p1 := activate_domain mode p0 1) in *. clearbody p1.
  destruct (activate_domain_keeps mode p1 2) as [A2 [B2 [C2 _]]]. set (p2 := activate_domain mode p1 2) in *. clearbody p2.
  destruct (activate_domain_keeps mode p2 3) as [A3 [B3 [C3 _]]].
  split; [|split; congruence]. eauto using same_trans.
Qed.

Lemma activate_bit c mode d :
  N.testbit (c_active (Activate_base c mode)) (N.of_nat d) =
  if d <? 4 then
    match nth d mode UNDEFINED with
    | OFF => false
    | ON => N.testbit (c_active c) (N.of_nat d) || N.testbit (c_operating c) (N.of_nat d)
    | UNDEFINED => N.testbit (c_active c) (N.of_nat d)
    end
  else N.testbit (c_active c) (N.of_nat d).
Proof.
  rewrite activate_base_eq. destruct (pre_align_keeps c mode) as [A [_ [_ D]]]. cbn [domains fold_left].
  assert (O : c_operating (pre_align c mode) = c_operating c) by apply A. set (p := pre_align c mode) in *. clearbody p.
  rewrite !activate_domain_bit by lia.
  assert (K : forall x i, c_operating (activate_domain mode x i) = c_operating x) by (intros x i; apply activate_domain_keeps).
  rewrite !K, D, O. unfold mode_at.
  destruct d as [|[|[|[|d]]]]; try reflexivity.
Qed.

(** The count of the calls of SetHeading. *)
Lemma activate_aligned c mode :
  c_aligned (Activate_base c mode) = c_aligned c +
  match c_object c, nth 1 mode UNDEFINED with
  | Some _, OFF => if c_align_off c && N.testbit (c_active c) 1 then 1 else 0
  | Some _, ON => if c_align_on c then 1 else 0
  | _, _ => 0
  end.
Proof.
  rewrite activate_base_eq.
  assert (K : forall x i, c_aligned (activate_domain mode x i) = c_aligned x) by (intros x i; apply activate_domain_keeps).
  cbn [domains fold_left]. rewrite !K. unfold pre_align, mode_at, DOMAIN_LAT.
  assert (L : IsActiveOnDomains c MASK_LAT = N.testbit (c_active c) 1).
  { apply eq_true_iff_eq. exact (on_one c 1 ltac:(lia)). }
  destruct (nth 1 mode UNDEFINED).
  - destruct (c_object c); lia.
  - rewrite L. destruct (c_align_off c), (N.testbit (c_active c) 1); cbn; unfold AlignToRoadHeading; destruct (c_object c); cbn; lia.
  - destruct (c_align_on c); unfold AlignToRoadHeading; destruct (c_object c); cbn; lia.
Qed.

Lemma activate_none c mode : Activate c mode = None <-> needs_object (c_type c) = true /\ c_object c = None.
Proof. unfold Activate. destruct (needs_object (c_type c)), (c_object c); cbn; intuition congruence. Qed.

Lemma activate_some c mode c' : Activate c mode = Some c' -> c' = Activate_base c mode.
Proof. unfold Activate. destruct (_ && _); congruence. Qed.

Lemma deactivate_domains_bit c mask d :
  N.testbit (c_active (DeactivateDomains c mask)) (N.of_nat d) = N.testbit (c_active c) (N.of_nat d) && negb (N.testbit mask (N.of_nat d)).
Proof.
  unfold DeactivateDomains. cbn. rewrite N.ldiff_spec. destruct (_ && _ && _); [|reflexivity].
  destruct (align_keeps c) as [_ [_ [_ ->]]]. reflexivity.
Qed.

Lemma deactivate_domains_keeps c mask :
  same_ctrl (DeactivateDomains c mask) c /\ c_object (DeactivateDomains c mask) = c_object c /\ c_deleted (DeactivateDomains c mask) = c_deleted c.
Proof.
  unfold DeactivateDomains. destruct (align_keeps c) as [A [B [C _]]]. destruct (_ && _ && _); cbn.
  - unfold same_ctrl in *. cbn. auto.
  - repeat split.
Qed.

Lemma deactivate_domains_aligned c mask :
  c_aligned (DeactivateDomains c mask) = c_aligned c +
  match c_object c with Some _ => if c_align_off c && N.testbit (c_active c) 1 && N.testbit mask 1 then 1 else 0 | None => 0 end.
Proof.
  unfold DeactivateDomains.
  assert (L : IsActiveOnDomains c MASK_LAT = N.testbit (c_active c) 1).
  { apply eq_true_iff_eq. exact (on_one c 1 ltac:(lia)). }
  rewrite L. change MASK_LAT with (ControlDomain2DomainMask 1). rewrite land_mask_zero by lia. rewrite negb_involutive. change (N.of_nat 1) with 1%N.
  destruct (c_align_off c), (N.testbit (c_active c) 1), (N.testbit mask 1); cbn; try (destruct (c_object c); lia).
  unfold AlignToRoadHeading. destruct (c_object c); cbn; lia.
Qed.

Lemma deactivate_none c : Deactivate c = None <-> c_type c = TYPE_FOLLOW_ROUTE /\ c_object c = None.
Proof.
  unfold Deactivate. destruct (Z.eqb_spec (c_type c) TYPE_FOLLOW_ROUTE), (c_object c); cbn; intuition congruence.
Qed.

Lemma deactivate_some c c' : Deactivate c = Some c' -> c' = DeactivateDomains c MASK_ALL.
Proof. unfold Deactivate. destruct (_ && _); congruence. Qed.

Lemma all_bit d : N.testbit MASK_ALL (N.of_nat d) = (d <? 4).
Proof.
  destruct d as [|[|[|[|d]]]]; try reflexivity. replace (S (S (S (S d))) <? 4) with false by (symmetry; apply Nat.ltb_ge; lia).
  apply N.bits_above_log2. change (N.log2 MASK_ALL) with 3%N. lia.
Qed.

(** ** The world *)

Lemma get_set w k c x : ctrls (set_ctrl w k c) x = if (x =? k)%N then c else ctrls w x.
Proof. reflexivity. Qed.
Lemma get_set_same w k c : ctrls (set_ctrl w k c) k = c.
Proof. cbn. rewrite N.eqb_refl. reflexivity. Qed.
Lemma get_set_other w k c x : x <> k -> ctrls (set_ctrl w k c) x = ctrls w x.
Proof. intro H. cbn. apply N.eqb_neq in H. rewrite H. reflexivity. Qed.
Lemma obj_set_same w o l : objs (set_obj w o l) o = l.
Proof. cbn. rewrite N.eqb_refl. reflexivity. Qed.
Lemma obj_set_other w o l x : x <> o -> objs (set_obj w o l) x = objs w x.
Proof. intro H. cbn. apply N.eqb_neq in H. rewrite H. reflexivity. Qed.

Lemma in_without k l x : In x (without k l) <-> In x l /\ x <> k.
Proof. unfold without. rewrite filter_In, negb_true_iff, N.eqb_neq. reflexivity. Qed.

Lemma without_nodup k l : NoDup l -> NoDup (without k l).
Proof. apply NoDup_filter. Qed.

Lemma without_length k l : length (without k l) <= length l.
Proof. unfold without. induction l as [|a l IH]; cbn; [lia|]. destruct (negb _); cbn; lia. Qed.

Lemma without_length_in k l : In k l -> length (without k l) < length l.
Proof.
  induction l as [|a l IH]; [intros []|]. intros [E|H]; cbn.
  - subst. rewrite N.eqb_refl. cbn. pose proof (without_length k l). unfold without in *. lia.
  - specialize (IH H). unfold without in *. destruct (negb _); cbn; lia.
Qed.

Lemma without_notin k l : ~ In k l -> without k l = l.
Proof.
  induction l as [|a l IH]; [reflexivity|]. intro H. cbn. destruct (N.eqb_spec a k) as [->|]; cbn.
  - exfalso. apply H. left. reflexivity.
  - f_equal. apply IH. intro F. apply H. right. exact F.
Qed.

Lemma nodup_snoc (l : list N) k : NoDup l -> ~ In k l -> NoDup (l ++ [k]).
Proof.
  induction l as [|a l IH]; cbn; intros H F; [constructor; [intros []|constructor]|].
  inversion H; subst. constructor.
  - rewrite in_app_iff. cbn. intuition.
  - apply IH; intuition.
Qed.

Lemma assign_obj w o k :
  objs (AssignController w o k) o = without k (objs w o) ++ [k] /\ (forall x, x <> o -> objs (AssignController w o k) x = objs w x) /\
  ctrls (AssignController w o k) = ctrls w.
Proof. unfold AssignController. rewrite obj_set_same. split; [reflexivity|]. split; [intros x H; apply obj_set_other; exact H|reflexivity]. Qed.

Lemma call_some w k f w' : call w k f = Some w' -> exists c, f (ctrls w k) = Some c /\ w' = set_ctrl w k c /\ c_deleted (ctrls w k) = false.
Proof.
  unfold call. destruct (c_deleted (ctrls w k)); [discriminate|]. destruct (f (ctrls w k)) as [c|]; [|discriminate]. intro H. exists c. split; [reflexivity|].
  split; [congruence|reflexivity].
Qed.

Lemma call_none w k f : call w k f = None <-> c_deleted (ctrls w k) = true \/ f (ctrls w k) = None.
Proof. unfold call. destruct (c_deleted (ctrls w k)), (f (ctrls w k)); intuition congruence. Qed.

Lemma existsb_in k l : existsb (N.eqb k) l = true <-> In k l.
Proof.
  rewrite existsb_exists. split.
  - intros [x [H E]]. apply N.eqb_eq in E. subst. exact H.
  - intro H. exists k. split; [exact H|apply N.eqb_refl].
Qed.

(** ** Queries *)

Lemma find_first (f : N -> bool) (P : N -> Prop) l k : (forall x, f x = true <-> P x) -> find f l = Some k <-> is_first P l k.
Proof.
  intro H. unfold is_first. induction l as [|a l IH]; cbn.
  - split; [discriminate|]. intros [l1 [l2 [E _]]]. destruct l1; discriminate.
  - destruct (f a) eqn:E.
    + split.
      * intro F. injection F as <-. exists [], l. split; [reflexivity|]. split; [apply H; exact E|constructor].
      * intros [l1 [l2 [F [G1 G2]]]]. destruct l1 as [|b l1]; cbn in F; [congruence|]. injection F as -> _. inversion G2; subst. exfalso. apply H in E. contradiction.
    + rewrite IH. split.
      * intros [l1 [l2 [F [G1 G2]]]]. exists (a :: l1), l2. split; [cbn; congruence|]. split; [exact G1|]. constructor; [|exact G2].
        intro P1. apply H in P1. congruence.
      * intros [l1 [l2 [F [G1 G2]]]]. destruct l1 as [|b l1]; cbn in F.
        { injection F as -> _. apply H in G1. congruence. }
        injection F as -> F. inversion G2; subst. exists l1, l2. auto.
Qed.

Lemma find_nothing (f : N -> bool) (P : N -> Prop) l : (forall x, f x = true <-> P x) -> find f l = None <-> (forall k, In k l -> ~ P k).
Proof.
  intro H. split.
  - intros E k I F. apply H in F. pose proof (find_none _ _ E k I). congruence.
  - intro F. destruct (find f l) as [k|] eqn:E; [|reflexivity]. apply find_some in E. destruct E as [I E]. exfalso. apply (F k I). apply H. exact E.
Qed.

Lemma existsb_ex (f : N -> bool) (P : N -> Prop) l : (forall x, f x = true <-> P x) -> existsb f l = true <-> (exists k, In k l /\ P k).
Proof.
  intro H. rewrite existsb_exists. split; intros [k [I E]]; exists k; split; auto; apply H; exact E.
Qed.

Lemma type_ok_true type c : type_ok type c = true.
Proof. unfold type_ok. rewrite Z.eqb_refl. apply orb_true_r. Qed.

Lemma opmode_eqb_eq a b : opmode_eqb a b = true <-> a = b.
Proof. destruct a, b; cbn; intuition congruence. Qed.

Lemma active_on_domains w o mask type :
  IsControllerActiveOnDomains w o mask type = true <-> (exists k, In k (objs w o) /\ forall d, names mask d -> on (ctrls w k) d).
Proof. apply existsb_ex. intro k. rewrite type_ok_true, andb_true_r. apply on_domains. Qed.

Lemma active_on_any w o mask type :
  IsControllerActiveOnAnyOfDomains w o mask type = true <-> (exists k, In k (objs w o) /\ exists d, names mask d /\ on (ctrls w k) d).
Proof. apply existsb_ex. intro k. rewrite type_ok_true, andb_true_r. apply on_any. Qed.

Lemma mode_on (f : N -> bool) (P : N -> Prop) w l mode type :
  (forall x, f x = true <-> P x) ->
  match find f l with Some k => opmode_eqb (c_mode (ctrls w k)) mode && type_ok type (ctrls w k) | None => false end = true <->
  (exists k, is_first P l k /\ c_mode (ctrls w k) = mode).
Proof.
  intro H. destruct (find f l) as [k|] eqn:E.
  - rewrite type_ok_true, andb_true_r, opmode_eqb_eq. pose proof (proj1 (find_first f P l k H) E) as F. split.
    + intro G. exists k. auto.
    + intros [k' [F' G]]. pose proof (proj2 (find_first f P l k' H) F'). congruence.
  - split; [discriminate|]. intros [k [F _]]. pose proof (proj2 (find_first f P l k H) F). congruence.
Qed.

Lemma get_active w o mask k :
  GetControllerActiveOnDomainMask w o mask = Some k <-> is_first (fun x => forall d, names mask d -> on (ctrls w x) d) (objs w o) k.
Proof. apply find_first. intro x. apply on_domains. Qed.

Lemma get_active_one w o i k : i < 4 ->
  GetControllerActiveOnDomainMask w o (ControlDomain2DomainMask i) = Some k <-> is_first (fun x => on (ctrls w x) i) (objs w o) k.
Proof. intro H. apply find_first. intro x. apply on_one. exact H. Qed.

Lemma get_active_none w o i : i < 4 ->
  GetControllerActiveOnDomainMask w o (ControlDomain2DomainMask i) = None <-> (forall k, In k (objs w o) -> ~ on (ctrls w k) i).
Proof. intro H. apply find_nothing. intro x. apply on_one. exact H. Qed.

Lemma first_in (P : N -> Prop) l k : is_first P l k -> In k l /\ P k.
Proof. intros [l1 [l2 [-> [H _]]]]. split; [apply in_or_app; right; left; reflexivity|exact H]. Qed.

(** ** Removal of controllers *)

Lemma unassign_spec w o k w' :
  UnassignController w o k = Some w' ->
  objs w' o = without k (objs w o) /\ (forall x, x <> o -> objs w' x = objs w x) /\ (forall x, x <> k -> ctrls w' x = ctrls w x) /\
  (In k (objs w o) -> c_object (ctrls w' k) = None /\ (forall d, d < 4 -> ~ on (ctrls w' k) d)) /\ (~ In k (objs w o) -> ctrls w' k = ctrls w k) /\
  same_ctrl (ctrls w' k) (ctrls w k) /\ c_deleted (ctrls w' k) = c_deleted (ctrls w k).
Proof.
  unfold UnassignController. destruct (existsb (N.eqb k) (objs w o)) eqn:E.
  - apply existsb_in in E. destruct (call w k _) as [w1|] eqn:C; [|discriminate]. apply call_some in C. destruct C as [c [D [-> Dl]]].
    apply deactivate_some in D. subst c. intro H. injection H as <-. rewrite obj_set_same. split; [reflexivity|].
    split; [intros x H; rewrite obj_set_other by exact H; reflexivity|].
    split; [intros x H; change (ctrls (set_ctrl w k (DeactivateDomains (LinkObject (ctrls w k) None) MASK_ALL)) x = ctrls w x); apply get_set_other; exact H|].
    change (ctrls (set_obj ?a ?b ?c)) with (ctrls a). rewrite get_set_same.
    destruct (deactivate_domains_keeps (LinkObject (ctrls w k) None) MASK_ALL) as [A [B C]].
    split; [intros _; split|].
    + rewrite B. reflexivity.
    + intros d Hd F. unfold on in F. rewrite deactivate_domains_bit, all_bit in F. apply Nat.ltb_lt in Hd. rewrite Hd, andb_false_r in F. discriminate.
    + split; [contradiction|]. split; [|rewrite C; reflexivity]. eapply same_trans; [exact A|]. repeat split.
  - intro H. injection H as <-. rewrite obj_set_same. split; [reflexivity|]. split; [intros x H; apply obj_set_other; exact H|].
    split; [reflexivity|]. split; [intro F; apply existsb_in in F; congruence|]. split; [reflexivity|]. split; [apply same_refl|reflexivity].
Qed.

Lemma unassign_none w o k :
  UnassignController w o k = None <-> In k (objs w o) /\ (c_deleted (ctrls w k) = true \/ c_type (ctrls w k) = TYPE_FOLLOW_ROUTE).
Proof.
  unfold UnassignController. destruct (existsb (N.eqb k) (objs w o)) eqn:E.
  - apply existsb_in in E. destruct (call w k _) as [w1|] eqn:C.
    + apply call_some in C. destruct C as [c [D [_ Dl]]]. split; [discriminate|]. intros [_ [F|F]]; [congruence|].
      assert (G : Deactivate (LinkObject (ctrls w k) None) = None) by (apply deactivate_none; split; [exact F|reflexivity]). congruence.
    + split; [intros _|reflexivity]. split; [exact E|]. apply call_none in C. destruct C as [C|C]; [left; exact C|]. right. apply deactivate_none in C. apply C.
  - split; [discriminate|]. intros [F _]. apply existsb_in in F. congruence.
Qed.

Lemma deactivate_all_spec l : forall w w',
  deactivate_all w l = Some w' ->
  objs w' = objs w /\ (forall k, ~ In k l -> ctrls w' k = ctrls w k) /\ (forall k, In k l -> forall d, d < 4 -> ~ on (ctrls w' k) d) /\
  (forall k, same_ctrl (ctrls w' k) (ctrls w k) /\ c_object (ctrls w' k) = c_object (ctrls w k) /\ c_deleted (ctrls w' k) = c_deleted (ctrls w k)) /\
  (forall k d, on (ctrls w' k) d -> on (ctrls w k) d).
Proof.
  induction l as [|a l IH]; intros w w'; cbn [deactivate_all].
  - intro H. injection H as <-. split; [reflexivity|]. split; [reflexivity|]. split; [intros k []|]. split; [auto using same_refl|auto].
  - destruct (call w a Deactivate) as [w1|] eqn:C; [|discriminate]. apply call_some in C. destruct C as [c [D [-> Dl]]]. apply deactivate_some in D. subst c.
    intro H. destruct (IH _ _ H) as [A [B [C [K M]]]].
    assert (Off : forall d, d < 4 -> ~ on (DeactivateDomains (ctrls w a) MASK_ALL) d).
    { intros d Hd F. unfold on in F. rewrite deactivate_domains_bit, all_bit in F. apply Nat.ltb_lt in Hd. rewrite Hd, andb_false_r in F. discriminate. }
    split; [exact A|]. split; [|split; [|split]].
    + intros k Hk. rewrite B by (intro F; apply Hk; right; exact F). apply get_set_other. intro F. subst. apply Hk. left. reflexivity.
    + intros k [E|Hk]; [|apply C; exact Hk]. subst k. intros d Hd F. apply M in F. rewrite get_set_same in F. exact (Off d Hd F).
    + intro k. destruct (K k) as [K1 [K2 K3]]. destruct (N.eq_dec k a) as [->|Hne].
      * rewrite get_set_same in K1, K2, K3. destruct (deactivate_domains_keeps (ctrls w a) MASK_ALL) as [D1 [D2 D3]]. split; [eapply same_trans; eassumption|].
        split; congruence.
      * rewrite get_set_other in K1, K2, K3 by exact Hne. auto.
    + intros k d F. apply M in F. destruct (N.eq_dec k a) as [->|Hne].
      * rewrite get_set_same in F. unfold on in F. rewrite deactivate_domains_bit in F. apply andb_true_iff in F. apply F.
      * rewrite get_set_other in F by exact Hne. exact F.
Qed.

Lemma deactivate_all_none l : forall w,
  deactivate_all w l = None <->
  (exists k, In k l /\ (c_deleted (ctrls w k) = true \/ c_type (ctrls w k) = TYPE_FOLLOW_ROUTE /\ c_object (ctrls w k) = None)).
Proof.
  induction l as [|a l IH]; intro w; cbn [deactivate_all].
  - split; [discriminate|]. intros [k [[] _]].
  - destruct (call w a Deactivate) as [w1|] eqn:C.
    + apply call_some in C. destruct C as [c [D [-> Dl]]]. rewrite IH. pose proof (deactivate_some _ _ D). subst c.
      destruct (deactivate_domains_keeps (ctrls w a) MASK_ALL) as [D1 [D2 D3]]. destruct D1 as [_ [D1 _]].
      assert (S0 : forall k, c_deleted (ctrls (set_ctrl w a (DeactivateDomains (ctrls w a) MASK_ALL)) k) = c_deleted (ctrls w k) /\
                             c_type (ctrls (set_ctrl w a (DeactivateDomains (ctrls w a) MASK_ALL)) k) = c_type (ctrls w k) /\
                             c_object (ctrls (set_ctrl w a (DeactivateDomains (ctrls w a) MASK_ALL)) k) = c_object (ctrls w k)).
      { intro k. destruct (N.eq_dec k a) as [->|Hne]; [rewrite get_set_same|rewrite get_set_other by exact Hne]; auto. }
      split.
      * intros [k [I F]]. exists k. destruct (S0 k) as [-> [-> ->]] in F. split; [right; exact I|exact F].
      * intros [k [[E|I] F]].
        { subst k. exfalso. destruct F as [F|F]; [congruence|]. apply deactivate_none in F. congruence. }
        exists k. split; [exact I|]. destruct (S0 k) as [-> [-> ->]]. exact F.
    + split; [intros _|reflexivity]. exists a. split; [left; reflexivity|]. apply call_none in C. rewrite deactivate_none in C. exact C.
Qed.

(** ** The actions *)

Definition chosen (w : world) (o : N) (name : option N) (k : N) : Prop :=
  match name with None => exists l, objs w o = l ++ [k] | Some n => is_first (fun x => c_name (ctrls w x) = n) (objs w o) k end.

Lemma chosen_in w o name k : chosen w o name k -> In k (objs w o).
Proof.
  destruct name; cbn.
  - intro H. apply first_in in H. apply H.
  - intros [l ->]. apply in_or_app. right. left. reflexivity.
Qed.

Lemma pick_spec w o name k : objs w o <> [] ->
  (match name with None => Some (last (objs w o) 0%N) | Some n => GetController w o n end) = Some k <-> chosen w o name k.
Proof.
  intro H. destruct name as [n|]; cbn.
  - apply find_first. intro x. apply N.eqb_eq.
  - split.
    + intro E. injection E as E. exists (removelast (objs w o)). rewrite <- E. apply app_removelast_last. exact H.
    + intros [l ->]. rewrite last_last. reflexivity.
Qed.

(** The loop from version 1.3. *)
Lemma conflict_new_spec o k minor mode l : 3 <= minor -> forall w w',
  Forall (fun i => i < 4) l -> deactivate_conflicting w o k minor mode l = Some w' ->
  objs w' = objs w /\ (forall x, x <> k -> ctrls w' x = ctrls w x) /\
  same_ctrl (ctrls w' k) (ctrls w k) /\ c_object (ctrls w' k) = c_object (ctrls w k) /\ c_deleted (ctrls w' k) = c_deleted (ctrls w k) /\
  (forall d, on (ctrls w' k) d -> on (ctrls w k) d) /\
  (forall d, ~ (In d l /\ nth d mode UNDEFINED = ON) -> on (ctrls w k) d -> on (ctrls w' k) d).
Proof.
  intro Hm. apply Nat.leb_le in Hm. induction l as [|i l IH]; intros w w' HF; cbn [deactivate_conflicting].
  - intro H. injection H as <-. repeat split; auto.
  - inversion HF as [|? ? Hi HF']; subst. unfold mode_at.
    destruct (nth i mode UNDEFINED) eqn:Em.
    1, 2: intro H; destruct (IH _ _ HF' H) as [A [B [C [D [E [F G]]]]]];
          split; [exact A|]; split; [exact B|]; split; [exact C|]; split; [exact D|]; split; [exact E|]; split; [exact F|];
          intros d Hd; apply G; intros [I J]; apply Hd; split; [right; exact I|exact J].
    destruct (GetControllerActiveOnDomainMask w o (ControlDomain2DomainMask i)) as [k'|] eqn:Ek.
    + rewrite Hm. destruct (call w k _) as [w1|] eqn:C; [|discriminate]. apply call_some in C. destruct C as [c [D [-> Dl]]]. injection D as <-.
      intro H. destruct (IH _ _ HF' H) as [A [B [C [D [E [F G]]]]]]. rewrite get_set_same in C, D, E, F, G.
      destruct (deactivate_domains_keeps (ctrls w k) (ControlDomain2DomainMask i)) as [K1 [K2 K3]].
      split; [exact A|]. split; [intros x Hx; rewrite B by exact Hx; apply get_set_other; exact Hx|].
      split; [eapply same_trans; eassumption|]. split; [congruence|]. split; [congruence|]. split.
      * intros d Hd. apply F in Hd. unfold on in Hd. rewrite deactivate_domains_bit in Hd. apply andb_true_iff in Hd. apply Hd.
      * intros d Hd On. apply G; [intros [I J]; apply Hd; split; [right; exact I|exact J]|]. unfold on. rewrite deactivate_domains_bit, On. cbn.
        rewrite mask_bit by exact Hi. destruct (Nat.eqb_spec i d) as [->|]; [|reflexivity]. exfalso. apply Hd. split; [left; reflexivity|exact Em].
    + intro H; destruct (IH _ _ HF' H) as [A [B [C [D [E [F G]]]]]].
      split; [exact A|]; split; [exact B|]; split; [exact C|]; split; [exact D|]; split; [exact E|]; split; [exact F|];
      intros d Hd; apply G; intros [I J]; apply Hd; split; [right; exact I|exact J].
Qed.

(** The loop before version 1.3: the controller that is deactivated. *)
Definition conflicts (w : world) (o : N) (mode : list act) (i : nat) : Prop :=
  requests mode i ON /\ exists k, In k (objs w o) /\ on (ctrls w k) i.
Definition victim (w : world) (o : N) (mode : list act) (v : N) : Prop :=
  exists i, conflicts w o mode i /\ (forall j, j < i -> ~ conflicts w o mode j) /\ is_first (fun x => on (ctrls w x) i) (objs w o) v.

Lemma conflict_old_loop o k minor mode n : minor < 3 -> forall s w r, s + n = 4 ->
  deactivate_conflicting w o k minor mode (seq s n) = r ->
  (exists i v, s <= i < 4 /\ conflicts w o mode i /\ (forall j, s <= j < i -> ~ conflicts w o mode j) /\ is_first (fun x => on (ctrls w x) i) (objs w o) v /\
     r = call w v Deactivate) \/
  ((forall j, s <= j < 4 -> ~ conflicts w o mode j) /\ r = Some w).
Proof.
  intro Hm. assert (Hl : (3 <=? minor) = false) by (apply Nat.leb_gt; exact Hm). induction n as [|n IH]; intros s w r Hs; cbn [seq deactivate_conflicting].
  - intros <-. right. split; [intros j Hj; lia|reflexivity].
  - assert (Cont : ~ conflicts w o mode s -> deactivate_conflicting w o k minor mode (seq (S s) n) = r ->
      (exists i v, s <= i < 4 /\ conflicts w o mode i /\ (forall j, s <= j < i -> ~ conflicts w o mode j) /\ is_first (fun x => on (ctrls w x) i) (objs w o) v /\
         r = call w v Deactivate) \/ ((forall j, s <= j < 4 -> ~ conflicts w o mode j) /\ r = Some w)).
    { intros Nc H. destruct (IH (S s) w r ltac:(lia) H) as [[i [v [Hi [C [Bf [Fi E]]]]]]|[Bf E]].
      - left. exists i, v. split; [lia|]. split; [exact C|]. split; [|auto]. intros j Hj. destruct (Nat.eq_dec j s) as [->|]; [exact Nc|]. apply Bf. lia.
      - right. split; [|exact E]. intros j Hj. destruct (Nat.eq_dec j s) as [->|]; [exact Nc|]. apply Bf. lia. }
    unfold mode_at. destruct (nth s mode UNDEFINED) eqn:Em.
    1, 2: intro H; apply Cont; [intros [[_ Q] _]; congruence|exact H].
    destruct (GetControllerActiveOnDomainMask w o (ControlDomain2DomainMask s)) as [k'|] eqn:Ek.
    + rewrite Hl. intros <-. left. apply get_active_one in Ek; [|lia]. exists s, k'. split; [lia|]. split.
      * split; [split; [lia|exact Em]|]. exists k'. apply first_in in Ek. exact Ek.
      * split; [intros j Hj; lia|]. split; [exact Ek|reflexivity].
    + intro H. apply Cont; [|exact H]. intros [_ [x [I On]]]. pose proof (proj1 (get_active_none w o s ltac:(lia)) Ek x I). contradiction.
Qed.

Lemma conflict_old_spec w o k minor mode r : minor < 3 -> deactivate_conflicting w o k minor mode domains = r ->
  (exists v, victim w o mode v /\ r = call w v Deactivate) \/ ((forall i, ~ conflicts w o mode i) /\ r = Some w).
Proof.
  intros Hm H. change domains with (seq 0 4) in H. destruct (conflict_old_loop o k minor mode 4 Hm 0 w r eq_refl H) as [[i [v [Hi [C [Bf [Fi E]]]]]]|[Bf E]].
  - left. exists v. split; [|exact E]. exists i. split; [exact C|]. split; [intros j Hj; apply Bf; lia|exact Fi].
  - right. split; [|exact E]. intros i [[Hi Q] F]. apply (Bf i ltac:(lia)). split; [split; assumption|exact F].
Qed.

Lemma activate_action_shape w o minor name mode w' b :
  ActivateControllerAction_Start w o minor name mode = Some (w', b) ->
  (b = false /\ w' = w /\ (forall k, ~ chosen w o name k)) \/
  (b = true /\ exists k w1, chosen w o name k /\ deactivate_conflicting w o k minor mode domains = Some w1 /\ call w1 k (fun c => Activate c mode) = Some w').
Proof.
  unfold ActivateControllerAction_Start. destruct (objs w o) as [|a l] eqn:E.
  - intro H. injection H as <- <-. left. split; [reflexivity|]. split; [reflexivity|]. intros k C. apply chosen_in in C. rewrite E in C. destruct C.
  - rewrite <- E. assert (Hne : objs w o <> []) by (rewrite E; discriminate).
    destruct (match name with None => Some (last (objs w o) 0%N) | Some n => GetController w o n end) as [k|] eqn:P.
    + destruct (deactivate_conflicting w o k minor mode domains) as [w1|] eqn:D; [|discriminate]. destruct (call w1 k _) as [w2|] eqn:C; [|discriminate].
      intro H. injection H as <- <-. right. split; [reflexivity|]. exists k, w1. split; [apply pick_spec; assumption|]. auto.
    + intro H. injection H as <- <-. left. split; [reflexivity|]. split; [reflexivity|]. intros k C. apply pick_spec in C; [congruence|exact Hne].
Qed.

Lemma domains_lt : Forall (fun i => i < 4) domains.
Proof. repeat constructor. Qed.

Lemma domains_in d : In d domains <-> d < 4.
Proof. cbn. lia. Qed.

(** From version 1.3: the result of the action. *)
Lemma activate_new w o minor name mode w' k :
  3 <= minor -> within w -> chosen w o name k -> ActivateControllerAction_Start w o minor name mode = Some (w', true) ->
  objs w' = objs w /\ (forall x, x <> k -> ctrls w' x = ctrls w x) /\ same_ctrl (ctrls w' k) (ctrls w k) /\ c_object (ctrls w' k) = c_object (ctrls w k) /\
  (forall d, d < 4 -> on (ctrls w' k) d <->
     match nth d mode UNDEFINED with ON => operates (ctrls w k) d | OFF => False | UNDEFINED => on (ctrls w k) d end).
Proof.
  intros Hm Hw Hc H. apply activate_action_shape in H. destruct H as [[F _]|[_ [k' [w1 [Hc' [D C]]]]]]; [discriminate|].
  assert (k' = k).
  { destruct name; cbn in Hc, Hc'.
    - pose proof (proj2 (find_first (fun x => c_name (ctrls w x) =? n)%N _ _ k' (fun x => N.eqb_eq _ _)) Hc').
      pose proof (proj2 (find_first (fun x => c_name (ctrls w x) =? n)%N _ _ k (fun x => N.eqb_eq _ _)) Hc). congruence.
    - destruct Hc as [l1 E1], Hc' as [l2 E2]. rewrite E1 in E2. apply app_inj_tail in E2. symmetry. apply E2. }
  subst k'. destruct (conflict_new_spec o k minor mode domains Hm w w1 domains_lt D) as [A [B [K1 [K2 [K3 [F G]]]]]].
  apply call_some in C. destruct C as [c [C1 [-> C2]]]. apply activate_some in C1. subst c. rewrite get_set_same.
  destruct (activate_keeps (ctrls w1 k) mode) as [L1 [L2 L3]]. split; [exact A|]. split; [intros x Hx; rewrite get_set_other by exact Hx; apply B; exact Hx|].
  split; [eapply same_trans; eassumption|]. split; [congruence|]. intros d Hd. unfold on at 1. rewrite activate_bit. pose proof (proj2 (Nat.ltb_lt d 4) Hd) as ->.
  assert (Ho : c_operating (ctrls w1 k) = c_operating (ctrls w k)) by apply K1.
  destruct (nth d mode UNDEFINED) eqn:Em.
  - split; [apply F|]. apply G. intros [_ Q]. congruence.
  - split; [discriminate|intros []].
  - rewrite orb_true_iff, Ho. split; [|intro Q; right; exact Q]. intros [Q|Q]; [|exact Q]. apply F in Q. exact (Hw k d Q).
Qed.

(** Before version 1.3: the result of the action. *)
Lemma activate_old w o minor name mode w' k :
  minor < 3 -> within w -> chosen w o name k -> ActivateControllerAction_Start w o minor name mode = Some (w', true) ->
  objs w' = objs w /\
  (forall x, x <> k -> victim w o mode x -> forall d, d < 4 -> ~ on (ctrls w' x) d) /\
  (forall x, x <> k -> ~ victim w o mode x -> ctrls w' x = ctrls w x) /\
  (forall x, same_ctrl (ctrls w' x) (ctrls w x) /\ c_object (ctrls w' x) = c_object (ctrls w x)) /\
  (forall d, d < 4 -> on (ctrls w' k) d <->
     match nth d mode UNDEFINED with ON => operates (ctrls w k) d | OFF => False | UNDEFINED => on (ctrls w k) d /\ ~ victim w o mode k end).
Proof.
  intros Hm Hw Hc H. apply activate_action_shape in H. destruct H as [[F _]|[_ [k' [w1 [Hc' [D C]]]]]]; [discriminate|].
  assert (k' = k).
  { destruct name; cbn in Hc, Hc'.
    - pose proof (proj2 (find_first (fun x => c_name (ctrls w x) =? n)%N _ _ k' (fun x => N.eqb_eq _ _)) Hc').
      pose proof (proj2 (find_first (fun x => c_name (ctrls w x) =? n)%N _ _ k (fun x => N.eqb_eq _ _)) Hc). congruence.
    - destruct Hc as [l1 E1], Hc' as [l2 E2]. rewrite E1 in E2. apply app_inj_tail in E2. symmetry. apply E2. }
  subst k'. apply call_some in C. destruct C as [c [C1 [-> C2]]]. apply activate_some in C1. subst c.
  assert (Vu : forall a b, victim w o mode a -> victim w o mode b -> a = b).
  { intros a b [i [Ci [Bi Fi]]] [j [Cj [Bj Fj]]].
    assert (i = j) by (destruct (Nat.lt_trichotomy i j) as [L|[L|L]]; [exfalso; exact (Bj i L Ci)|exact L|exfalso; exact (Bi j L Cj)]). subst j.
    destruct Ci as [[Hi _] _]. apply (get_active_one w o i _ Hi) in Fi. apply (get_active_one w o i _ Hi) in Fj. congruence. }
  destruct (activate_keeps (ctrls w1 k) mode) as [L1 [L2 L3]].
  destruct (conflict_old_spec w o k minor mode _ Hm D) as [[v [Hv E]]|[Nc E]].
  - symmetry in E. apply call_some in E. destruct E as [c [E1 [-> E2]]]. apply deactivate_some in E1. subst c.
    destruct (deactivate_domains_keeps (ctrls w v) MASK_ALL) as [M1 [M2 M3]].
    assert (Off : forall d, d < 4 -> N.testbit (c_active (DeactivateDomains (ctrls w v) MASK_ALL)) (N.of_nat d) = false).
    { intros d Hd. rewrite deactivate_domains_bit, all_bit. apply Nat.ltb_lt in Hd. rewrite Hd. apply andb_false_r. }
    split; [reflexivity|]. split; [|split; [|split]].
    + intros x Hx Hxv d Hd. rewrite get_set_other by exact Hx. rewrite (Vu x v Hxv Hv), get_set_same. unfold on. rewrite Off by exact Hd. discriminate.
    + intros x Hx Hxv. rewrite get_set_other by exact Hx. apply get_set_other. intro F. subst. contradiction.
    + intro x. destruct (N.eq_dec x k) as [->|Hx].
      * rewrite get_set_same. destruct (N.eq_dec k v) as [->|Hkv].
        { rewrite get_set_same in L1, L2, L3. rewrite get_set_same. split; [eapply same_trans; eassumption|congruence]. }
        rewrite get_set_other in L1, L2 by exact Hkv. rewrite get_set_other by exact Hkv. split; [exact L1|exact L2].
      * rewrite get_set_other by exact Hx. destruct (N.eq_dec x v) as [->|Hxv]; [rewrite get_set_same; split; [exact M1|exact M2]|].
        rewrite get_set_other by exact Hxv. split; [apply same_refl|reflexivity].
    + intros d Hd. rewrite get_set_same. unfold on at 1. rewrite activate_bit. pose proof (proj2 (Nat.ltb_lt d 4) Hd) as ->.
      destruct (N.eq_dec k v) as [Ekv|Hkv].
      * subst v. rewrite get_set_same, Off by exact Hd. assert (Ho : c_operating (DeactivateDomains (ctrls w k) MASK_ALL) = c_operating (ctrls w k)) by apply M1. rewrite Ho.
        destruct (nth d mode UNDEFINED); cbn; [|split; [discriminate|intros []]|reflexivity]. split; [discriminate|]. intros [_ F]. contradiction.
      * rewrite get_set_other by exact Hkv. destruct (nth d mode UNDEFINED).
        { split; [|intros [Q _]; exact Q]. intro Q. split; [exact Q|]. intro F. exact (Hkv (Vu k v F Hv)). }
        { split; [discriminate|intros []]. }
        rewrite orb_true_iff. split; [|intro Q; right; exact Q]. intros [Q|Q]; [exact (Hw k d Q)|exact Q].
  - injection E as ->. assert (Nv : forall x, ~ victim w o mode x) by (intros x [i [Ci _]]; exact (Nc i Ci)).
    split; [reflexivity|]. split; [intros x _ F; destruct (Nv x F)|]. split; [intros x Hx _; apply get_set_other; exact Hx|]. split.
    + intro x. destruct (N.eq_dec x k) as [->|Hx]; [rewrite get_set_same; split; assumption|]. rewrite get_set_other by exact Hx. split; [apply same_refl|reflexivity].
    + intros d Hd. rewrite get_set_same. unfold on at 1. rewrite activate_bit. pose proof (proj2 (Nat.ltb_lt d 4) Hd) as ->.
      destruct (nth d mode UNDEFINED).
      { split; [intro Q; split; [exact Q|apply Nv]|intros [Q _]; exact Q]. }
      { split; [discriminate|intros []]. }
      rewrite orb_true_iff. split; [|intro Q; right; exact Q]. intros [Q|Q]; [exact (Hw k d Q)|exact Q].
Qed.

(** When the action fails. *)
Lemma conflict_new_none o k minor mode l : 3 <= minor -> forall w, deactivate_conflicting w o k minor mode l = None -> c_deleted (ctrls w k) = true.
Proof.
  intro Hm. apply Nat.leb_le in Hm. induction l as [|i l IH]; intro w; cbn [deactivate_conflicting]; [discriminate|].
  destruct (mode_at mode i); try apply IH. destruct (GetControllerActiveOnDomainMask _ _ _); [|apply IH]. rewrite Hm.
  destruct (call w k _) as [w1|] eqn:C.
  - intro H. apply IH in H. apply call_some in C. destruct C as [c [C1 [-> C2]]]. injection C1 as <-. rewrite get_set_same in H.
    rewrite (proj2 (proj2 (deactivate_domains_keeps _ _))) in H. exact H.
  - intros _. apply call_none in C. destruct C as [C|C]; [exact C|discriminate].
Qed.

(** ** Exclusiveness *)

Lemma exclusive_new w o minor name mode w' k :
  3 <= minor -> within w -> exclusive w o -> chosen w o name k -> ActivateControllerAction_Start w o minor name mode = Some (w', true) ->
  (exclusive w' o <-> (forall x d, In x (objs w o) -> x <> k -> requests mode d ON -> operates (ctrls w k) d -> ~ on (ctrls w x) d)).
Proof.
  intros Hm Hw He Hc H. destruct (activate_new w o minor name mode w' k Hm Hw Hc H) as [A [B [_ [_ E]]]]. pose proof (chosen_in _ _ _ _ Hc) as Ik. split.
  - intros Ex x d Ix Hx [Hd Q] Op On. apply Hx. apply (Ex x k d); rewrite ?A; auto.
    + rewrite B by exact Hx. exact On.
    + apply E; [exact Hd|]. rewrite Q. exact Op.
  - intro F. assert (Key : forall x d, In x (objs w o) -> x <> k -> d < 4 -> on (ctrls w x) d -> on (ctrls w' k) d -> False).
    { intros x d Ix Hx Hd On Onk. apply E in Onk; [|exact Hd]. destruct (nth d mode UNDEFINED) eqn:Em; [|exact Onk|].
      - apply Hx. exact (He x k d Ix Ik Hd On Onk).
      - exact (F x d Ix Hx (conj Hd Em) Onk On). }
    intros x y d Ix Iy Hd Ox Oy. rewrite A in Ix, Iy. destruct (N.eq_dec x k) as [->|Hx], (N.eq_dec y k) as [->|Hy].
    + reflexivity.
    + exfalso. rewrite B in Oy by exact Hy. eauto.
    + exfalso. rewrite B in Ox by exact Hx. eauto.
    + rewrite B in Ox by exact Hx. rewrite B in Oy by exact Hy. exact (He x y d Ix Iy Hd Ox Oy).
Qed.

Lemma victim_dec w o mode x : victim w o mode x \/ ~ victim w o mode x.
Proof.
  destruct (conflict_old_spec w o 0%N 0 mode _ ltac:(lia) eq_refl) as [[v [Hv _]]|[Nc _]].
  - destruct (N.eq_dec x v) as [->|Hne]; [left; exact Hv|right]. intro F. apply Hne.
    destruct F as [i [Ci [Bi Fi]]], Hv as [j [Cj [Bj Fj]]].
    assert (i = j) by (destruct (Nat.lt_trichotomy i j) as [L|[L|L]]; [exfalso; exact (Bj i L Ci)|exact L|exfalso; exact (Bi j L Cj)]). subst j.
    destruct Ci as [[Hi _] _]. apply (get_active_one w o i _ Hi) in Fi. apply (get_active_one w o i _ Hi) in Fj. congruence.
  - right. intros [i [Ci _]]. exact (Nc i Ci).
Qed.

Lemma exclusive_old w o minor name mode w' k :
  minor < 3 -> within w -> exclusive w o -> chosen w o name k -> ActivateControllerAction_Start w o minor name mode = Some (w', true) ->
  (exclusive w' o <-> (forall x d, In x (objs w o) -> x <> k -> ~ victim w o mode x -> requests mode d ON -> operates (ctrls w k) d -> ~ on (ctrls w x) d)).
Proof.
  intros Hm Hw He Hc H. destruct (activate_old w o minor name mode w' k Hm Hw Hc H) as [A [Bv [B [_ E]]]]. pose proof (chosen_in _ _ _ _ Hc) as Ik. split.
  - intros Ex x d Ix Hx Nv [Hd Q] Op On. apply Hx. apply (Ex x k d); rewrite ?A; auto.
    + rewrite B by assumption. exact On.
    + apply E; [exact Hd|]. rewrite Q. exact Op.
  - intro F. assert (Keep : forall x d, x <> k -> d < 4 -> on (ctrls w' x) d -> on (ctrls w x) d /\ ~ victim w o mode x).
    { intros x d Hx Hd Ox. destruct (victim_dec w o mode x) as [V|V]; [exfalso; exact (Bv x Hx V d Hd Ox)|]. rewrite B in Ox by assumption. auto. }
    assert (Key : forall x d, In x (objs w o) -> x <> k -> d < 4 -> on (ctrls w' x) d -> on (ctrls w' k) d -> False).
    { intros x d Ix Hx Hd Ox Onk. destruct (Keep x d Hx Hd Ox) as [Ow V]. apply E in Onk; [|exact Hd]. destruct (nth d mode UNDEFINED) eqn:Em; [|exact Onk|].
      - apply Hx. exact (He x k d Ix Ik Hd Ow (proj1 Onk)).
      - exact (F x d Ix Hx V (conj Hd Em) Onk Ow). }
    intros x y d Ix Iy Hd Ox Oy. rewrite A in Ix, Iy. destruct (N.eq_dec x k) as [->|Hx], (N.eq_dec y k) as [->|Hy].
    + reflexivity.
    + exfalso. eauto.
    + exfalso. eauto.
    + exact (He x y d Ix Iy Hd (proj1 (Keep x d Hx Hd Ox)) (proj1 (Keep y d Hy Hd Oy))).
Qed.

(** ** Assignment with activation *)

Lemma assign_action_spec w o k lat long light anim w' :
  AssignControllerAction_Start w (Some o) (Some k) lat long light anim = Some w' ->
  objs w' = objs (AssignController w o k) /\ (forall x, x <> k -> ctrls w' x = ctrls w x) /\
  same_ctrl (ctrls w' k) (ctrls w k) /\ c_object (ctrls w' k) = c_object (ctrls w k) /\
  (IsActive (ctrls w k) = true -> ctrls w' k = ctrls w k) /\
  (IsActive (ctrls w k) = false -> forall d, d < 4 -> on (ctrls w' k) d <-> nth d [lat; long; light; anim] UNDEFINED = ON /\ operates (ctrls w k) d).
Proof.
  unfold AssignControllerAction_Start. set (w1 := AssignController w o k). change (ctrls w1) with (ctrls w).
  destruct (IsActive (ctrls w k)) eqn:Ia; cbn [negb].
  - intro H. injection H as <-. split; [reflexivity|]. split; [reflexivity|]. split; [apply same_refl|]. split; [reflexivity|]. split; [reflexivity|discriminate].
  - assert (Z0 : forall d, N.testbit (c_active (ctrls w k)) (N.of_nat d) = false).
    { intro d. destruct (N.testbit (c_active (ctrls w k)) (N.of_nat d)) eqn:E; [|reflexivity]. assert (F : IsActive (ctrls w k) = true) by (apply active_any; exists d; exact E). congruence. }
    intro H. assert (Cases : (lat = UNDEFINED /\ long = UNDEFINED /\ light = UNDEFINED /\ anim = UNDEFINED /\ w' = w1) \/ call w1 k (fun c => Activate c [lat; long; light; anim]) = Some w').
    { destruct lat, long, light, anim; auto. injection H as <-. left. auto. }
    clear H. destruct Cases as [[-> [-> [-> [-> ->]]]]|C].
    + split; [reflexivity|]. split; [reflexivity|]. split; [apply same_refl|]. split; [reflexivity|]. split; [reflexivity|]. intros _ d Hd.
      change (ctrls w1) with (ctrls w). unfold on. rewrite Z0. split; [discriminate|]. intros [F _]. do 4 (destruct d as [|d]; [discriminate|]). lia.
    + apply call_some in C. destruct C as [c [C1 [-> C2]]]. apply activate_some in C1. subst c. destruct (activate_keeps (ctrls w k) [lat; long; light; anim]) as [L1 [L2 L3]].
      change (ctrls w1) with (ctrls w) in *. split; [reflexivity|]. split; [intros x Hx; rewrite get_set_other by exact Hx; reflexivity|]. rewrite get_set_same.
      split; [exact L1|]. split; [exact L2|]. split; [discriminate|]. intros _ d Hd. unfold on, operates. rewrite activate_bit. pose proof (proj2 (Nat.ltb_lt d 4) Hd) as ->.
      rewrite Z0. destruct (nth d [lat; long; light; anim] UNDEFINED); cbn; intuition congruence.
Qed.

(** ** Deletion of an object *)

Lemma delete_loop_none fuel : forall w o n i, i < n -> length (objs w o) <= n - i -> delete_loop fuel w o n i = None.
Proof.
  induction fuel as [|fuel IH]; [reflexivity|]. intros w o n i Hi Hl. cbn [delete_loop]. pose proof (proj2 (Nat.eqb_neq i n) ltac:(lia)) as ->.
  destruct (nth_error (objs w o) i) as [k|] eqn:E; [|reflexivity]. pose proof (nth_error_In _ _ E) as Ik.
  destruct (UnassignController w o k) as [w1|] eqn:U; [|reflexivity]. apply unassign_spec in U. destruct U as [Uo _].
  pose proof (without_length_in k _ Ik) as Lt. rewrite <- Uo in Lt. destruct (nth_error (objs w1 o) i) as [k2|] eqn:E2; [|reflexivity].
  assert (i < length (objs w1 o)) by (apply nth_error_Some; congruence).
  destruct (call w1 k2 _) as [w2|] eqn:C; [|reflexivity]. apply call_some in C. destruct C as [c [_ [-> _]]]. apply IH; [lia|]. cbn. lia.
Qed.

Lemma delete_controllers w o : SE_DeleteObject_controllers w o = if objs w o then Some w else None.
Proof.
  unfold SE_DeleteObject_controllers. destruct (objs w o) as [|a l] eqn:E; [reflexivity|]. rewrite <- E. apply delete_loop_none; rewrite E; cbn; lia.
Qed.

(** ** Histories *)

Inductive op :=
| OpLink (k : N) (o : option N)
| OpAssign (o k : N)
| OpUnassign (o k : N)
| OpUnassignAll (o : N)
| OpAssignAction (o k : option N) (lat long light anim : act)
| OpActivateAction (o : N) (minor : nat) (name : option N) (mode : list act)
| OpDeactivateDomains (k mask : N).

Definition run1 (w : world) (x : op) : option world :=
  match x with
  | OpLink k o => Some (set_ctrl w k (LinkObject (ctrls w k) o))
  | OpAssign o k => Some (AssignController w o k)
  | OpUnassign o k => UnassignController w o k
  | OpUnassignAll o => UnassignControllers w o
  | OpAssignAction o k a b c d => AssignControllerAction_Start w o k a b c d
  | OpActivateAction o m n mode => match ActivateControllerAction_Start w o m n mode with Some (w, _) => Some w | None => None end
  | OpDeactivateDomains k mask => call w k (fun c => Some (DeactivateDomains c mask))
  end.
Fixpoint run (w : world) (l : list op) : option world :=
  match l with [] => Some w | x :: l => match run1 w x with None => None | Some w => run w l end end.

(** A relation between a controller before and after that all operations satisfy. *)
Definition evolves (a b : ctrl) : Prop :=
  same_ctrl b a /\ (forall d, on b d -> on a d \/ operates a d).

Lemma evolves_refl c : evolves c c.
Proof. split; [apply same_refl|auto]. Qed.

Lemma evolves_trans a b c : evolves a b -> evolves b c -> evolves a c.
Proof.
  intros [A1 A2] [B1 B2]. split; [eapply same_trans; eassumption|]. intros d H. apply B2 in H. destruct H as [H|H]; [apply A2; exact H|].
  right. unfold operates in *. destruct A1 as [_ [_ [A1 _]]]. congruence.
Qed.

Lemma activate_evolves c mode c' : Activate c mode = Some c' -> evolves c c'.
Proof.
  intro H. apply activate_some in H. subst. split; [apply activate_keeps|]. intros d. unfold on, operates. rewrite activate_bit.
  destruct (d <? 4); [|auto]. destruct (nth d mode UNDEFINED); [auto|discriminate|]. rewrite orb_true_iff. auto.
Qed.

Lemma deactivate_evolves c mask : evolves c (DeactivateDomains c mask).
Proof.
  split; [apply deactivate_domains_keeps|]. intros d. unfold on. rewrite deactivate_domains_bit, andb_true_iff. intuition.
Qed.

Definition w_evolves (a b : world) : Prop := forall k, evolves (ctrls a k) (ctrls b k).

Lemma w_evolves_refl w : w_evolves w w.
Proof. intro. apply evolves_refl. Qed.

Lemma w_evolves_trans a b c : w_evolves a b -> w_evolves b c -> w_evolves a c.
Proof. intros A B k. eapply evolves_trans; [apply A|apply B]. Qed.

Lemma call_evolves w k f w' : (forall c c', f c = Some c' -> evolves c c') -> call w k f = Some w' -> w_evolves w w' /\ objs w' = objs w.
Proof.
  intros H C. apply call_some in C. destruct C as [c [C1 [-> _]]]. split; [|reflexivity]. intro x. rewrite get_set.
  destruct (N.eqb_spec x k) as [->|]; [apply H; exact C1|apply evolves_refl].
Qed.

Lemma conflict_evolves o k minor mode l : forall w w', deactivate_conflicting w o k minor mode l = Some w' -> w_evolves w w' /\ objs w' = objs w.
Proof.
  induction l as [|i l IH]; intros w w'; cbn [deactivate_conflicting].
  - intro H. injection H as <-. split; [apply w_evolves_refl|reflexivity].
  - destruct (mode_at mode i); try apply IH. destruct (GetControllerActiveOnDomainMask _ _ _) as [k'|]; [|apply IH]. destruct (3 <=? minor).
    + destruct (call w k _) as [w1|] eqn:C; [|discriminate]. apply call_evolves in C; [|intros c c' E; injection E as <-; apply deactivate_evolves].
      intro H. apply IH in H. destruct C as [C1 C2], H as [H1 H2]. split; [eapply w_evolves_trans; eassumption|congruence].
    + apply call_evolves. intros c c' E. apply deactivate_some in E. subst. apply deactivate_evolves.
Qed.

Lemma run1_evolves w x w' : run1 w x = Some w' ->
  w_evolves w w' /\ (forall o, NoDup (objs w o) -> NoDup (objs w' o)) /\ (forall k, c_deleted (ctrls w k) = c_deleted (ctrls w' k)).
Proof.
  assert (Cd : forall w k f w1, (forall c c', f c = Some c' -> c_deleted c' = c_deleted c) -> call w k f = Some w1 -> forall x, c_deleted (ctrls w x) = c_deleted (ctrls w1 x)).
  { intros w0 k f w1 Hf C y. apply call_some in C. destruct C as [c [C1 [-> _]]]. rewrite get_set. destruct (N.eqb_spec y k) as [->|]; [|reflexivity]. symmetry. apply Hf. exact C1. }
  assert (Da : forall mode c c', Activate c mode = Some c' -> c_deleted c' = c_deleted c) by (intros mode c c' H; apply activate_some in H; subst; apply activate_keeps).
  destruct x as [k o|o k|o k|o|o k lat long light anim|o minor name mode|k mask]; cbn [run1].
  - intro H. injection H as <-. split; [|split; [auto|]].
    + intro x. rewrite get_set. destruct (N.eqb_spec x k) as [->|]; [|apply evolves_refl]. split; [repeat split|]. intros d H. left. exact H.
    + intro x. rewrite get_set. destruct (N.eqb_spec x k) as [->|]; reflexivity.
  - intro H. injection H as <-. destruct (assign_obj w o k) as [A [B C]]. split; [|split].
    + intro x. rewrite C. apply evolves_refl.
    + intros o' Hn. destruct (N.eq_dec o' o) as [->|Hne]; [rewrite A|rewrite B by exact Hne; exact Hn]. apply nodup_snoc; [apply without_nodup; exact Hn|].
      rewrite in_without. intros [_ F]. congruence.
    + intro x. rewrite C. reflexivity.
  - intro H. destruct (unassign_spec _ _ _ _ H) as [A [B [C [D [E [F G]]]]]]. split; [|split].
    + intro x. destruct (N.eq_dec x k) as [->|Hx]; [|rewrite C by exact Hx; apply evolves_refl]. split; [exact F|]. intros d Hd.
      destruct (in_dec N.eq_dec k (objs w o)) as [I|I]; [|rewrite E in Hd by exact I; auto].
      unfold UnassignController in H. rewrite (proj2 (existsb_in k (objs w o)) I) in H. destruct (call w k _) as [w1|] eqn:Cl; [|discriminate].
      apply call_some in Cl. destruct Cl as [c [Cl1 [-> _]]]. injection H as <-. apply deactivate_some in Cl1. subst c.
      change (on (ctrls (set_ctrl w k (DeactivateDomains (LinkObject (ctrls w k) None) MASK_ALL)) k) d) in Hd. rewrite get_set_same in Hd.
      apply deactivate_evolves in Hd. exact Hd.
    + intros o' Hn. destruct (N.eq_dec o' o) as [->|Hne]; [rewrite A; apply without_nodup; exact Hn|rewrite B by exact Hne; exact Hn].
    + intro x. destruct (N.eq_dec x k) as [->|Hx]; [symmetry; exact G|rewrite C by exact Hx; reflexivity].
  - unfold UnassignControllers. destruct (deactivate_all w (objs w o)) as [w1|] eqn:D; [|discriminate]. intro H. injection H as <-.
    destruct (deactivate_all_spec _ _ _ D) as [A [B [C [K M]]]]. split; [|split].
    + intro x. split; [apply K|]. intros d H. left. apply M. exact H.
    + intros o' Hn. destruct (N.eq_dec o' o) as [->|Hne]; [rewrite obj_set_same; constructor|rewrite obj_set_other by exact Hne; rewrite A; exact Hn].
    + intro x. symmetry. apply K.
  - destruct k as [k|]; cbn [AssignControllerAction_Start].
    2: { intro H. injection H as <-. split; [apply w_evolves_refl|]. split; auto. }
    unfold AssignControllerAction_Start. set (w1 := match o with Some o => AssignController w o k | None => w end).
    assert (W1 : ctrls w1 = ctrls w) by (destruct o; reflexivity).
    assert (Nd : forall o', NoDup (objs w o') -> NoDup (objs w1 o')).
    { intros o' Hn. destruct o as [o|]; [|exact Hn]. destruct (assign_obj w o k) as [A [B C]]. unfold w1.
      destruct (N.eq_dec o' o) as [->|Hne]; [rewrite A|rewrite B by exact Hne; exact Hn]. apply nodup_snoc; [apply without_nodup; exact Hn|].
      rewrite in_without. intros [_ F]. congruence. }
    intro H. assert (Cases : w' = w1 \/ call w1 k (fun c => Activate c [lat; long; light; anim]) = Some w').
    { destruct (negb (IsActive (ctrls w1 k))); [|left; congruence]. destruct lat, long, light, anim; auto. left. congruence. }
    clear H. destruct Cases as [->|C].
    + split; [|split; [exact Nd|intro; rewrite W1; reflexivity]]. intro x. rewrite W1. apply evolves_refl.
    + pose proof (Cd _ _ _ _ (Da _) C) as Dl. apply call_evolves in C; [|intros c c'; apply activate_evolves]. destruct C as [C1 C2]. split; [|split].
      * intro x. specialize (C1 x). rewrite W1 in C1. exact C1.
      * intros o' Hn. rewrite C2. apply Nd. exact Hn.
      * intro x. rewrite <- Dl, W1. reflexivity.
  - destruct (ActivateControllerAction_Start w o minor name mode) as [[w1 b]|] eqn:E; [|discriminate]. intro H. injection H as <-.
    apply activate_action_shape in E. destruct E as [[_ [-> _]]|[_ [k [w2 [_ [D C]]]]]].
    + split; [apply w_evolves_refl|auto].
    + pose proof (Cd _ _ _ _ (Da _) C) as Dl. apply call_evolves in C; [|intros c c'; apply activate_evolves].
      assert (Dl2 : forall x, c_deleted (ctrls w x) = c_deleted (ctrls w2 x)).
      { clear - D Cd. revert w D. induction domains as [|i l IH]; intros w; cbn [deactivate_conflicting]; [intros H; injection H as <-; reflexivity|].
        destruct (mode_at mode i); try apply IH. destruct (GetControllerActiveOnDomainMask _ _ _) as [k'|]; [|apply IH]. destruct (3 <=? minor).
        - destruct (call w k _) as [w3|] eqn:C; [|discriminate]. intros H x. rewrite <- (IH _ H). revert x. eapply Cd; [|exact C].
          intros c c' E. injection E as <-. apply deactivate_domains_keeps.
        - intro C. eapply Cd; [|exact C]. intros c c' E. apply deactivate_some in E. subst. apply deactivate_domains_keeps. }
      apply conflict_evolves in D. destruct C as [C1 C2], D as [D1 D2]. split; [eapply w_evolves_trans; eassumption|]. split; [intros o' Hn; congruence|].
      intro x. rewrite Dl2. apply Dl.
  - intro C. assert (Dl := fun H => Cd _ _ _ _ H C). apply call_evolves in C; [|intros c c' E; injection E as <-; apply deactivate_evolves]. destruct C as [C1 C2].
    split; [exact C1|]. split; [intros o Hn; rewrite C2; exact Hn|]. apply Dl. intros c c' E. injection E as <-. apply deactivate_domains_keeps.
Qed.

Lemma run_evolves l : forall w w', run w l = Some w' ->
  w_evolves w w' /\ (forall o, NoDup (objs w o) -> NoDup (objs w' o)) /\ (forall k, c_deleted (ctrls w k) = c_deleted (ctrls w' k)).
Proof.
  induction l as [|x l IH]; intros w w'; cbn [run].
  - intro H. injection H as <-. split; [apply w_evolves_refl|auto].
  - destruct (run1 w x) as [w1|] eqn:E; [|discriminate]. intro H. apply run1_evolves in E. apply IH in H. destruct E as [E1 [E2 E3]], H as [H1 [H2 H3]].
    split; [eapply w_evolves_trans; eassumption|]. split; [auto|]. intro k. rewrite E3. apply H3.
Qed.

Lemma evolves_within w w' : w_evolves w w' -> within w -> within w'.
Proof.
  intros H Hw k d On. destruct (H k) as [[_ [_ [O _]]] F]. unfold operates in *. rewrite O. destruct (F d On) as [G|G]; [apply Hw; exact G|exact G].
Qed.
