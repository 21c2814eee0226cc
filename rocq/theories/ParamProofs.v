(** Specification and proofs for parameters (C11, C12, C37). *)
From Coq Require Import List String Ascii ZArith QArith Bool Arith Lia.
From Verif Require Import ParamModel.
Import ListNotations.
Open Scope string_scope.
Open Scope list_scope.
Open Scope nat_scope.

(** ** Specification *)

(** [n] names a declaration called [d]: with or without the leading '$'. *)
Definition refers (n d : string) : Prop := n = d \/ n = String "$" d.

(** A balanced sequence of calls: every scope entry has its exit, scopes nest. *)
Inductive balanced : list pop -> Prop :=
| bal_nil : balanced []
| bal_create b : balanced b -> balanced (OCreate :: b ++ [ORestore])
| bal_add xs b : balanced b -> balanced (OAdd xs :: b ++ [ORestore])
| bal_assign n v : balanced [OAssign n v]
| bal_app a b : balanced a -> balanced b -> balanced (a ++ b).

(** As [balanced], with value assignments anywhere. *)
Inductive balanced_set : list pop -> Prop :=
| bs_bal a : balanced a -> balanced_set a
| bs_create b : balanced_set b -> balanced_set (OCreate :: b ++ [ORestore])
| bs_add xs b : balanced_set b -> balanced_set (OAdd xs :: b ++ [ORestore])
| bs_set o : match o with OSetInt _ _ | OSetDouble _ _ | OSetString _ _ | OSetBool _ _ | OByString _ _ | OSetParameter _ _ => True | _ => False end -> balanced_set [o]
| bs_app a b : balanced_set a -> balanced_set b -> balanced_set (a ++ b).

(** Same declaration, value left open. *)
Definition same_decl (p q : param) : Prop := p_name p = p_name q /\ p_type p = p_type q /\ p_variable p = p_variable q.

(** The value in effect for a declaration [n] with default [dflt] under catalog assignments [a]: the last assignment. *)
Inductive effective (a : list (string * string)) (n dflt : string) : string -> Prop :=
| eff_default : ~ In n (map fst a) -> effective a n dflt dflt
| eff_assign pre v post : a = pre ++ (n, v) :: post -> ~ In n (map fst post) -> effective a n dflt v.

(** Sequences of calls that never leave more scopes than they (plus [k] outer entries) entered. *)
Fixpoint covered (k : nat) (os : list pop) : Prop :=
  match os with
  | [] => True
  | (OAdd _ | OCreate) :: os' => covered (S k) os'
  | ORestore :: os' => match k with O => False | S k' => covered k' os' end
  | _ :: os' => covered k os'
  end.

(** The restore stack is ordered and consistent with the declarations. *)
Fixpoint sizes_ok (n : nat) (l : list nat) : Prop :=
  match l with [] => True | t :: l' => t <= n /\ sizes_ok t l' end.

(** Typed values as seen by the typed getters. *)
Inductive tval := VInt (z : Z) | VDouble (q : Q) | VString (x : string) | VBool (b : bool).
Definition lookup (s : pstate) (n : string) : option tval :=
  match get_int s n with Some z => Some (VInt z) | None =>
  match get_double s n with Some q => Some (VDouble q) | None =>
  match get_string s n with Some x => Some (VString x) | None =>
  match get_bool s n with Some b => Some (VBool b) | None => None end end end end.
Definition same_type (a b : tval) : bool :=
  match a, b with VInt _, VInt _ | VDouble _, VDouble _ | VString _, VString _ | VBool _, VBool _ => true | _, _ => false end.
Definition set_val (C : conv) (s : pstate) (n : string) (v : tval) : Z * pstate :=
  match v with VInt z => set_int C s n z | VDouble q => set_double C s n q | VString x => set_string s n x | VBool b => set_bool s n b end.
(** Abstract parameter store: a partial map from plain names; a set of an unknown name or another type does nothing. *)
Definition strip (n : string) : string := match n with String "$" r => r | _ => n end.
Definition amap := string -> option tval.
Definition aset (m : amap) (n : string) (v : tval) : Z * amap :=
  match m (strip n) with
  | Some w => if same_type w v then (0%Z, fun k => if String.eqb k (strip n) then Some v else m k) else ((-1)%Z, m)
  | None => ((-1)%Z, m)
  end.
Fixpoint sets (C : conv) (l : list (string * tval)) (s : pstate) : list Z * pstate :=
  match l with
  | [] => ([], s)
  | (n, v) :: l' => let (r, s1) := set_val C s n v in let (rs, s2) := sets C l' s1 in (r :: rs, s2)
  end.
Fixpoint asets (l : list (string * tval)) (m : amap) : list Z * amap :=
  match l with
  | [] => ([], m)
  | (n, v) :: l' => let (r, s1) := aset m n v in let (rs, s2) := asets l' s1 in (r :: rs, s2)
  end.
Definition plain (n : string) : Prop := strip n = n.

(** ** Lookup *)
Lemma matches_refers n p : matches n p = true <-> refers n (p_name p).
Proof.
  unfold matches, refers. rewrite orb_true_iff, !String.eqb_eq.
  split; intros [H|H]; auto.
Qed.

Lemma get_entry_in n l p : get_entry n l = Some p -> In p l /\ matches n p = true.
Proof. induction l as [|q l IH]; simpl; [discriminate|]. destruct (matches n q) eqn:E; intros H; [injection H as <-; auto|]. destruct (IH H); auto. Qed.
Lemma get_entry_none n l : get_entry n l = None <-> forall p, In p l -> matches n p = false.
Proof.
  induction l as [|q l IH]; simpl; [split; [tauto|auto]|].
  destruct (matches n q) eqn:E; split; intros H; try discriminate.
  - rewrite (H q) in E; auto; discriminate.
  - intros p [<-|I]; auto. apply IH; auto.
  - apply IH. auto.
Qed.
Lemma get_entry_app n a b : (forall p, In p a -> matches n p = false) -> get_entry n (a ++ b) = get_entry n b.
Proof. induction a as [|q a IH]; simpl; intros H; auto. rewrite (H q) by auto. auto. Qed.

Lemma upd_same n f l p : get_entry n l = Some p -> (forall q, matches n (f q) = matches n q) -> get_entry n (upd_entry n f l) = Some (f p).
Proof.
  intros H F. induction l as [|q l IH]; simpl in *; [discriminate|].
  destruct (matches n q) eqn:E; simpl.
  - rewrite F, E. congruence.
  - rewrite E. auto.
Qed.
Lemma upd_other n m f l : (forall q, matches m (f q) = matches m q) -> (forall p, In p l -> matches n p = true -> matches m p = true -> False) ->
  get_entry m (upd_entry n f l) = get_entry m l.
Proof.
  intros F D. induction l as [|q l IH]; simpl in *; auto.
  destruct (matches n q) eqn:E; simpl.
  - rewrite F. destruct (matches m q) eqn:E2; auto. exfalso; eauto.
  - destruct (matches m q) eqn:E2; auto. apply IH; intros; eapply D; eauto.
Qed.
Lemma upd_length n f l : List.length (upd_entry n f l) = List.length l.
Proof. induction l as [|q l IH]; simpl; auto. destruct (matches n q); simpl; auto. Qed.
Lemma upd_same_decl n f l : (forall q, same_decl (f q) q) -> Forall2 same_decl (upd_entry n f l) l.
Proof.
  intros F. assert (R : forall k, Forall2 same_decl k k) by (induction k; constructor; unfold same_decl; auto).
  induction l as [|q l IH]; simpl; [constructor|]. destruct (matches n q); constructor; auto. unfold same_decl; auto.
Qed.
Lemma name_matches n p q : p_name p = p_name q -> matches n p = matches n q.
Proof. unfold matches. intros ->. reflexivity. Qed.

(** ** Scopes *)
Section S.
Variable C : conv.

Lemma papplies_app a b s : papplies C (a ++ b) s = match papplies C a s with Some s' => papplies C b s' | None => None end.
Proof. revert s; induction a as [|o a IH]; intros s; simpl; auto. destruct (papply C o s); auto. Qed.

Lemma insert_suffix p l : exists e, insert_param p l = e ++ l.
Proof. unfold insert_param. destruct (find _ l) as [q|]; [destruct (p_dirty q)|]; [exists []|exists [p]|exists [p]]; auto. Qed.
Lemma parse_suffix a xs l l' : parse_decls C a xs l = Some l' -> exists e, l' = e ++ l.
Proof.
  revert l; induction xs as [|x xs IH]; intros l; simpl.
  - intros H; injection H as <-. exists []; auto.
  - destruct (make_param C false l a x) as [p|]; [|discriminate]. intros H. apply IH in H. destruct H as [e ->].
    destruct (insert_suffix p l) as [e' ->]. exists (e ++ e'). rewrite app_assoc. auto.
Qed.

Lemma restore_app e l t a : restore_decls (mkS (List.length l :: t) a (e ++ l)) = Some (mkS t [] l).
Proof.
  unfold restore_decls; cbn [sizes decls]. rewrite app_length.
  destruct (Nat.ltb_spec (List.length e + List.length l) (List.length l)); [lia|].
  replace (List.length e + List.length l - List.length l) with (List.length e) by lia.
  rewrite skipn_app, skipn_all, Nat.sub_diag. reflexivity.
Qed.

Lemma same_refl l : Forall2 same_decl l l.
Proof. induction l; constructor; unfold same_decl; auto. Qed.
Lemma same_trans a b c : Forall2 same_decl a b -> Forall2 same_decl b c -> Forall2 same_decl a c.
Proof.
  intros H; revert c; induction H as [|x y a b Hx H IH]; intros c H2; inversion H2; subst; constructor; auto.
  unfold same_decl in *. intuition congruence.
Qed.

Lemma balanced_restore os : balanced os -> forall s s', papplies C os s = Some s' -> decls s' = decls s /\ sizes s' = sizes s.
Proof.
  induction 1 as [|b B IH|xs b B IH|n v|a b A IHa B IHb]; intros s s' H; simpl in H.
  - injection H as <-; auto.
  - rewrite papplies_app in H. destruct (papplies C b _) as [s1|] eqn:E; [|discriminate].
    apply IH in E. destruct E as [Ed Es]. simpl in Ed, Es. simpl in H.
    destruct s1 as [z1 a1 d1]; simpl in *. subst d1 z1.
    rewrite (restore_app [] (decls s)) in H. injection H as <-. auto.
  - unfold add_decls in H. destruct (parse_decls C _ xs _) as [l|] eqn:P; [|discriminate].
    rewrite papplies_app in H. destruct (papplies C b _) as [s1|] eqn:E; [|discriminate].
    apply IH in E. destruct E as [Ed Es]. simpl in Ed, Es. simpl in H.
    destruct s1 as [z1 a1 d1]; simpl in *. subst d1 z1. apply parse_suffix in P. destruct P as [e ->].
    rewrite restore_app in H. injection H as <-. auto.
  - injection H as <-; auto.
  - rewrite papplies_app in H. destruct (papplies C a s) as [s1|] eqn:E; [|discriminate].
    apply IHa in E. apply IHb in H. destruct E, H; split; congruence.
Qed.

Lemma same_len a b : Forall2 same_decl a b -> List.length a = List.length b.
Proof. induction 1; simpl; auto. Qed.

Lemma set_shape t f s n (F : forall q, same_decl (f q) q) : sizes (snd (set_typed t f s n)) = sizes s /\ Forall2 same_decl (decls (snd (set_typed t f s n))) (decls s).
Proof.
  unfold set_typed. destruct (get_entry n (decls s)) as [p|]; simpl; [|split; [auto|apply same_refl]].
  destruct (ptype_eqb (p_type p) t); simpl; split; auto using same_refl. apply upd_same_decl; auto.
Qed.

Lemma set_op_shape o s s' :
  match o with OSetInt _ _ | OSetDouble _ _ | OSetString _ _ | OSetBool _ _ | OByString _ _ | OSetParameter _ _ => True | _ => False end ->
  papply C o s = Some s' -> sizes s' = sizes s /\ Forall2 same_decl (decls s') (decls s).
Proof.
  destruct o; simpl; intros T H; try contradiction; injection H as <-;
    try (apply set_shape; intros q; unfold same_decl; simpl; auto).
  - unfold set_by_string. destruct (get_entry n (decls s)); simpl; [|split; auto using same_refl].
    split; auto. apply upd_same_decl. intros q. unfold same_decl. destruct (p_type q) eqn:E; simpl; rewrite ?E; auto.
  - unfold set_parameter. destruct (get_entry n (decls s)); simpl; [|split; auto using same_refl].
    split; auto. apply upd_same_decl. intros q. unfold same_decl. simpl. auto.
Qed.

Lemma skipn_F2 (a b e : list param) n : Forall2 same_decl a (e ++ b) -> n = List.length e -> Forall2 same_decl (skipn n a) b.
Proof.
  revert a n; induction e as [|x e IH]; simpl; intros a n H ->; auto.
  inversion H; subst. simpl. eauto.
Qed.

Lemma balanced_set_restore os : balanced_set os -> forall s s', papplies C os s = Some s' -> Forall2 same_decl (decls s') (decls s) /\ sizes s' = sizes s.
Proof.
  induction 1 as [a B|b B IH|xs b B IH|o T|a b A IHa B IHb]; intros s s' H; simpl in H.
  - apply (balanced_restore _ B) in H. destruct H as [-> ->]. split; auto using same_refl.
  - rewrite papplies_app in H. destruct (papplies C b _) as [s1|] eqn:E; [|discriminate].
    apply IH in E. destruct E as [Ed Es]. simpl in Ed, Es. simpl in H.
    destruct s1 as [z1 a1 d1]; simpl in *. subst z1. unfold restore_decls in H; simpl in H.
    pose proof (same_len _ _ Ed) as L. rewrite L in H. rewrite Nat.ltb_irrefl, Nat.sub_diag in H. injection H as <-. auto.
  - unfold add_decls in H. destruct (parse_decls C _ xs _) as [l|] eqn:P; [|discriminate].
    rewrite papplies_app in H. destruct (papplies C b _) as [s1|] eqn:E; [|discriminate].
    apply IH in E. destruct E as [Ed Es]. simpl in Ed, Es. simpl in H.
    destruct s1 as [z1 a1 d1]; simpl in *. subst z1. apply parse_suffix in P. destruct P as [e ->].
    unfold restore_decls in H; simpl in H. pose proof (same_len _ _ Ed) as L. rewrite app_length in L.
    destruct (Nat.ltb_spec (List.length d1) (List.length (decls s))); [lia|]. injection H as <-. simpl. split; auto.
    eapply skipn_F2; eauto. lia.
  - destruct (papply C o s) as [s1|] eqn:E; [|discriminate]. injection H as <-.
    destruct (set_op_shape _ _ _ T E); auto.
  - rewrite papplies_app in H. destruct (papplies C a s) as [s1|] eqn:E; [|discriminate].
    apply IHa in E. apply IHb in H. destruct E, H; split; [eapply same_trans; eauto|congruence].
Qed.

(** The stack discipline for arbitrary call sequences. *)
Lemma sizes_ok_mono n m l : n <= m -> sizes_ok n l -> sizes_ok m l.
Proof. destruct l; simpl; auto. intros; intuition lia. Qed.

Lemma papply_sizes o s s' : sizes_ok (List.length (decls s)) (sizes s) -> papply C o s = Some s' -> sizes_ok (List.length (decls s')) (sizes s').
Proof.
  intros I H.
  assert (D : sizes s' = sizes s -> List.length (decls s') = List.length (decls s) -> sizes_ok (List.length (decls s')) (sizes s')) by (intros -> ->; auto).
  assert (DS : (match o with OSetInt _ _ | OSetDouble _ _ | OSetString _ _ | OSetBool _ _ | OByString _ _ | OSetParameter _ _ => True | _ => False end) ->
          sizes_ok (List.length (decls s')) (sizes s')).
  { intros T. destruct (set_op_shape o s s' T H) as [A B]. apply same_len in B. auto. }
  destruct o as [xs| | |n v|n z|n d|n x|n b|n x|n x]; try (apply DS; exact Logic.I); simpl in H.
  - unfold add_decls in H. destruct (parse_decls C _ xs _) as [l|] eqn:P; [|discriminate]. injection H as <-. simpl.
    apply parse_suffix in P. destruct P as [e ->]. rewrite app_length. split; [lia|auto].
  - injection H as <-. simpl. auto.
  - unfold restore_decls in H. destruct (sizes s) as [|t r] eqn:E.
    + injection H as <-. rewrite E. simpl; auto.
    + simpl in I. destruct (Nat.ltb_spec (List.length (decls s)) t); [discriminate|]. injection H as <-. simpl.
      rewrite skipn_length. replace (List.length (decls s) - (List.length (decls s) - t)) with t by lia. tauto.
  - injection H as <-. simpl. auto.
Qed.

Lemma restore_defined s : sizes_ok (List.length (decls s)) (sizes s) -> restore_decls s <> None.
Proof.
  unfold restore_decls. destruct (sizes s) as [|t r]; [discriminate|]. simpl. intros [H _].
  destruct (Nat.ltb_spec (List.length (decls s)) t); [lia|discriminate].
Qed.

Lemma papplies_sizes os s s' : sizes_ok (List.length (decls s)) (sizes s) -> papplies C os s = Some s' -> sizes_ok (List.length (decls s')) (sizes s').
Proof.
  revert s; induction os as [|o os IH]; intros s I H; simpl in H; [injection H as <-; auto|].
  destruct (papply C o s) as [s1|] eqn:E; [|discriminate]. eauto using papply_sizes.
Qed.

Lemma only_declarations_fail os s : sizes_ok (List.length (decls s)) (sizes s) -> papplies C os s = None ->
  exists pre xs post s1, os = pre ++ OAdd xs :: post /\ papplies C pre s = Some s1 /\ papply C (OAdd xs) s1 = None.
Proof.
  revert s; induction os as [|o os IH]; intros s I H; simpl in H; [discriminate|].
  destruct (papply C o s) as [s1|] eqn:E.
  - destruct (IH s1 (papply_sizes _ _ _ I E) H) as (pre & xs & post & s2 & -> & P & Q).
    exists (o :: pre), xs, post, s2. simpl. rewrite E. auto.
  - exists [], (match o with OAdd xs => xs | _ => [] end), os, s. simpl.
    destruct o; simpl in *; try discriminate; auto. exfalso. exact (restore_defined s I E).
Qed.

Lemma F2_app_split (a b e : list param) : Forall2 same_decl a (e ++ b) -> exists a1 a2, a = a1 ++ a2 /\ Forall2 same_decl a2 b.
Proof.
  revert a; induction e as [|x e IH]; simpl; intros a H; [exists [], a; auto|].
  inversion H; subst. destruct (IH _ H4) as (a1 & a2 & -> & F). exists (x0 :: a1), a2; auto.
Qed.

(** With [k] entries made since the base [D], the base survives below everything. *)
Definition above (k : nat) (D : list param) (s : pstate) : Prop :=
  (exists e D', decls s = e ++ D' /\ Forall2 same_decl D' D) /\
  sizes_ok (List.length (decls s)) (sizes s) /\
  (forall i t, i < k -> nth_error (sizes s) i = Some t -> List.length D <= t).

Lemma above_step k D o s s' : above k D s -> k <= List.length (sizes s) -> papply C o s = Some s' ->
  match o with
  | OAdd _ | OCreate => above (S k) D s' /\ S k <= List.length (sizes s')
  | ORestore => match k with O => True | S k' => above k' D s' /\ k' <= List.length (sizes s') end
  | _ => above k D s' /\ k <= List.length (sizes s')
  end.
Proof.
  intros ((e & D' & E & F) & I & B) K H. pose proof (papply_sizes _ _ _ I H) as I'.
  pose proof (same_len _ _ F) as LF.
  assert (DS : (match o with OSetInt _ _ | OSetDouble _ _ | OSetString _ _ | OSetBool _ _ | OByString _ _ | OSetParameter _ _ => True | _ => False end) ->
          above k D s' /\ k <= List.length (sizes s')).
  { intros T. destruct (set_op_shape o s s' T H) as [A A2]. rewrite A. split; auto. split; [|split; [auto|rewrite A; auto]].
    rewrite E in A2. apply F2_app_split in A2. destruct A2 as (a1 & a2 & -> & G). exists a1, a2. split; auto. eapply same_trans; eauto. }
  assert (LE : List.length D <= List.length (decls s)) by (rewrite E, app_length; lia).
  destruct o as [xs| | |n v|n z|n d|n x|n b|n x|n x]; try (apply DS; exact Logic.I); simpl in H.
  - unfold add_decls in H. destruct (parse_decls C _ xs _) as [l|] eqn:P; [|discriminate]. injection H as <-. simpl in *.
    apply parse_suffix in P. destruct P as [e2 ->]. split; [|lia]. split; [|split; [auto|]].
    + simpl. exists (e2 ++ e), D'. rewrite E, app_assoc. auto.
    + intros [|i] t Hi Ht; simpl in Ht; [injection Ht as <-; auto|]. apply (B i); auto; lia.
  - injection H as <-. simpl in *. split; [|lia]. split; [|split; [auto|]].
    + simpl. eauto.
    + intros [|i] t Hi Ht; simpl in Ht; [injection Ht as <-; auto|]. apply (B i); auto; lia.
  - destruct k as [|k]; [exact Logic.I|]. unfold restore_decls in H. destruct (sizes s) as [|t r] eqn:Es; [simpl in K; lia|].
    simpl in *. destruct (Nat.ltb_spec (List.length (decls s)) t); [discriminate|]. injection H as <-. simpl in *.
    split; [|lia]. assert (L : List.length D <= t) by (apply (B 0); [lia|auto]).
    split; [|split; [auto|]].
    + simpl. exists (skipn (List.length (decls s) - t) e), D'. split; auto. rewrite E, skipn_app. f_equal.
      rewrite app_length. replace (List.length e + List.length D' - t - List.length e) with 0 by lia. reflexivity.
    + simpl. intros i t' Hi Ht. apply (B (S i)); auto. lia.
  - injection H as <-. simpl in *. split; auto. split; [|split]; simpl; eauto.
Qed.

Lemma covered_above os : forall k D s s', covered k os -> above k D s -> k <= List.length (sizes s) -> papplies C os s = Some s' ->
  exists e D', decls s' = e ++ D' /\ Forall2 same_decl D' D.
Proof.
  induction os as [|o os IH]; intros k D s s' Cv A K H; simpl in H.
  - injection H as <-. apply A.
  - destruct (papply C o s) as [s1|] eqn:E; [|discriminate]. pose proof (above_step _ _ _ _ _ A K E) as N.
    destruct o; simpl in Cv; try (destruct N; eapply IH; eauto; fail).
    destruct k as [|k]; [contradiction|]. destruct N; eapply IH; eauto.
Qed.

Lemma covered_keeps os s s' : covered 0 os -> sizes_ok (List.length (decls s)) (sizes s) -> papplies C os s = Some s' ->
  exists e D', decls s' = e ++ D' /\ Forall2 same_decl D' (decls s).
Proof.
  intros Cv I H. eapply covered_above; eauto; [|lia]. split; [|split; [auto|intros; lia]]. exists [], (decls s). auto using same_refl.
Qed.

(** ** Shadowing *)
Lemma make_name v g a x p : make_param C v g a x = Some p -> p_name p = x_name x.
Proof.
  unfold make_param. destruct (read_attribute C g (x_value x)); [|discriminate]. destruct (x_type x); [|discriminate].
  destruct (type_of s0); [|discriminate]. intros H; injection H as <-. auto.
Qed.
Lemma make_clean v g a x p : make_param C v g a x = Some p -> p_dirty p = false.
Proof.
  unfold make_param. destruct (read_attribute C g (x_value x)); [|discriminate]. destruct (x_type x); [|discriminate].
  destruct (type_of s0); [|discriminate]. intros H; injection H as <-. auto.
Qed.

Lemma parse_outer a xs n : (forall x, In x xs -> ~ refers n (x_name x)) -> forall l l', parse_decls C a xs l = Some l' ->
  get_entry n l' = get_entry n l.
Proof.
  induction xs as [|x xs IH]; intros D l l' H; simpl in H; [injection H as <-; auto|].
  destruct (make_param C false l a x) as [p|] eqn:M; [|discriminate].
  apply IH in H; [|intros; apply D; simpl; auto]. rewrite H. apply make_name in M.
  assert (N : matches n p = false).
  { destruct (matches n p) eqn:E; auto. apply matches_refers in E. rewrite M in E. exfalso. eapply D; eauto. simpl; auto. }
  unfold insert_param. destruct (find _ l) as [q|]; [destruct (p_dirty q)|]; simpl; rewrite ?N; auto.
Qed.

Lemma parse_app a xs ys l : parse_decls C a (xs ++ ys) l = match parse_decls C a xs l with Some l1 => parse_decls C a ys l1 | None => None end.
Proof. revert l; induction xs as [|x xs IH]; intros l; simpl; auto. destruct (make_param C false l a x); auto. Qed.

Lemma parse_dirty a xs n : forall l l', (forall q, In q l -> p_name q = n -> p_dirty q = false) -> parse_decls C a xs l = Some l' ->
  forall q, In q l' -> p_name q = n -> p_dirty q = false.
Proof.
  induction xs as [|x xs IH]; intros l l' D H; simpl in H; [injection H as <-; auto|].
  destruct (make_param C false l a x) as [p|] eqn:M; [|discriminate].
  eapply IH; [|exact H]. apply make_clean in M. intros q I E. unfold insert_param in I.
  destruct (find _ l) as [q'|]; [destruct (p_dirty q')|]; simpl in I; try (destruct I as [<-|I]); auto.
Qed.

Lemma last_assign_effective a n d v0 : d = v0 -> effective a n d (match last_assign n a with Some w => w | None => v0 end).
Proof.
  intros ->. unfold last_assign. destruct (find (fun e => String.eqb n (fst e)) (rev a)) as [[k w]|] eqn:F.
  - assert (exists post pre, rev a = post ++ (n, w) :: pre /\ ~ In n (map fst post)) as (post & pre & E & N).
    { revert F. generalize (rev a). induction l as [|[k2 w2] l IH]; simpl; [discriminate|].
      destruct (String.eqb_spec n k2) as [->|D]; simpl.
      - intros H; injection H as <- <-. exists [], l. auto.
      - intros H. destruct (IH H) as (post & pre & -> & N). exists ((k2, w2) :: post), pre. simpl. split; auto. intros [E|I]; auto. }
    simpl. apply eff_assign with (pre := rev pre) (post := rev post).
    + rewrite <- (rev_involutive a), E, rev_app_distr. simpl. rewrite <- app_assoc. reflexivity.
    + rewrite map_rev, <- in_rev. auto.
  - apply eff_default. intros I. apply in_map_iff in I. destruct I as ([k w] & E & I). simpl in E. subst k.
    apply in_rev in I. eapply find_none in I; eauto. simpl in I. rewrite String.eqb_refl in I. discriminate.
Qed.

Lemma shadow a x b s s' s1 v0 n :
  add_decls C (a ++ x :: b) s = Some s' ->
  refers n (x_name x) ->
  (forall y, In y b -> ~ refers n (x_name y)) ->
  (forall q, In q (decls s) -> p_name q = x_name x -> p_dirty q = false) ->
  add_decls C a s = Some s1 -> read_attribute C (decls s1) (x_value x) = Some v0 ->
  exists p, get_entry n (decls s') = Some p /\ p_name p = x_name x /\
    effective (assigns s) (x_name x) v0 (v_string (p_val p)) /\
    (exists ts, x_type x = Some ts /\ type_of ts = Some (p_type p)).
Proof.
  unfold add_decls. intros H R B D H1 V. rewrite parse_app in H.
  destruct (parse_decls C (assigns s) a (decls s)) as [l1|] eqn:P1; [|discriminate].
  injection H1 as <-. simpl in V, H.
  destruct (make_param C false l1 (assigns s) x) as [p|] eqn:M; [|discriminate].
  destruct (parse_decls C (assigns s) b _) as [l2|] eqn:P2; [|discriminate]. injection H as <-. simpl.
  rewrite (parse_outer _ _ n B _ _ P2).
  pose proof (make_name _ _ _ _ _ M) as Nm.
  exists p. split; [|split; [auto|]].
  - assert (Mt : matches n p = true) by (apply matches_refers; rewrite Nm; auto).
    unfold insert_param. destruct (find _ l1) as [q|] eqn:F; [|simpl; rewrite Mt; auto].
    apply find_some in F. destruct F as [I E]. apply String.eqb_eq in E.
    rewrite (parse_dirty (assigns s) a (x_name x) (decls s) l1 D P1 q I); [simpl; rewrite Mt; auto|congruence].
  - unfold make_param in M. rewrite V in M. destruct (x_type x) as [ts|]; [|discriminate].
    destruct (type_of ts) as [t|] eqn:T; [|discriminate]. injection M as <-. simpl. split; [|eauto].
    apply last_assign_effective. auto.
Qed.

Lemma outer_visible xs s s' n : add_decls C xs s = Some s' -> (forall x, In x xs -> ~ refers n (x_name x)) ->
  get_entry n (decls s') = get_entry n (decls s).
Proof.
  unfold add_decls. destruct (parse_decls C _ xs _) as [l|] eqn:P; [|discriminate]. intros H D. injection H as <-. simpl.
  eapply parse_outer; eauto.
Qed.

(** ** Reader *)
Lemma balanced_route : balanced (route_ops None).
Proof. unfold route_ops. apply (bal_create []). constructor. Qed.
Lemma balanced_flat {A} (f : A -> list pop) l : (forall x, In x l -> balanced (f x)) -> balanced (flat_map f l).
Proof. induction l; simpl; intros H; [constructor|]. apply bal_app; auto. Qed.
Definition no_decls (m : xman) : Prop := m_decls m = None /\ forall r, In r (m_routes m) -> r = None.
Lemma balanced_man m : no_decls m -> balanced (maneuver_ops m).
Proof.
  intros [A B]. unfold maneuver_ops. rewrite A. simpl. apply balanced_flat. intros r I. rewrite (B r I). apply balanced_route.
Qed.
Lemma balanced_assigns (l : list (string * string)) : balanced (map (fun a => OAssign (fst a) (snd a)) l).
Proof. induction l as [|[k v] l IH]; simpl; [constructor|]. apply (bal_app [_]); auto. constructor. Qed.
Lemma balanced_catalog c : no_decls (snd c) -> balanced (catalog_ops c).
Proof.
  intros N. unfold catalog_ops. rewrite app_assoc. apply bal_create. apply bal_app; [apply balanced_assigns|apply balanced_man; auto].
Qed.
Lemma balanced_group g : (forall c, In c (g_catalog g) -> no_decls (snd c)) -> (forall m, In m (g_inline g) -> no_decls m) -> balanced (group_ops g).
Proof.
  intros A B. unfold group_ops. apply bal_app; apply balanced_flat; intros; [apply balanced_catalog|apply balanced_man]; auto.
Qed.

Lemma story_restore x s s' :
  (forall g c, In g (s_groups x) -> In c (g_catalog g) -> no_decls (snd c)) ->
  (forall g m, In g (s_groups x) -> In m (g_inline g) -> no_decls m) ->
  papplies C (story_ops x) s = Some s' -> decls s' = decls s.
Proof.
  intros A B. assert (G : balanced (flat_map group_ops (s_groups x))).
  { apply balanced_flat. intros g I. apply balanced_group; eauto. }
  unfold story_ops. destruct (s_decls x) as [xs|]; intros H.
  - cbn [papplies papply] in H. cbn [app] in H.
    change (papplies C ((OAdd xs :: (flat_map group_ops (s_groups x)) ++ [ORestore])) (create_restore_point s) = Some s') in H.
    apply (balanced_restore _ (bal_add xs _ G)) in H. apply H.
  - apply (balanced_restore _ (bal_create _ G)) in H. apply H.
Qed.

Lemma covered_app a b : forall k, covered k a -> (forall j, covered j b) -> covered k (a ++ b).
Proof. induction a as [|o a IH]; simpl; intros k H Hb; auto. destruct o; auto. destruct k; [contradiction|auto]. Qed.
Lemma covered_mono os : forall k j, k <= j -> covered k os -> covered j os.
Proof.
  induction os as [|o os IH]; simpl; intros k j L H; auto.
  destruct o; eauto with arith; try (eapply IH; [|eauto]; lia).
  destruct k as [|k]; [contradiction|]. destruct j as [|j]; [lia|]. eapply IH; [|eauto]; lia.
Qed.
Lemma covered_all os : covered 0 os -> forall j, covered j os.
Proof. intros H j. apply (covered_mono os 0 j); auto. lia. Qed.
Lemma covered_flat {A} (f : A -> list pop) l : (forall x, covered 0 (f x)) -> covered 0 (flat_map f l).
Proof. intros H. induction l; simpl; auto. apply covered_app; auto. apply covered_all; auto. Qed.
Lemma covered_route d : covered 0 (route_ops d).
Proof. destruct d; simpl; auto. Qed.
Lemma covered_man m : covered 0 (maneuver_ops m).
Proof.
  unfold maneuver_ops. apply covered_app; [destruct (m_decls m); simpl; auto|]. apply covered_all. apply covered_flat. apply covered_route.
Qed.
Lemma covered_snoc os : covered 0 os -> forall k, covered (S k) (os ++ [ORestore]).
Proof.
  assert (G : forall os j, covered j os -> covered (S j) (os ++ [ORestore])).
  { induction os0 as [|o os0 IH]; simpl; intros j H; auto. destruct o; auto. destruct j; [contradiction|auto]. }
  intros H k. apply G. apply covered_all; auto.
Qed.
Lemma covered_catalog c : covered 0 (catalog_ops c).
Proof.
  unfold catalog_ops. simpl. rewrite app_assoc. apply covered_snoc. apply covered_app; [|apply covered_all; apply covered_man].
  induction (fst c) as [|a l IH]; simpl; auto.
Qed.
Lemma covered_group g : covered 0 (group_ops g).
Proof. unfold group_ops. apply covered_app; [|apply covered_all]; apply covered_flat; [apply covered_catalog|apply covered_man]. Qed.
Lemma covered_story x : covered 0 (story_ops x).
Proof.
  unfold story_ops. simpl. rewrite app_assoc. apply covered_snoc. apply covered_app; [destruct (s_decls x); simpl; auto|].
  apply covered_all, covered_flat, covered_group.
Qed.

(** ** Typed access *)
Lemma ptype_eqb_eq a b : ptype_eqb a b = true <-> a = b.
Proof. destruct a, b; simpl; split; congruence. Qed.

Lemma set_typed_reject t f s n : fst (set_typed t f s n) <> 0%Z -> fst (set_typed t f s n) = (-1)%Z /\ snd (set_typed t f s n) = s.
Proof. unfold set_typed. destruct (get_entry n (decls s)) as [p|]; simpl; auto. destruct (ptype_eqb _ _); simpl; auto. congruence. Qed.
Lemma set_typed_ok t f s n : fst (set_typed t f s n) = 0%Z <-> exists p, get_entry n (decls s) = Some p /\ p_type p = t.
Proof.
  unfold set_typed. destruct (get_entry n (decls s)) as [p|]; simpl.
  - destruct (ptype_eqb (p_type p) t) eqn:E; simpl.
    + apply ptype_eqb_eq in E. split; eauto.
    + split; [discriminate|]. intros (q & H & T). injection H as <-. apply ptype_eqb_eq in T. congruence.
  - split; [discriminate|]. intros (q & H & T). discriminate.
Qed.

Lemma set_typed_same t f s n : (forall q, p_name (f q) = p_name q) -> fst (set_typed t f s n) = 0%Z ->
  exists p, get_entry n (decls s) = Some p /\ p_type p = t /\ get_entry n (decls (snd (set_typed t f s n))) = Some (f p).
Proof.
  intros F H. apply set_typed_ok in H as (p & E & T). exists p. split; auto. split; auto.
  unfold set_typed. rewrite E, T. replace (ptype_eqb t t) with true by (symmetry; apply ptype_eqb_eq; auto). simpl.
  apply upd_same; auto. intros q. apply name_matches; auto.
Qed.
Lemma set_typed_frame t f s n m : (forall q, p_name (f q) = p_name q) ->
  (forall p, In p (decls s) -> refers n (p_name p) -> refers m (p_name p) -> False) ->
  get_entry m (decls (snd (set_typed t f s n))) = get_entry m (decls s).
Proof.
  intros F D. unfold set_typed. destruct (get_entry n (decls s)) as [p|] eqn:E; simpl; auto.
  destruct (ptype_eqb (p_type p) t); simpl; auto. apply upd_other.
  - intros q. apply name_matches; auto.
  - intros q I A B. eapply D; eauto; apply matches_refers; auto.
Qed.

(** All observations of one name. *)
Definition same_obs (s s' : pstate) (m : string) : Prop :=
  get_int s' m = get_int s m /\ get_double s' m = get_double s m /\ get_string s' m = get_string s m /\ get_bool s' m = get_bool s m /\
  get_as_string C s' m = get_as_string C s m /\ get_parameter m (decls s') = get_parameter m (decls s).
Lemma obs_entry s s' m : get_entry m (decls s') = get_entry m (decls s) -> same_obs s s' m.
Proof. unfold same_obs, get_int, get_double, get_string, get_bool, get_typed, get_as_string, get_parameter. intros ->. auto 10. Qed.

Definition setter_ty (v : tval) : ptype :=
  match v with VInt _ => PARAM_TYPE_INTEGER | VDouble _ => PARAM_TYPE_DOUBLE | VString _ => PARAM_TYPE_STRING | VBool _ => PARAM_TYPE_BOOL end.
Definition setter_f (v : tval) : param -> param :=
  match v with VInt z => put_int C z | VDouble q => put_double C q | VString x => put_string x | VBool b => put_bool b end.
Lemma set_val_typed s n v : set_val C s n v = set_typed (setter_ty v) (setter_f v) s n.
Proof. destruct v; reflexivity. Qed.
Lemma setter_name v q : p_name (setter_f v q) = p_name q.
Proof. destruct v; reflexivity. Qed.
Lemma setter_type v q : p_type (setter_f v q) = p_type q.
Proof. destruct v; reflexivity. Qed.

Definition val_of (p : param) : option tval :=
  match p_type p with PARAM_TYPE_INTEGER => Some (VInt (v_int (p_val p))) | PARAM_TYPE_DOUBLE => Some (VDouble (v_double (p_val p)))
  | PARAM_TYPE_STRING => Some (VString (v_string (p_val p))) | PARAM_TYPE_BOOL => Some (VBool (v_bool (p_val p))) | PARAM_TYPE_NONE => None end.
Lemma lookup_entry s n : lookup s n = match get_entry n (decls s) with Some p => val_of p | None => None end.
Proof.
  unfold lookup, get_int, get_double, get_string, get_bool, get_typed, val_of. destruct (get_entry n (decls s)) as [p|]; auto.
  destruct (p_type p); reflexivity.
Qed.

Lemma set_get s n v : fst (set_val C s n v) = 0%Z -> lookup (snd (set_val C s n v)) n = Some v.
Proof.
  rewrite set_val_typed. intros H. apply (set_typed_same _ _ s n (setter_name v)) in H. destruct H as (p & E & T & G).
  rewrite lookup_entry, G. unfold val_of. rewrite setter_type, T. destruct v; reflexivity.
Qed.
Definition text_of (v : tval) : string :=
  match v with VInt z => itoa C z | VDouble q => dtoa C q | VString x => x | VBool b => if b then "true" else "false" end.
Lemma set_get_text s n v : fst (set_val C s n v) = 0%Z ->
  get_as_string C (snd (set_val C s n v)) n = text_of v /\ get_parameter n (decls (snd (set_val C s n v))) = Some (text_of v).
Proof.
  rewrite set_val_typed. intros H. apply (set_typed_same _ _ s n (setter_name v)) in H. destruct H as (p & E & T & G).
  unfold get_as_string, get_parameter. rewrite G, setter_type, T. destruct v; split; reflexivity.
Qed.

Lemma as_string_typed s n v : lookup s n = Some v -> get_as_string C s n = text_of v.
Proof.
  rewrite lookup_entry. unfold get_as_string, val_of. destruct (get_entry n (decls s)) as [p|]; [|discriminate].
  destruct (p_type p); intros H; try discriminate; injection H as <-; reflexivity.
Qed.

Lemma set_ok_lookup s n v : fst (set_val C s n v) = 0%Z <-> exists w, lookup s n = Some w /\ same_type w v = true.
Proof.
  rewrite set_val_typed, set_typed_ok, lookup_entry. split.
  - intros (p & -> & T). unfold val_of. rewrite T. destruct v; simpl; eauto.
  - intros (w & H & S). destruct (get_entry n (decls s)) as [p|]; [|discriminate]. exists p. split; auto.
    unfold val_of in H. destruct (p_type p), w, v; simpl in *; congruence.
Qed.
Lemma set_reject s n v : fst (set_val C s n v) <> 0%Z -> fst (set_val C s n v) = (-1)%Z /\ snd (set_val C s n v) = s.
Proof. rewrite set_val_typed. apply set_typed_reject. Qed.
Lemma set_frame s n m v : (forall p, In p (decls s) -> refers n (p_name p) -> refers m (p_name p) -> False) -> same_obs s (snd (set_val C s n v)) m.
Proof. intros D. apply obs_entry. rewrite set_val_typed. apply set_typed_frame; auto using setter_name. Qed.

(** Refinement to the abstract map. *)
Lemma plain_refers n d : plain d -> (refers n d <-> strip n = d).
Proof.
  unfold plain, refers. intros P. split.
  - intros [->| ->]; auto.
  - intros <-. destruct n as [|c r]; simpl; auto. unfold strip in *. destruct c as [[] [] [] [] [] [] [] []]; auto.
Qed.
Lemma strip_matches n p : plain (p_name p) -> matches n p = String.eqb (p_name p) (strip n).
Proof.
  intros P. destruct (matches n p) eqn:E.
  - apply matches_refers, plain_refers in E; auto. symmetry. apply String.eqb_eq. auto.
  - symmetry. apply String.eqb_neq. intros H. assert (matches n p = true); [|congruence]. apply matches_refers, plain_refers; auto.
Qed.
Lemma get_entry_strip n l : (forall p, In p l -> plain (p_name p)) -> get_entry n l = find (fun p => String.eqb (p_name p) (strip n)) l.
Proof.
  induction l as [|p l IH]; simpl; intros P; auto. rewrite strip_matches by auto. destruct (String.eqb _ _); auto.
Qed.

Definition absn (s : pstate) : amap := fun k => match find (fun p => String.eqb (p_name p) k) (decls s) with Some p => val_of p | None => None end.
Lemma lookup_abs s n : (forall p, In p (decls s) -> plain (p_name p)) -> lookup s n = absn s (strip n).
Proof. intros P. rewrite lookup_entry, get_entry_strip by auto. reflexivity. Qed.

Lemma plain_set s n v : (forall p, In p (decls s) -> plain (p_name p)) -> forall p, In p (decls (snd (set_val C s n v))) -> plain (p_name p).
Proof.
  intros P p I. rewrite set_val_typed in I.
  assert (F : Forall2 same_decl (decls (snd (set_typed (setter_ty v) (setter_f v) s n))) (decls s)).
  { apply set_shape. intros q. unfold same_decl. destruct v; simpl; auto. }
  clear -P I F. induction F as [|a b l l' H F IH]; [contradiction|]. destruct I as [<-|I]; simpl in *; auto.
  destruct H as [-> _]. auto.
Qed.

Lemma find_upd f n l k : (forall q, p_name (f q) = p_name q) -> (forall p, In p l -> plain (p_name p)) ->
  find (fun p => String.eqb (p_name p) k) (upd_entry n f l) =
  if String.eqb k (strip n) then option_map f (find (fun p => String.eqb (p_name p) k) l) else find (fun p => String.eqb (p_name p) k) l.
Proof.
  intros F P. induction l as [|p l IH]; simpl; [destruct (String.eqb k _); auto|].
  rewrite strip_matches by (apply P; simpl; auto).
  destruct (String.eqb_spec (p_name p) (strip n)) as [E|E]; simpl.
  - rewrite F, E. rewrite (String.eqb_sym (strip n) k). destruct (String.eqb k (strip n)) eqn:K; auto.
  - destruct (String.eqb_spec (p_name p) k) as [E2|E2].
    + destruct (String.eqb_spec k (strip n)); [congruence|auto].
    + apply IH. intros; apply P; simpl; auto.
Qed.

Lemma set_refines s n v : (forall p, In p (decls s) -> plain (p_name p)) ->
  fst (set_val C s n v) = fst (aset (absn s) n v) /\ forall k, absn (snd (set_val C s n v)) k = snd (aset (absn s) n v) k.
Proof.
  intros P. rewrite set_val_typed. unfold set_typed, aset. rewrite get_entry_strip by auto.
  assert (AN : absn s (strip n) = match find (fun p => String.eqb (p_name p) (strip n)) (decls s) with Some p => val_of p | None => None end) by reflexivity.
  rewrite AN. destruct (find (fun p => String.eqb (p_name p) (strip n)) (decls s)) as [p|] eqn:E; simpl; [|auto].
  assert (G : match val_of p with Some w => same_type w v | None => false end = ptype_eqb (p_type p) (setter_ty v)).
  { unfold val_of. destruct (p_type p), v; reflexivity. }
  destruct (ptype_eqb (p_type p) (setter_ty v)) eqn:T.
  - destruct (val_of p) as [w|] eqn:W; [|discriminate]. rewrite G. simpl. split; auto. intros k.
    unfold absn. simpl. rewrite find_upd by auto using setter_name.
    destruct (String.eqb_spec k (strip n)) as [->|N]; auto. rewrite E. simpl. unfold val_of. rewrite setter_type.
    apply ptype_eqb_eq in T. rewrite T. destruct v; reflexivity.
  - destruct (val_of p) as [w|]; [rewrite G|]; simpl; auto.
Qed.

Lemma aset_ext m m' n v : (forall k, m k = m' k) -> fst (aset m n v) = fst (aset m' n v) /\ forall k, snd (aset m n v) k = snd (aset m' n v) k.
Proof.
  intros E. unfold aset. rewrite E. destruct (m' (strip n)) as [w|]; simpl; auto. destruct (same_type w v); simpl; auto.
  split; auto. intros k. destruct (String.eqb _ _); auto.
Qed.
Lemma asets_ext l : forall m m', (forall k, m k = m' k) -> fst (asets l m) = fst (asets l m') /\ forall k, snd (asets l m) k = snd (asets l m') k.
Proof.
  induction l as [|[n v] l IH]; intros m m' E; simpl; auto. destruct (aset_ext m m' n v E) as [A B].
  destruct (aset m n v) as [r m1], (aset m' n v) as [r' m1']. simpl in *. destruct (IH m1 m1' B) as [A2 B2].
  destruct (asets l m1), (asets l m1'). simpl in *. subst. auto.
Qed.
Lemma sets_refine l : forall s, (forall p, In p (decls s) -> plain (p_name p)) ->
  fst (sets C l s) = fst (asets l (absn s)) /\ forall k, lookup (snd (sets C l s)) k = snd (asets l (absn s)) (strip k).
Proof.
  induction l as [|[n v] l IH]; intros s P; simpl.
  - split; auto. intros k. apply lookup_abs; auto.
  - destruct (set_refines s n v P) as [A B]. pose proof (plain_set s n v P) as P1.
    destruct (set_val C s n v) as [r s1]. simpl in *. destruct (IH s1 P1) as [A1 B1].
    destruct (aset (absn s) n v) as [r' m1]. simpl in *. destruct (asets_ext l _ _ B) as [A2 B2].
    destruct (sets C l s1) as [rs s2]. destruct (asets l m1) as [rs' m2]. destruct (asets l (absn s1)) as [rs3 m3]. simpl in *.
    split; [congruence|]. intros k. rewrite B1, B2. auto.
Qed.
Lemma lookup_absn s : (forall p, In p (decls s) -> plain (p_name p)) -> forall k, plain k -> absn s k = lookup s k.
Proof. intros P k K. rewrite lookup_abs by auto. unfold plain in K. congruence. Qed.

Lemma by_string_ok s n x p : get_entry n (decls s) = Some p -> p_type p <> PARAM_TYPE_NONE ->
  fst (set_by_string C s n x) = 0%Z /\
  lookup (snd (set_by_string C s n x)) n =
    Some (match p_type p with PARAM_TYPE_INTEGER => VInt (strtoi C x) | PARAM_TYPE_DOUBLE => VDouble (strtod C x)
          | PARAM_TYPE_BOOL => VBool (String.eqb x "true") | _ => VString x end) /\
  get_parameter n (decls (snd (set_by_string C s n x))) = Some x.
Proof.
  intros E N. unfold set_by_string. rewrite E. simpl. split; [destruct (p_type p); auto; congruence|].
  rewrite lookup_entry. unfold get_parameter. simpl.
  match goal with |- context [upd_entry n ?f (decls s)] => set (g := f) end.
  assert (F : forall q, p_name (g q) = p_name q) by (intros q; unfold g; destruct (p_type q); auto).
  rewrite (upd_same n g _ p E) by (intros q; apply name_matches; auto).
  unfold g, val_of. destruct (p_type p) eqn:T; simpl; rewrite ?T; auto; congruence.
Qed.
Lemma by_string_unknown s n x : get_entry n (decls s) = None -> set_by_string C s n x = ((-1)%Z, s).
Proof. unfold set_by_string. intros ->. auto. Qed.
Lemma by_string_frame s n m x : (forall p, In p (decls s) -> refers n (p_name p) -> refers m (p_name p) -> False) ->
  same_obs s (snd (set_by_string C s n x)) m.
Proof.
  intros D. apply obs_entry. unfold set_by_string. destruct (get_entry n (decls s)); simpl; auto.
  apply upd_other; [intros q; apply name_matches; destruct (p_type q); auto|].
  intros p0 I A B. eapply D; eauto; apply matches_refers; auto.
Qed.

(** No declaration ever has type NONE. *)
Lemma type_of_not_none ts : type_of ts <> Some PARAM_TYPE_NONE.
Proof. unfold type_of. repeat (destruct (_ || _) || destruct (String.eqb _ _)); discriminate. Qed.
Lemma papply_types o s s' : (forall p, In p (decls s) -> p_type p <> PARAM_TYPE_NONE) -> papply C o s = Some s' ->
  forall p, In p (decls s') -> p_type p <> PARAM_TYPE_NONE.
Proof.
  intros T H.
  assert (DS : (match o with OSetInt _ _ | OSetDouble _ _ | OSetString _ _ | OSetBool _ _ | OByString _ _ | OSetParameter _ _ => True | _ => False end) ->
          forall p, In p (decls s') -> p_type p <> PARAM_TYPE_NONE).
  { intros Q. destruct (set_op_shape o s s' Q H) as [_ F]. clear -F T. induction F as [|a b l l' H F IH]; intros p I; [contradiction|].
    destruct I as [<-|I]; simpl in *; auto. destruct H as (_ & -> & _). auto. }
  destruct o as [xs| | |n v|n z|n d|n x|n b|n x|n x]; try (apply DS; exact Logic.I); simpl in H.
  - unfold add_decls in H. destruct (parse_decls C _ xs _) as [l|] eqn:P; [|discriminate]. injection H as <-. simpl. clear DS.
    revert P. generalize (assigns s). intros a. revert T. generalize (decls s). induction xs as [|x xs IH]; intros l0 T P; simpl in P.
    + injection P as <-. auto.
    + destruct (make_param C false l0 a x) as [p|] eqn:M; [|discriminate]. eapply IH; [|eauto].
      intros q I. assert (p_type p <> PARAM_TYPE_NONE).
      { unfold make_param in M. destruct (read_attribute C l0 (x_value x)); [|discriminate]. destruct (x_type x) as [ts|]; [|discriminate].
        destruct (type_of ts) as [t|] eqn:E; [|discriminate]. injection M as <-. simpl. intros ->. eapply type_of_not_none; eauto. }
      unfold insert_param in I. destruct (find _ l0) as [q'|]; [destruct (p_dirty q')|]; simpl in I; try (destruct I as [<-|I]); auto.
  - injection H as <-. auto.
  - unfold restore_decls in H. destruct (sizes s) as [|t r]; [injection H as <-; auto|].
    destruct (Nat.ltb _ t); [discriminate|]. injection H as <-. simpl. intros p I. apply T.
    rewrite <- (firstn_skipn (List.length (decls s) - t)). apply in_or_app. auto.
  - injection H as <-. auto.
Qed.
Lemma papplies_types os s s' : (forall p, In p (decls s) -> p_type p <> PARAM_TYPE_NONE) -> papplies C os s = Some s' ->
  forall p, In p (decls s') -> p_type p <> PARAM_TYPE_NONE.
Proof.
  revert s; induction os as [|o os IH]; intros s T H; simpl in H; [injection H as <-; auto|].
  destruct (papply C o s) as [s1|] eqn:E; [|discriminate]. eapply IH; [|eauto]. eapply papply_types; eauto.
Qed.
End S.

(** ** Substitution in strings *)

(** A string as text and parameter references. *)
Inductive token := Text (x : string) | Ref (name : string).
Fixpoint all_chars (f : ascii -> bool) (s : string) : bool := match s with EmptyString => true | String c r => f c && all_chars f r end.
Definition no_dollar (s : string) : Prop := all_chars (fun c => negb (Ascii.eqb c "$")) s = true.
Definition no_delim (s : string) : Prop := all_chars (fun c => negb (is_delim c)) s = true.
Fixpoint render (ts : list token) : string :=
  match ts with [] => "" | Text x :: r => (x ++ render r)%string | Ref n :: r => (String "$" n ++ render r)%string end.
(** Texts contain no '$', names no delimiter, and a reference is followed by a delimiter or the end. *)
Fixpoint well_formed (ts : list token) : Prop :=
  match ts with
  | [] => True
  | Text x :: r => no_dollar x /\ well_formed r
  | Ref n :: r => no_delim n /\ well_formed r /\ match render r with EmptyString => True | String c _ => is_delim c = true end
  end.
(** Each reference replaced by its value, texts kept; [None] when a reference is unknown. *)
Fixpoint substitute (val : string -> option string) (ts : list token) : option string :=
  match ts with
  | [] => Some ""
  | Text x :: r => option_map (fun y => (x ++ y)%string) (substitute val r)
  | Ref n :: r => match val n, substitute val r with Some v, Some y => Some (v ++ y)%string | _, _ => None end
  end.
Fixpoint dollars (s : string) : nat := match s with EmptyString => 0 | String c r => (if Ascii.eqb c "$" then 1 else 0) + dollars r end.

Lemma app_assoc_s a b c : ((a ++ b) ++ c)%string = (a ++ (b ++ c))%string.
Proof. induction a; simpl; auto. rewrite IHa; auto. Qed.
Lemma app_nil_s a : (a ++ "")%string = a.
Proof. induction a; simpl; auto. rewrite IHa; auto. Qed.
Lemma dollars_app a b : dollars (a ++ b)%string = dollars a + dollars b.
Proof. induction a; simpl; auto. rewrite IHa. lia. Qed.
Lemma no_dollar_count s : no_dollar s <-> dollars s = 0.
Proof.
  unfold no_dollar. induction s as [|c s IH]; simpl; [tauto|]. destruct (Ascii.eqb c "$"); simpl; [split; [discriminate|lia]|auto].
Qed.
Lemma split_some s a b : split_dollar s = Some (a, b) -> s = (a ++ b)%string /\ dollars a = 0 /\ exists r, b = String "$" r.
Proof.
  revert a; induction s as [|c s IH]; simpl; intros a H; [discriminate|].
  destruct (Ascii.eqb_spec c "$") as [->|N].
  - injection H as <- <-. simpl; eauto.
  - destruct (split_dollar s) as [[x y]|]; [|discriminate]. injection H as <- <-. destruct (IH x eq_refl) as (-> & D & R).
    simpl. split; auto. split; auto. apply Ascii.eqb_neq in N. rewrite N. auto.
Qed.
Lemma split_none s : split_dollar s = None -> dollars s = 0.
Proof.
  induction s as [|c s IH]; simpl; auto. destruct (Ascii.eqb c "$"); [discriminate|]. destruct (split_dollar s) as [[]|]; [discriminate|auto].
Qed.
Lemma split_pre a b : dollars a = 0 -> split_dollar (a ++ b)%string = match split_dollar b with Some (x, y) => Some ((a ++ x)%string, y) | None => None end.
Proof.
  induction a as [|c a IH]; simpl; intros H; [destruct (split_dollar b) as [[]|]; auto|].
  destruct (Ascii.eqb c "$"); [simpl in H; lia|]. rewrite IH by auto. destruct (split_dollar b) as [[]|]; auto.
Qed.
Lemma span_app s a b : span_name s = (a, b) -> s = (a ++ b)%string.
Proof.
  revert a b; induction s as [|c s IH]; simpl; intros a b H; [injection H as <- <-; auto|].
  destruct (is_delim c); [injection H as <- <-; auto|]. destruct (span_name s) as [x y]. injection H as <- <-. rewrite (IH x y); auto.
Qed.
Lemma span_dollar r a b : span_name (String "$" r) = (a, b) -> dollars b < dollars (String "$" r).
Proof.
  simpl. destruct (span_name r) as [x y] eqn:E. intros H; injection H as <- <-. apply span_app in E. subst. rewrite dollars_app. lia.
Qed.

Lemma get_parameter_in n l v : get_parameter n l = Some v -> exists p, In p l /\ v_string (p_val p) = v.
Proof. unfold get_parameter. destruct (get_entry n l) as [p|] eqn:E; [|discriminate]. apply get_entry_in in E. intros H; injection H as <-. destruct E; eauto. Qed.

Lemma resolve_terminates l : (forall p, In p l -> no_dollar (v_string (p_val p))) ->
  forall fuel str, dollars str <= fuel -> resolve_string fuel l str <> inr true.
Proof.
  intros V. induction fuel as [|n IH]; intros str L; simpl.
  - destruct (split_dollar str) as [[a b]|] eqn:E; [|discriminate]. apply split_some in E. destruct E as (-> & _ & r & ->).
    rewrite dollars_app in L. simpl in L. lia.
  - destruct (split_dollar str) as [[a b]|] eqn:E; [|discriminate]. apply split_some in E. destruct E as (-> & Da & r & ->).
    destruct (span_name (String "$" r)) as [name post] eqn:Sp. apply span_dollar in Sp.
    destruct (get_parameter name l) as [v|] eqn:G; [|discriminate]. apply IH.
    apply get_parameter_in in G. destruct G as (p & I & <-). pose proof (proj1 (no_dollar_count _) (V p I)) as D.
    rewrite !dollars_app in *. lia.
Qed.

Lemma span_ref n r : no_delim n -> match r with EmptyString => True | String c _ => is_delim c = true end -> span_name (n ++ r)%string = (n, r).
Proof.
  unfold no_delim. induction n as [|c n IH]; simpl; intros H R.
  - destruct r as [|d r]; simpl; auto. rewrite R. auto.
  - apply andb_prop in H. destruct H as [H1 H2]. apply negb_true_iff in H1. rewrite H1, IH; auto.
Qed.

Lemma resolve_tokens l : (forall p, In p l -> no_dollar (v_string (p_val p))) ->
  forall ts pre fuel, well_formed ts -> dollars pre = 0 -> dollars (render ts) <= fuel ->
  resolve_string fuel l (pre ++ render ts)%string =
  match substitute (fun n => get_parameter (String "$" n) l) ts with Some y => inl (pre ++ y)%string | None => inr false end.
Proof.
  intros V. induction ts as [|[x|n] ts IH]; intros pre fuel W P F; simpl in *.
  - destruct fuel; simpl; rewrite split_pre by auto; reflexivity.
  - destruct W as [Wx W]. apply no_dollar_count in Wx. rewrite dollars_app in F.
    rewrite <- app_assoc_s, IH; auto; [|rewrite dollars_app; lia|lia].
    destruct (substitute _ ts); simpl; auto. rewrite app_assoc_s. auto.
  - destruct W as (Wn & W & Wr). destruct fuel as [|fuel]; [lia|]. cbn [resolve_string]. rewrite split_pre by auto. simpl split_dollar. cbn iota beta.
    rewrite app_nil_s.
    assert (Sp : span_name (String "$" (n ++ render ts)) = (String "$" n, render ts)) by (cbn [span_name]; rewrite span_ref; auto).
    rewrite Sp. destruct (get_parameter (String "$" n) l) as [v|] eqn:G; [|reflexivity].
    apply get_parameter_in in G. destruct G as (p & I & <-). pose proof (proj1 (no_dollar_count _) (V p I)) as D.
    rewrite <- app_assoc_s, IH; auto; [|rewrite dollars_app; lia|rewrite dollars_app in F; lia].
    destruct (substitute _ ts); simpl; auto. rewrite app_assoc_s. auto.
Qed.

Definition loop_param : param := mkP "a" PARAM_TYPE_STRING (mkV 0 0 "x$a" false) false false.
Lemma resolve_loops fuel : forall pre, dollars pre = 0 -> resolve_string fuel [loop_param] (pre ++ "$a")%string = inr true.
Proof.
  induction fuel as [|n IH]; intros pre P; cbn [resolve_string]; rewrite split_pre by auto; simpl split_dollar; cbn iota beta; auto.
  rewrite app_nil_s. change (span_name "$a") with ("$a", ""). cbn iota beta.
  change (get_parameter "$a" [loop_param]) with (Some "x$a"). cbn iota beta.
  change ("x$a" ++ "")%string with ("x" ++ "$a")%string. rewrite <- app_assoc_s. apply IH. rewrite dollars_app, P. reflexivity.
Qed.
