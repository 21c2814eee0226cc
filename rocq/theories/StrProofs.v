(** Specification and lemmas for strings and paths. *)
From Coq Require Import List Ascii Arith Bool Lia Permutation.
From Verif Require Import StrModel.
Import ListNotations.

(** ** Specification *)

(** Joining parts with a delimiter. *)
Fixpoint join (d : ascii) (parts : list str) : str :=
  match parts with
  | [] => []
  | [p] => p
  | p :: r => p ++ d :: join d r
  end.

(** The fields of a string separated by the characters satisfying [sep]. *)
Fixpoint fields (sep : ascii -> bool) (s : str) : list str :=
  match s with
  | [] => [[]]
  | c :: r =>
      if sep c then [] :: fields sep r
      else match fields sep r with [] => [[c]] | h :: t => (c :: h) :: t end
  end.

Definition separator (c : ascii) : Prop := c = "/"%char \/ c = "\"%char.

Definition separatorb (c : ascii) : bool := Ascii.eqb c "/"%char || Ascii.eqb c "\"%char.

(** The components of a path that mean something: neither empty nor ".". *)
Definition meaningful (s : str) : bool :=
  match s with [] => false | [c] => negb (Ascii.eqb c "."%char) | _ => true end.

Definition components (p : str) : list str := filter meaningful (fields separatorb p).

Definition absolute (p : str) : bool := match p with [] => false | c :: _ => separatorb c end.

Definition dotdot : str := ["."%char; "."%char].

(** A directory tree: [child] is partial, every child has its directory as parent, the root is its own parent. *)
Record tree := mkTree {
  node : Type;
  root : node;
  child : node -> str -> option node;
  parent : node -> node;
  child_parent : forall n s m, child n s = Some m -> parent m = n;
  root_parent : parent root = root }.

Fixpoint walk (T : tree) (n : node T) (l : list str) : option (node T) :=
  match l with
  | [] => Some n
  | s :: r =>
      if list_eq_dec ascii_dec s dotdot then walk T (parent T n) r
      else match child T n s with None => None | Some m => walk T m r end
  end.

(** What a path denotes, seen from the working directory [cwd]. *)
Definition resolve (T : tree) (cwd : node T) (p : str) : option (node T) :=
  walk T (if absolute p then root T else cwd) (components p).

(** A file or directory name proper. *)
Definition name (s : str) : Prop :=
  s <> [] /\ s <> ["."%char] /\ s <> dotdot /\ forall c, In c s -> ~ separator c.

(** Canonical paths. *)
Inductive canonical : str -> Prop :=
| can_abs : forall ns, Forall name ns -> canonical ("/"%char :: join "/"%char ns)
| can_rel : forall k ns, Forall name ns -> (0 < k \/ ns <> []) ->
    canonical (join "/"%char (repeat dotdot k ++ ns))
| can_here : canonical ["."%char].

(** ** Basics *)

Lemma str_eqb_eq : forall a b, str_eqb a b = true <-> a = b.
Proof.
  induction a as [|x a IH]; intros [|y b]; simpl; split; intro H; try discriminate; auto.
  - apply andb_true_iff in H as [H1 H2]. apply Ascii.eqb_eq in H1. apply IH in H2. now subst.
  - injection H as -> ->. rewrite Ascii.eqb_refl. now apply IH.
Qed.

Lemma str_eqb_neq : forall a b, str_eqb a b = false <-> a <> b.
Proof.
  intros a b. rewrite <- str_eqb_eq. destruct (str_eqb a b); split; intro H; auto; try discriminate.
  now elim H.
Qed.

Lemma find_some : forall c l e, find_char c l = Some e ->
  l = firstn e l ++ c :: skipn (S e) l /\ ~ In c (firstn e l) /\ e < length l.
Proof.
  intros c. induction l as [|x l IH]; simpl; intros e H; [discriminate|].
  destruct (Ascii.eqb x c) eqn:E.
  - injection H as <-. apply Ascii.eqb_eq in E. subst. simpl. repeat split; auto; lia.
  - destruct (find_char c l) as [k|] eqn:F; [|discriminate]. injection H as <-.
    destruct (IH k eq_refl) as (A & B & C). simpl. repeat split.
    + now rewrite A at 1.
    + intros [->|I]; [rewrite Ascii.eqb_refl in E; discriminate|tauto].
    + lia.
Qed.

Lemma find_none : forall c l, find_char c l = None <-> ~ In c l.
Proof.
  intros c. induction l as [|x l IH]; simpl; [tauto|].
  destruct (Ascii.eqb x c) eqn:E.
  - apply Ascii.eqb_eq in E. subst. split; [discriminate|tauto].
  - destruct (find_char c l) eqn:F; simpl; split; intro H; try discriminate; auto.
    + elim H. right. destruct (in_dec ascii_dec c l); auto. now apply IH in n0.
    + intros [->|I]; [rewrite Ascii.eqb_refl in E; discriminate|]. now apply IH in I.
Qed.

Lemma find_app : forall c p r, ~ In c p -> find_char c (p ++ c :: r) = Some (length p).
Proof.
  intros c. induction p as [|x p IH]; simpl; intros r H; [now rewrite Ascii.eqb_refl|].
  destruct (Ascii.eqb x c) eqn:E; [apply Ascii.eqb_eq in E; subst; tauto|].
  rewrite IH; auto.
Qed.

Lemma firstn_len_app : forall A (p r : list A), firstn (length p) (p ++ r) = p.
Proof. intros. rewrite firstn_app, Nat.sub_diag, firstn_all. simpl. apply app_nil_r. Qed.

Lemma skipn_len_app : forall A (p : list A) x r, skipn (S (length p)) (p ++ x :: r) = r.
Proof. induction p; simpl; auto. Qed.

(** ** SplitString *)

Lemma split_loop_total : forall d n l, length l < n -> exists r, split_loop n d l = Some r /\ r <> [].
Proof.
  intros d. induction n as [|n IH]; intros l H; [lia|]. cbn [split_loop].
  destruct (find_char d l) as [e|] eqn:F.
  - apply find_some in F as (A & B & C).
    destruct (IH (skipn (S e) l)) as (r & R & _); [rewrite skipn_length; lia|].
    rewrite R. cbn. eexists; split; eauto. discriminate.
  - eexists; split; eauto. discriminate.
Qed.

Lemma join_cons : forall d p r, r <> [] -> join d (p :: r) = p ++ d :: join d r.
Proof. intros d p [|a r] H; [tauto|reflexivity]. Qed.

Lemma split_loop_join : forall d n l r, split_loop n d l = Some r ->
  join d r = l /\ Forall (fun p => ~ In d p) r /\ r <> [].
Proof.
  intros d. induction n as [|n IH]; intros l r H; [discriminate|]. cbn [split_loop] in H.
  destruct (find_char d l) as [e|] eqn:F.
  - apply find_some in F as (A & B & C).
    destruct (split_loop n d (skipn (S e) l)) as [r'|] eqn:R; [|discriminate].
    cbn [option_map] in H. injection H as <-.
    destruct (IH _ _ R) as (J & N & NE). repeat split; auto; [|discriminate].
    rewrite join_cons, J; auto.
  - injection H as <-. apply find_none in F. repeat split; auto. discriminate.
Qed.

Lemma join_unique : forall d a b, Forall (fun p => ~ In d p) a -> Forall (fun p => ~ In d p) b ->
  a <> [] -> b <> [] -> join d a = join d b -> a = b.
Proof.
  intros d. induction a as [|x a IH]; intros [|y b] HA HB NA NB J; try tauto.
  inversion HA as [|? ? X HA']; inversion HB as [|? ? Y HB']; subst.
  destruct a as [|x' a]; destruct b as [|y' b].
  - simpl in J. now subst.
  - elim X. simpl in J. rewrite J. apply in_or_app. right. now left.
  - elim Y. simpl in J. rewrite <- J. apply in_or_app. right. now left.
  - rewrite (join_cons d x), (join_cons d y) in J by discriminate.
    assert (E : x = y).
    { pose proof (find_app d x (join d (x' :: a)) X) as FX.
      pose proof (find_app d y (join d (y' :: b)) Y) as FY.
      rewrite J, FY in FX. injection FX as L.
      rewrite <- (firstn_len_app _ x (d :: join d (x' :: a))), J, <- L. apply firstn_len_app. }
    subst y. f_equal. apply IH; auto; try discriminate.
    apply app_inv_head in J. now injection J.
Qed.

Lemma split_total : forall s d, exists r, SplitString s d = Some r.
Proof.
  intros [|c s] d; simpl; [eauto|].
  destruct (split_loop_total d (S (length (c :: s))) (c :: s)) as (r & H & _); [auto|].
  exists r. exact H.
Qed.

Lemma split_spec : forall s d r, SplitString s d = Some r ->
  join d r = s /\ Forall (fun p => ~ In d p) r /\ (s <> [] -> r <> []).
Proof.
  intros [|c s] d r H.
  - simpl in H. injection H as <-. repeat split; auto.
  - apply split_loop_join in H. intuition.
Qed.

Lemma split_unique : forall s d parts, s <> [] -> parts <> [] -> Forall (fun p => ~ In d p) parts -> join d parts = s ->
  SplitString s d = Some parts.
Proof.
  intros s d parts NS NP F J. destruct (split_total s d) as (r & R).
  destruct (split_spec _ _ _ R) as (J2 & F2 & N2). rewrite R. f_equal.
  apply (join_unique d); auto. congruence.
Qed.

(** ** SplitQuotedString *)

Lemma quoted_total_loop : forall d n l, length l < n -> exists r, quoted_loop n d l = Some r.
Proof.
  intros d. induction n as [|n IH]; intros l H; [lia|]. cbn [quoted_loop].
  destruct (find_char quote l) as [q|] eqn:F; [|apply split_total].
  destruct (find_char quote (skipn (S q) l)) as [e|] eqn:G; [|apply split_total].
  apply find_some in F as (A & B & C). apply find_some in G as (A' & B' & C').
  rewrite skipn_length in C'.
  destruct (IH (skipn (S e) (skipn (S q) l))) as (r & R).
  { rewrite !skipn_length. lia. }
  rewrite R. cbn. eauto.
Qed.

Lemma quoted_total : forall s d, exists r, SplitQuotedString s d = Some r.
Proof.
  intros [|c s] d; [simpl; eauto|]. apply (quoted_total_loop d (S (length (c :: s))) (c :: s)). auto.
Qed.

(** A sequence of quoted words with separating text which is not quoted, followed by a tail. *)
Fixpoint quoted_text (l : list (str * str)) (tail : str) : str :=
  match l with
  | [] => tail
  | (gap, w) :: r => gap ++ quote :: w ++ quote :: quoted_text r tail
  end.

Lemma quoted_loop_words : forall d l tail n,
  Forall (fun gw => ~ In quote (fst gw) /\ ~ In quote (snd gw)) l -> ~ In quote tail ->
  length (quoted_text l tail) < n ->
  quoted_loop n d (quoted_text l tail) = option_map (app (map snd l)) (SplitString tail d).
Proof.
  intros d. induction l as [|[g w] l IH]; intros tail n F T H.
  - simpl in *. destruct n as [|n]; [lia|]. cbn [quoted_loop].
    apply find_none in T. rewrite T. now destruct (SplitString tail d).
  - inversion F as [|? ? [G W] F']; subst. simpl in G, W. cbn [quoted_text] in *.
    destruct n as [|n]; [lia|]. cbn [quoted_loop].
    rewrite (find_app quote g) by exact G. rewrite skipn_len_app.
    rewrite (find_app quote w) by exact W. rewrite skipn_len_app, firstn_len_app.
    rewrite !app_length in H. simpl in H. rewrite app_length in H. simpl in H.
    rewrite IH by (auto; lia). destruct (SplitString tail d); reflexivity.
Qed.

Lemma quoted_words : forall d l tail,
  Forall (fun gw => ~ In quote (fst gw) /\ ~ In quote (snd gw)) l -> ~ In quote tail ->
  SplitQuotedString (quoted_text l tail) d = option_map (app (map snd l)) (SplitString tail d).
Proof.
  intros d l tail F T. unfold SplitQuotedString.
  destruct (quoted_text l tail) eqn:E.
  - destruct l as [|[g w] l]; simpl in E; [|destruct g; discriminate]. subst. reflexivity.
  - rewrite <- E. apply quoted_loop_words; auto.
Qed.

(** ** getline *)

Lemma fields_nonempty : forall sep s, fields sep s <> [].
Proof.
  intros sep [|c s]; simpl; [discriminate|]. destruct (sep c); [discriminate|].
  destruct (fields sep s); discriminate.
Qed.

Lemma fields_app : forall sep p c r, Forall (fun x => sep x = false) p -> sep c = true ->
  fields sep (p ++ c :: r) = p :: fields sep r.
Proof.
  intros sep p c r F C. induction p as [|x p IH]; simpl; [now rewrite C|].
  inversion F; subst. rewrite H1, IH; auto.
Qed.

Lemma fields_plain : forall sep p, Forall (fun x => sep x = false) p -> fields sep p = [p].
Proof.
  induction p as [|x p IH]; simpl; intros F; auto. inversion F; subst. rewrite H1, IH; auto.
Qed.

Lemma notin_eqb : forall d p, ~ In d p -> Forall (fun x => Ascii.eqb x d = false) p.
Proof.
  intros d p H. apply Forall_forall. intros x I. apply Ascii.eqb_neq. intros ->. tauto.
Qed.

(** All the non-empty fields, in order; only a last empty field is missing. *)
Lemma getlines_fields : forall d n l, length l < n ->
  exists r, getlines n d l = Some r /\
    fields (fun x => Ascii.eqb x d) l = r ++ (if (match l with [] => true | _ => false end) || Ascii.eqb (last l zero) d && negb (match l with [] => true | _ => false end) then [[]] else []).
Proof.
  intros d. induction n as [|n IH]; intros l H; [lia|]. cbn [getlines].
  destruct l as [|c l]; [exists []; split; reflexivity|].
  destruct (find_char d (c :: l)) as [e|] eqn:F.
  - apply find_some in F as (A & B & C).
    destruct (IH (skipn (S e) (c :: l))) as (r & R & Q); [rewrite skipn_length; lia|].
    rewrite R. cbn [option_map]. eexists; split; [reflexivity|].
    rewrite A at 1. rewrite fields_app by (try apply notin_eqb; auto; apply Ascii.eqb_refl).
    rewrite Q. cbn [app]. f_equal. f_equal. rewrite A at 4.
    destruct (skipn (S e) (c :: l)) as [|y t] eqn:S.
    + rewrite last_last. rewrite Ascii.eqb_refl. reflexivity.
    + cbn [orb negb]. rewrite !andb_true_r. 
      replace (firstn e (c :: l) ++ d :: y :: t) with ((firstn e (c :: l) ++ [d]) ++ y :: t) by now rewrite <- app_assoc.
      assert (L : forall A (a b : list A) x, b <> [] -> last (a ++ b) x = last b x).
      { clear. induction a as [|z a IH]; intros b x NB; auto. simpl. destruct (a ++ b) eqn:E; [|rewrite <- E; apply IH; auto].
        apply app_eq_nil in E as [_ ->]. tauto. }
      rewrite L by discriminate. reflexivity.
  - eexists; split; [reflexivity|]. apply find_none in F. rewrite fields_plain by now apply notin_eqb.
    replace (Ascii.eqb (last (c :: l) zero) d) with false; [reflexivity|].
    symmetry. apply Ascii.eqb_neq. intros E. apply F. rewrite <- E.
    rewrite (app_removelast_last (l := c :: l) zero) at 2 by discriminate. apply in_or_app. right. now left.
Qed.

Lemma getlines_meaningful : forall d n l, length l < n ->
  exists r, getlines n d l = Some r /\ filter meaningful r = filter meaningful (fields (fun x => Ascii.eqb x d) l).
Proof.
  intros d n l H. destruct (getlines_fields d n l H) as (r & R & Q). exists r. split; auto.
  rewrite Q, filter_app. destruct (_ || _); simpl; now rewrite app_nil_r.
Qed.

Lemma fields_unify : forall s, fields (fun x => Ascii.eqb x slash) (unify s) = fields separatorb s.
Proof.
  induction s as [|c s IH]; auto. unfold unify in *. cbn [map fields]. rewrite IH.
  destruct (separatorb c) eqn:S.
  - unfold separatorb in S. replace (Ascii.eqb (if Ascii.eqb c backslash then slash else c) slash) with true; auto.
    symmetry. apply Ascii.eqb_eq. apply orb_true_iff in S as [S|S]; apply Ascii.eqb_eq in S; subst; reflexivity.
  - unfold separatorb in S. apply orb_false_iff in S as [S1 S2].
    unfold backslash, slash in *. rewrite S2, S1. reflexivity.
Qed.

Lemma absolute_unify : forall s, (match unify s with c :: _ => Ascii.eqb c slash | [] => false end) = absolute s.
Proof.
  intros [|c s]; auto. cbn. unfold separatorb, slash, backslash.
  destruct (Ascii.eqb c "\") eqn:E; simpl.
  - now rewrite orb_true_r.
  - now rewrite orb_false_r.
Qed.

(** ** LexicallyNormalizePath *)

Definition comp (s : str) : Prop := s = dotdot \/ name s.

Lemma meaningful_false : forall s, meaningful s = false <-> s = [] \/ s = ["."%char].
Proof.
  intros [|c [|d s]]; simpl; split; intro H; auto; try discriminate.
  - apply negb_false_iff, Ascii.eqb_eq in H. subst. auto.
  - destruct H as [H|H]; [discriminate|]. injection H as ->. reflexivity.
  - destruct H as [H|H]; discriminate.
Qed.

Lemma norm_step_skip : forall a acc s, meaningful s = false -> norm_step a acc s = acc.
Proof.
  intros a acc s H. apply meaningful_false in H as [->| ->]; reflexivity.
Qed.

Lemma fold_filter : forall a segs acc,
  fold_left (norm_step a) segs acc = fold_left (norm_step a) (filter meaningful segs) acc.
Proof.
  intros a. induction segs as [|s segs IH]; intros acc; auto. cbn [fold_left filter].
  destruct (meaningful s) eqn:M; cbn [fold_left]; auto. rewrite norm_step_skip; auto.
Qed.

Lemma separatorb_iff : forall c, separatorb c = true <-> separator c.
Proof.
  intros c. unfold separatorb, separator. rewrite orb_true_iff, !Ascii.eqb_eq. tauto.
Qed.

Lemma fields_nosep : forall sep s f, In f (fields sep s) -> Forall (fun x => sep x = false) f.
Proof.
  intros sep. induction s as [|c s IH]; simpl; intros f I.
  - destruct I as [<-|[]]. constructor.
  - destruct (sep c) eqn:E.
    + destruct I as [<-|I]; auto.
    + destruct (fields sep s) as [|h t] eqn:F.
      * destruct I as [<-|[]]. auto.
      * destruct I as [<-|I]; [constructor; auto; apply IH; now left|apply IH; now right].
Qed.

Lemma components_comp : forall p, Forall comp (components p).
Proof.
  intros p. apply Forall_forall. intros s I. apply filter_In in I as [I M].
  destruct (list_eq_dec ascii_dec s dotdot) as [->|N]; [now left|right].
  apply fields_nosep in I. rewrite Forall_forall in I.
  assert (M' : ~ (s = [] \/ s = ["."%char])) by (rewrite <- meaningful_false, M; discriminate).
  repeat split; auto. intros c C S. apply separatorb_iff in S. rewrite I in S; auto. discriminate.
Qed.

Definition stack_ok (a : bool) (st : list str) : Prop :=
  exists k ns, st = repeat dotdot k ++ ns /\ Forall name ns /\ (a = true -> k = 0).

Lemma repeat_snoc : forall A (x : A) k, repeat x k ++ [x] = repeat x (S k).
Proof. induction k; simpl; auto. now rewrite IHk. Qed.

Lemma last_app1 : forall A (l : list A) x d, last (l ++ [x]) d = x.
Proof. intros. apply last_last. Qed.

(** What one step does, by cases on the component and the stack. *)
Lemma norm_step_name : forall a st s, name s -> norm_step a st s = st ++ [s].
Proof.
  intros a st s (N1 & N2 & N3 & _). unfold norm_step.
  replace (str_eqb s []) with false by (symmetry; now apply str_eqb_neq).
  replace (str_eqb s [dot]) with false by (symmetry; now apply str_eqb_neq).
  replace (str_eqb s [dot; dot]) with false by (symmetry; now apply str_eqb_neq).
  reflexivity.
Qed.

Lemma norm_step_dd_pop : forall a st s, s <> dotdot -> norm_step a (st ++ [s]) dotdot = st.
Proof.
  intros a st s N. unfold norm_step.
  replace (str_eqb dotdot [] || str_eqb dotdot [dot]) with false by reflexivity.
  replace (str_eqb dotdot [dot; dot]) with true by reflexivity.
  rewrite last_app1. replace (str_eqb s [dot; dot]) with false by (symmetry; now apply str_eqb_neq).
  rewrite removelast_last. destruct (st ++ [s]) eqn:E; [destruct st; discriminate|reflexivity].
Qed.

Lemma norm_step_dd_up : forall k, norm_step false (repeat dotdot k) dotdot = repeat dotdot (S k).
Proof.
  intros k. unfold norm_step.
  replace (str_eqb dotdot [] || str_eqb dotdot [dot]) with false by reflexivity.
  replace (str_eqb dotdot [dot; dot]) with true by reflexivity.
  destruct k as [|k]; [reflexivity|].
  rewrite <- (repeat_snoc _ dotdot k), last_app1. cbn [andb negb].
  replace (str_eqb dotdot [dot; dot]) with true by reflexivity. rewrite andb_false_r.
  rewrite repeat_snoc. exact (repeat_snoc _ dotdot (S k)).
Qed.

Lemma norm_step_dd_root : norm_step true [] dotdot = [].
Proof. reflexivity. Qed.

Lemma snoc_cases : forall A (l : list A), l = [] \/ exists l' x, l = l' ++ [x].
Proof.
  intros A l. destruct l as [|a l]; [now left|right].
  destruct (@exists_last A (a :: l)) as (l' & x & E); [discriminate|]. eauto.
Qed.

Lemma norm_step_ok : forall a st s, stack_ok a st -> comp s -> stack_ok a (norm_step a st s).
Proof.
  intros a st s (k & ns & -> & F & A) [->|N].
  - destruct (snoc_cases _ ns) as [->|(ns' & x & ->)].
    + rewrite app_nil_r. destruct a.
      * rewrite (A eq_refl). simpl. exists 0, []. auto.
      * rewrite norm_step_dd_up. exists (S k), []. rewrite app_nil_r. repeat split; auto. discriminate.
    + apply Forall_app in F as [F FX]. inversion FX as [|? ? NX]; subst. rewrite app_assoc.
      rewrite norm_step_dd_pop by apply NX. exists k, ns'. auto.
  - rewrite norm_step_name by auto. exists k, (ns ++ [s]). rewrite app_assoc. repeat split; auto.
    apply Forall_app. auto.
Qed.

Lemma fold_ok : forall a l st, Forall comp l -> stack_ok a st -> stack_ok a (fold_left (norm_step a) l st).
Proof.
  intros a. induction l as [|s l IH]; intros st F S; auto. inversion F; subst. simpl. apply IH; auto.
  now apply norm_step_ok.
Qed.

Definition start (T : tree) (a : bool) (cwd : node T) : node T := if a then root T else cwd.

Lemma walk_app : forall T l1 l2 n, walk T n (l1 ++ l2) = match walk T n l1 with Some m => walk T m l2 | None => None end.
Proof.
  intros T. induction l1 as [|s l1 IH]; intros l2 n; auto. cbn [app walk].
  destruct (list_eq_dec ascii_dec s dotdot); [apply IH|].
  destruct (child T n s); auto.
Qed.

Lemma walk_one_name : forall T n s m, s <> dotdot -> walk T n [s] = Some m -> child T n s = Some m.
Proof.
  intros T n s m N H. cbn in H. destruct (list_eq_dec ascii_dec s dotdot); [tauto|].
  destruct (child T n s); auto.
Qed.

Lemma walk_one_dd : forall T n, walk T n [dotdot] = Some (parent T n).
Proof. reflexivity. Qed.

Lemma walk_dd : forall T l n, walk T n (dotdot :: l) = walk T (parent T n) l.
Proof. reflexivity. Qed.

Lemma fold_walk : forall T a cwd l st n m, Forall comp l -> stack_ok a st ->
  walk T (start T a cwd) st = Some n -> walk T n l = Some m ->
  walk T (start T a cwd) (fold_left (norm_step a) l st) = Some m.
Proof.
  intros T a cwd. induction l as [|s l IH]; intros st n m F S W1 W2.
  - cbn in W2. injection W2 as <-. exact W1.
  - inversion F as [|? ? C F']; subst. cbn [fold_left].
    pose proof (norm_step_ok a st s S C) as S1. destruct C as [->|N].
    + rewrite walk_dd in W2. eapply IH; eauto. clear IH F F' W2 S1.
      destruct S as (k & ns & -> & F & A). destruct (snoc_cases _ ns) as [->|(ns' & x & ->)].
      * rewrite app_nil_r in *. destruct a.
        -- rewrite (A eq_refl) in *. cbn in W1. injection W1 as <-. cbn. f_equal. symmetry. apply root_parent.
        -- rewrite norm_step_dd_up, <- repeat_snoc, walk_app, W1. reflexivity.
      * apply Forall_app in F as [F FX]. inversion FX as [|? ? NX]; subst. rewrite app_assoc in *.
        rewrite norm_step_dd_pop by apply NX. rewrite walk_app in W1.
        destruct (walk T (start T a cwd) (repeat dotdot k ++ ns')) as [u|]; [|discriminate].
        apply walk_one_name in W1; [|apply NX]. apply child_parent in W1. now subst.
    + assert (ND : s <> dotdot) by apply N. cbn in W2.
      destruct (list_eq_dec ascii_dec s dotdot); [tauto|].
      destruct (child T n s) as [n'|] eqn:CH; [|discriminate].
      eapply IH; eauto. rewrite norm_step_name by auto. rewrite walk_app, W1. cbn.
      destruct (list_eq_dec ascii_dec s dotdot); [tauto|]. now rewrite CH.
Qed.

Lemma comp_facts : forall s, comp s -> s <> [] /\ meaningful s = true /\ Forall (fun x => separatorb x = false) s.
Proof.
  intros s [->|(N1 & N2 & N3 & N4)].
  - repeat split; try discriminate. repeat constructor.
  - repeat split; auto.
    + destruct (meaningful s) eqn:M; auto. apply meaningful_false in M. tauto.
    + apply Forall_forall. intros c I. destruct (separatorb c) eqn:S; auto. apply separatorb_iff in S. now elim (N4 c).
Qed.

Lemma norm_join_join : forall l, norm_join l = join slash l.
Proof. induction l as [|a [|b l] IH]; auto. cbn [norm_join join] in *. rewrite IH. reflexivity. Qed.

Lemma fields_join : forall l, l <> [] -> Forall (Forall (fun x => separatorb x = false)) l ->
  fields separatorb (join slash l) = l.
Proof.
  induction l as [|a l IH]; intros N F; [tauto|]. inversion F; subst.
  destruct l as [|b l]; [now apply fields_plain|].
  rewrite join_cons by discriminate. rewrite fields_app; auto. rewrite IH; auto. discriminate.
Qed.

Lemma components_join : forall l, l <> [] -> Forall comp l -> components (join slash l) = l.
Proof.
  intros l N F. unfold components. rewrite fields_join; auto.
  - induction F as [|x l C F IH]; auto. cbn [filter]. destruct (comp_facts x C) as (_ & -> & _).
    destruct l; [reflexivity|]. rewrite IH; [reflexivity|discriminate].
  - clear N. induction F; constructor; auto. now apply comp_facts.
Qed.

Lemma absolute_join : forall l, Forall comp l -> absolute (join slash l) = false.
Proof.
  intros [|a l] F; auto. inversion F as [|? ? C F']; subst.
  destruct (comp_facts a C) as (N & _ & S). destruct a as [|c a]; [tauto|].
  inversion S; subst. destruct l; cbn; auto.
Qed.

Lemma components_slash : forall s, components (slash :: s) = components s.
Proof. intros s. reflexivity. Qed.

Lemma components_sep : forall c s, separatorb c = true -> components (c :: s) = components s.
Proof. intros c s H. unfold components. cbn [fields]. rewrite H. reflexivity. Qed.

(** The output for a given stack. *)
Definition render (a : bool) (st : list str) : str :=
  if a then slash :: join slash st else match st with [] => [dot] | _ => join slash st end.

Lemma join_nonempty : forall l, l <> [] -> Forall comp l -> join slash l <> [].
Proof.
  intros [|a l] N F; [tauto|]. inversion F as [|? ? C F']; subst.
  destruct (comp_facts a C) as (NE & _). destruct a; [tauto|]. destruct l; discriminate.
Qed.

Lemma stack_comp : forall a st, stack_ok a st -> Forall comp st.
Proof.
  intros a st (k & ns & -> & F & _). apply Forall_app. split.
  - apply Forall_forall. intros x I. apply repeat_spec in I. now left.
  - eapply Forall_impl; [|exact F]. intros x N. now right.
Qed.

(** The stack computed for a path. *)
Definition stack_of (p : str) : list str := fold_left (norm_step (absolute p)) (components p) [].

Lemma stack_of_ok : forall p, stack_ok (absolute p) (stack_of p).
Proof.
  intros p. apply fold_ok; [apply components_comp|]. exists 0, []. auto.
Qed.

Lemma normalize_render : forall p, LexicallyNormalizePath p = Some (render (absolute p) (stack_of p)).
Proof.
  intros p. unfold LexicallyNormalizePath. rewrite absolute_unify.
  destruct (getlines_meaningful slash (S (length (unify p))) (unify p)) as (r & R & Q); [auto|].
  rewrite R. f_equal. rewrite fold_filter, Q, fields_unify. fold (components p). fold (stack_of p).
  rewrite norm_join_join. pose proof (stack_of_ok p) as S. apply stack_comp in S.
  unfold render. destruct (absolute p); [reflexivity|].
  destruct (stack_of p) as [|x l]; [reflexivity|]. cbn [app].
  destruct (join slash (x :: l)) eqn:E; auto. apply join_nonempty in E; auto; [tauto|discriminate].
Qed.

Lemma render_absolute : forall a st, stack_ok a st -> absolute (render a st) = a.
Proof.
  intros a st S. apply stack_comp in S. unfold render. destruct a; [reflexivity|].
  destruct st; [reflexivity|]. now apply absolute_join.
Qed.

Lemma render_components : forall a st, stack_ok a st -> components (render a st) = st.
Proof.
  intros a st S. apply stack_comp in S. unfold render. destruct a.
  - rewrite components_slash. destruct st; [reflexivity|]. apply components_join; auto. discriminate.
  - destruct st; [reflexivity|]. apply components_join; auto. discriminate.
Qed.

Lemma norm_same_place : forall p q, LexicallyNormalizePath p = Some q ->
  forall T cwd n, resolve T cwd p = Some n -> resolve T cwd q = Some n.
Proof.
  intros p q H T cwd n R. rewrite normalize_render in H. injection H as <-.
  unfold resolve in *. rewrite render_absolute, render_components by apply stack_of_ok.
  unfold stack_of. change (if absolute p then root T else cwd) with (start T (absolute p) cwd) in *.
  eapply fold_walk; eauto.
  - apply components_comp.
  - exists 0, []. auto.
  - reflexivity.
Qed.

Lemma norm_canonical : forall p q, LexicallyNormalizePath p = Some q -> canonical q.
Proof.
  intros p q H. rewrite normalize_render in H. injection H as <-.
  destruct (stack_of_ok p) as (k & ns & -> & F & A). unfold render. destruct (absolute p).
  - rewrite A by auto. now apply can_abs.
  - destruct (repeat dotdot k ++ ns) eqn:E; [apply can_here|]. rewrite <- E. apply can_rel; auto.
    destruct k; [|left; lia]. right. simpl in E. rewrite E. discriminate.
Qed.

Lemma norm_name_steps : forall a ns st, Forall name ns -> fold_left (norm_step a) ns st = st ++ ns.
Proof.
  intros a. induction ns as [|s ns IH]; intros st F; [now rewrite app_nil_r|]. inversion F; subst.
  simpl. rewrite IH, norm_step_name, <- app_assoc; auto.
Qed.

Lemma norm_ups : forall k j, fold_left (norm_step false) (repeat dotdot k) (repeat dotdot j) = repeat dotdot (j + k).
Proof.
  induction k; intros j; [now rewrite Nat.add_0_r|]. cbn [repeat fold_left].
  rewrite norm_step_dd_up, IHk. f_equal. lia.
Qed.

Lemma stack_fixed : forall a st, stack_ok a st -> fold_left (norm_step a) st [] = st.
Proof.
  intros a st (k & ns & -> & F & A). rewrite fold_left_app.
  destruct a; [rewrite (A eq_refl); simpl; now rewrite norm_name_steps|].
  change (@nil str) with (repeat dotdot 0). rewrite (norm_ups k 0), norm_name_steps; auto.
Qed.

Lemma norm_idempotent : forall p q, LexicallyNormalizePath p = Some q -> LexicallyNormalizePath q = Some q.
Proof.
  intros p q H. rewrite normalize_render in *. injection H as <-. f_equal.
  pose proof (stack_of_ok p) as S. revert S. generalize (stack_of p) as st. intros st S.
  unfold stack_of. rewrite render_absolute, render_components by exact S.
  rewrite stack_fixed by exact S. reflexivity.
Qed.

Lemma norm_fixed : forall p, canonical p -> LexicallyNormalizePath p = Some p.
Proof.
  intros p C. rewrite normalize_render. f_equal.
  assert (E : exists a st, stack_ok a st /\ p = render a st).
  { destruct C as [ns F|k ns F N|].
    - exists true, ns. split; [exists 0, ns; auto|reflexivity].
    - exists false, (repeat dotdot k ++ ns). split; [exists k, ns; repeat split; auto; discriminate|].
      unfold render. destruct (repeat dotdot k ++ ns) eqn:E; [|reflexivity].
      apply app_eq_nil in E as [E ->]. destruct k; [|discriminate]. destruct N; [lia|tauto].
    - exists false, []. split; [exists 0, []; repeat split; auto; discriminate|reflexivity]. }
  destruct E as (a & st & S & ->). unfold stack_of. rewrite render_absolute, render_components, stack_fixed; auto.
Qed.

(** The tree in which every name exists everywhere. *)
Definition full_tree : tree.
Proof.
  refine (mkTree (list str) [] (fun n s => Some (s :: n)) (fun n => tl n) _ _).
  - intros n s m H. injection H as <-. reflexivity.
  - reflexivity.
Defined.

Lemma full_walk_names : forall ns n, Forall name ns -> walk full_tree n ns = Some (rev ns ++ n).
Proof.
  induction ns as [|s ns IH]; intros n F; auto. inversion F as [|? ? N F']; subst. cbn [walk].
  destruct (list_eq_dec ascii_dec s dotdot) as [E|E]; [destruct N; tauto|]. cbn [child full_tree].
  rewrite IH by auto. cbn [rev]. now rewrite <- app_assoc.
Qed.

Lemma full_walk_ups : forall k n, walk full_tree n (repeat dotdot k) = Some (skipn k n).
Proof.
  induction k; intros n; auto. cbn [repeat]. rewrite walk_dd, IHk. destruct n; cbn; auto. now destruct k.
Qed.

Lemma full_resolve : forall cwd a st k ns, st = repeat dotdot k ++ ns -> Forall name ns -> (a = true -> k = 0) ->
  walk full_tree (start full_tree a cwd) st = Some (rev ns ++ if a then [] else skipn k cwd).
Proof.
  intros cwd a st k ns -> F A. destruct a.
  - rewrite (A eq_refl). simpl repeat. rewrite app_nil_l. now apply full_walk_names.
  - rewrite walk_app, full_walk_ups. now apply full_walk_names.
Qed.

(** A name longer than all the given ones. *)
Lemma fresh_name : forall l : list str, exists f, name f /\ ~ In f l.
Proof.
  intros l. set (m := list_max (map (@length _) l)).
  exists (repeat "a"%char (S (S (S m)))). split.
  - repeat split; try discriminate. intros c I. apply repeat_spec in I. subst. intros [S|S]; discriminate.
  - intros I. assert (L : length (repeat "a"%char (S (S (S m)))) <= m).
    { apply (in_map (@length _)) in I. unfold m.
      pose proof (proj1 (list_max_le (map (@length _) l) (list_max (map (@length _) l))) (le_n _)) as FL.
      rewrite Forall_forall in FL. apply FL. exact I. }
    rewrite repeat_length in L. lia.
Qed.

Lemma app_marker : forall A (f : A) a b i j, ~ In f a -> ~ In f b -> a ++ repeat f i = b ++ repeat f j -> a = b /\ i = j.
Proof.
  induction a as [|x a IH]; intros b i j NA NB E.
  - destruct b as [|y b].
    + split; auto. simpl in E. apply (f_equal (@length _)) in E. now rewrite !repeat_length in E.
    + destruct i; [discriminate|]. simpl in E. injection E as E _. elim NB. now left.
  - destruct b as [|y b].
    + destruct j; [discriminate|]. simpl in E. injection E as E _. elim NA. now left.
    + simpl in E. injection E as -> E. apply IH in E as [-> ->]; auto; simpl in *; tauto.
Qed.

Lemma skipn_repeat : forall A (f : A) k n, skipn k (repeat f n) = repeat f (n - k).
Proof. induction k; intros [|n]; simpl; auto. Qed.

Lemma norm_complete : forall p q, (forall cwd, resolve full_tree cwd p = resolve full_tree cwd q) ->
  LexicallyNormalizePath p = LexicallyNormalizePath q.
Proof.
  intros p q H. rewrite !normalize_render. f_equal.
  assert (H' : forall cwd, walk full_tree (start full_tree (absolute p) cwd) (stack_of p)
                         = walk full_tree (start full_tree (absolute q) cwd) (stack_of q)).
  { intros cwd. specialize (H cwd).
    destruct (resolve full_tree cwd p) as [n|] eqn:RP.
    - symmetry in H. pose proof (norm_same_place p _ (normalize_render p) full_tree cwd n RP) as P.
      pose proof (norm_same_place q _ (normalize_render q) full_tree cwd n H) as Q.
      unfold resolve in P, Q. rewrite render_absolute, render_components in P by apply stack_of_ok.
      rewrite render_absolute, render_components in Q by apply stack_of_ok.
      unfold start. congruence.
    - exfalso. clear H. unfold resolve in RP. revert RP. generalize (if absolute p then root full_tree else cwd).
      induction (components p) as [|s l IH]; intros n; cbn [walk]; [discriminate|].
      destruct (list_eq_dec ascii_dec s dotdot); apply IH. }
  clear H. destruct (stack_of_ok p) as (k & ns & EP & FP & AP). destruct (stack_of_ok q) as (j & ms & EQ & FQ & AQ).
  destruct (fresh_name (ns ++ ms)) as (f & NF & IF).
  assert (IN : ~ In f ns) by (intro; apply IF; apply in_or_app; tauto).
  assert (IM : ~ In f ms) by (intro; apply IF; apply in_or_app; tauto).
  specialize (H' (repeat f (S (k + j)))).
  rewrite (full_resolve _ _ _ k ns EP FP AP), (full_resolve _ _ _ j ms EQ FQ AQ) in H'.
  injection H' as H'. change (f :: repeat f (k + j)) with (repeat f (S (k + j))) in H'.
  rewrite !skipn_repeat in H'.
  assert (G : forall (a : bool) n, (if a then [] else repeat f n) = repeat f (if a then 0 else n)) by now intros [|] n.
  rewrite !G in H'.
  apply app_marker in H' as [HR HI]; try (rewrite <- in_rev; auto).
  apply (f_equal (@rev _)) in HR. rewrite !rev_involutive in HR. subst ms.
  rewrite EP, EQ. destruct (absolute p), (absolute q); cbv iota in HI; try lia.
  - rewrite AP, AQ; auto.
  - replace j with k by lia. reflexivity.
Qed.

(** ** File names *)

Lemma find_last_some : forall p l k, find_last p l = Some k ->
  exists c, l = firstn k l ++ c :: skipn (S k) l /\ p c = true /\ Forall (fun x => p x = false) (skipn (S k) l)
            /\ k < length l /\ skipn k l = c :: skipn (S k) l.
Proof.
  intros p. induction l as [|x l IH]; cbn [find_last]; intros k H; [discriminate|].
  destruct (find_last p l) as [j|] eqn:F.
  - injection H as <-. destruct (IH j eq_refl) as (c & A & B & C & D & E). exists c. cbn [firstn skipn app length].
    repeat split; auto; [now rewrite A at 1|lia].
  - destruct (p x) eqn:P; [|discriminate]. injection H as <-. exists x. cbn. repeat split; auto; [|lia].
    clear IH. induction l as [|y l IH]; constructor.
    + cbn in F. destruct (find_last p l); [discriminate|]. now destruct (p y).
    + apply IH. cbn in F. destruct (find_last p l); [discriminate|auto].
Qed.

Lemma find_last_none : forall p l, find_last p l = None <-> Forall (fun x => p x = false) l.
Proof.
  intros p. induction l as [|x l IH]; cbn [find_last]; [split; auto|].
  destruct (find_last p l) as [j|] eqn:F.
  - split; [discriminate|]. intros H. inversion H; subst. apply IH in H3. discriminate.
  - destruct (p x) eqn:P; split; intro H; auto; try discriminate.
    + inversion H; congruence.
    + constructor; auto. now apply IH.
Qed.

Lemma is_sep_separator : forall c, is_sep c = true <-> separator c.
Proof.
  intros c. unfold is_sep, separator, slash, backslash. rewrite orb_true_iff, !Ascii.eqb_eq. tauto.
Qed.

Lemma dir_file : forall f, (exists c, In c f /\ separator c) ->
  exists c, separator c /\ f = DirNameOf f ++ c :: FileNameOf f.
Proof.
  intros f (c & I & S). unfold DirNameOf, FileNameOf.
  destruct (find_last is_sep f) as [k|] eqn:F.
  - apply find_last_some in F as (d & A & B & _). exists d. split; [now apply is_sep_separator|].
    destruct f; [destruct I|]. exact A.
  - apply find_last_none in F. rewrite Forall_forall in F. apply is_sep_separator in S. rewrite F in S; auto. discriminate.
Qed.

Lemma file_nosep : forall f c, In c (FileNameOf f) -> ~ separator c.
Proof.
  intros f c I S. apply is_sep_separator in S. unfold FileNameOf in I.
  destruct (find_last is_sep f) as [k|] eqn:F.
  - apply find_last_some in F as (d & A & B & C & _). rewrite Forall_forall in C. rewrite C in S; auto. discriminate.
  - apply find_last_none in F. rewrite Forall_forall in F. rewrite F in S; auto. discriminate.
Qed.

Lemma plain_file : forall f, (forall c, In c f -> ~ separator c) -> FileNameOf f = f /\ (f <> [] -> DirNameOf f = ["."; "/"]%char).
Proof.
  intros f H. assert (F : find_last is_sep f = None).
  { apply find_last_none. apply Forall_forall. intros c I. destruct (is_sep c) eqn:S; auto.
    apply is_sep_separator in S. now elim (H c). }
  unfold FileNameOf, DirNameOf. rewrite F. split; auto. destruct f; tauto.
Qed.

Lemma skipn_add : forall A b a (f : list A), skipn (b + a) f = skipn a (skipn b f).
Proof. induction b; intros a f; auto. destruct f; [now rewrite !skipn_nil|]. cbn. apply IHb. Qed.

(** Concatenation of name and extension, when the last dot does not precede the last separator. *)
Lemma file_ext : forall f, (forall d r, f = d ++ r -> (forall c, In c r -> c <> "."%char) ->
                              (exists c, In c r /\ separator c) -> ~ In "."%char d) ->
  FileNameWithoutExtOf f ++ FileNameExtOf f = FileNameOf f.
Proof.
  intros f H. unfold FileNameWithoutExtOf, FileNameExtOf, FileNameOf.
  destruct (find_last is_dot f) as [e|] eqn:D.
  - apply find_last_some in D as (c & A & B & C & L & SK).
    apply Ascii.eqb_eq in B. subst c.
    destruct (find_last is_sep f) as [k|] eqn:S.
    + apply find_last_some in S as (c & A' & B' & C' & L' & SK').
      destruct (Nat.leb (S k) e) eqn:LE.
      * apply Nat.leb_le in LE. rewrite firstn_skipn_comm.
        replace (S k + (e - S k)) with e by lia.
        replace (skipn (S k) f) with (skipn (S k) (firstn e f ++ skipn e f)) at 1 by now rewrite firstn_skipn.
        rewrite skipn_app, firstn_length_le by lia.
        replace (S k - e) with 0 by lia. reflexivity.
      * apply Nat.leb_gt in LE. exfalso.
        assert (k <> e) by (intros ->; rewrite SK in SK'; injection SK' as <-; discriminate).
        apply (H (firstn (S e) f) (skipn (S e) f)).
        -- symmetry. apply firstn_skipn.
        -- intros x I ->. rewrite Forall_forall in C. specialize (C _ I). discriminate.
        -- exists c. split; [|now apply is_sep_separator].
           assert (k = S e + (k - S e)) by lia.
           assert (I : In c (skipn (k - S e) (skipn (S e) f))).
           { replace (skipn (k - S e) (skipn (S e) f)) with (skipn k f); [rewrite SK'; now left|].
             rewrite H1 at 1. apply skipn_add. }
           rewrite <- (firstn_skipn (k - S e) (skipn (S e) f)). apply in_or_app. auto.
        -- replace (S e) with (e + 1) by lia. rewrite <- (firstn_skipn e f) at 1. rewrite SK.
           rewrite firstn_app, firstn_length_le by lia. replace (e + 1 - e) with 1 by lia.
           apply in_or_app. right. now left.
    + cbn [skipn]. replace (Nat.leb 0 e) with true by reflexivity. rewrite Nat.sub_0_r. apply firstn_skipn.
  - rewrite app_nil_r. destruct (find_last is_sep f); reflexivity.
Qed.

(** ** LocateFile *)

(** The places where a file is looked for, in order of preference. *)
Definition places (file : str) (env dirs : list str) : list str :=
  let base := FileNameOf file in
  let both := if list_eq_dec ascii_dec base file then [file] else [file; base] in
  both ++ concat (map (fun d => map (CombineDirectoryPathAndFilepath d) both) (env ++ dirs)).

Lemma candidates_places : forall f env dirs, candidates f env dirs = places f env dirs.
Proof.
  intros f env dirs. unfold candidates, places. rewrite map_app, concat_app.
  rewrite !flat_map_concat_map.
  destruct (list_eq_dec ascii_dec (FileNameOf f) f) as [E|E].
  - apply str_eqb_eq in E. rewrite E. reflexivity.
  - apply str_eqb_neq in E. rewrite E. reflexivity.
Qed.

Lemma find_first : forall A (p : A -> bool) l x, find p l = Some x <->
  exists a b, l = a ++ x :: b /\ p x = true /\ Forall (fun y => p y = false) a.
Proof.
  intros A p. induction l as [|y l IH]; intros x; cbn; split.
  - discriminate.
  - intros ([|] & b & E & _); discriminate.
  - destruct (p y) eqn:P.
    + intros H. injection H as <-. exists [], l. auto.
    + intros H. apply IH in H as (a & b & -> & B & C). exists (y :: a), b. auto.
  - intros (a & b & E & B & C). destruct a as [|z a]; injection E as -> ->.
    + now rewrite B.
    + inversion C; subst. rewrite H1. apply IH. eauto.
Qed.

Lemma locate_found : forall ex f env dirs p, LocateFile ex f env dirs = Some (p, true) ->
  exists a c b, places f env dirs = a ++ c :: b /\ ex c = true /\ Forall (fun y => ex y = false) a
                /\ LexicallyNormalizePath c = Some p.
Proof.
  intros ex f env dirs p H. unfold LocateFile in H. rewrite candidates_places in H.
  destruct (find ex (places f env dirs)) as [c|] eqn:F; [|discriminate].
  apply find_first in F as (a & b & E & X & A).
  destruct (LexicallyNormalizePath c) eqn:N; [|discriminate]. injection H as <-.
  exists a, c, b. auto.
Qed.

Lemma locate_not_found : forall ex f env dirs p, LocateFile ex f env dirs = Some (p, false) ->
  p = f /\ Forall (fun y => ex y = false) (places f env dirs).
Proof.
  intros ex f env dirs p H. unfold LocateFile in H. rewrite candidates_places in H.
  destruct (find ex (places f env dirs)) as [c|] eqn:F.
  - destruct (LexicallyNormalizePath c); discriminate.
  - injection H as <-. split; auto. apply Forall_forall. intros y I. exact (List.find_none _ _ F y I).
Qed.

Lemma locate_total : forall ex f env dirs, exists p b, LocateFile ex f env dirs = Some (p, b).
Proof.
  intros ex f env dirs. unfold LocateFile. destruct (find _ _); [|eauto].
  rewrite normalize_render. cbn. eauto.
Qed.

(** ** Search path list *)

Lemma addpath_nodup : forall ps p, NoDup ps -> NoDup (fst (AddPath ps p)).
Proof.
  intros ps p N. unfold AddPath. destruct (existsb _ ps) eqn:E; auto. cbn.
  apply (Permutation.Permutation_NoDup (l := p :: ps)).
  - change (p :: ps) with ([p] ++ ps). apply Permutation.Permutation_app_comm.
  - constructor; auto. intros I. enough (existsb (fun q => str_eqb q p) ps = true) by congruence.
    apply existsb_exists. exists p. split; auto. now apply str_eqb_eq.
Qed.

Lemma addpath_in : forall ps p q, In q (fst (AddPath ps p)) <-> In q ps \/ q = p.
Proof.
  intros ps p q. unfold AddPath. destruct (existsb _ ps) eqn:E; cbn.
  - split; [tauto|]. intros [I| ->]; auto. apply existsb_exists in E as (x & I & X). apply str_eqb_eq in X. now subst.
  - rewrite in_app_iff. cbn. intuition.
Qed.

(** ** CSV rows *)

Lemma csv_total : forall l, exists r, csv_row l = Some r.
Proof.
  intros l. destruct (getlines_fields "," (S (length l)) l) as (r & R & _); [auto|]. eauto.
Qed.

Lemma csv_fields : forall l r, csv_row l = Some r -> l <> [] -> last l zero <> ","%char ->
  r = fields (fun c => Ascii.eqb c ",") l.
Proof.
  intros l r H N L. destruct (getlines_fields "," (S (length l)) l) as (r' & R & Q); [auto|].
  unfold csv_row in H. rewrite R in H. injection H as <-. rewrite Q.
  apply Ascii.eqb_neq in L. rewrite L. destruct l; [tauto|]. cbn. now rewrite app_nil_r.
Qed.
