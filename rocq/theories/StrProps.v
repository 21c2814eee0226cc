(** Properties of strings, paths and file search. *)
From Coq Require Import List Ascii String Bool Arith Lia.
From Verif Require Import StrModel StrProofs.
Import ListNotations.
Open Scope list_scope.

(** Notation for literals in the examples. *)
Definition S_ (s : string) : str := list_ascii_of_string s.

(** ** C21: path normalisation *)

Theorem C21_total : forall p, exists q, LexicallyNormalizePath p = Some q.
Proof. intros p. rewrite normalize_render. eauto. Qed.

(** In every directory tree, from every working directory, the normalised path denotes what the path denotes. *)
Theorem C21_same_place : forall p q, LexicallyNormalizePath p = Some q ->
  forall T cwd n, resolve T cwd p = Some n -> resolve T cwd q = Some n.
Proof. exact norm_same_place. Qed.

(** The result has the canonical form: '/' names, or '..' repeated then names, or '.'. *)
Theorem C21_canonical : forall p q, LexicallyNormalizePath p = Some q -> canonical q.
Proof. exact norm_canonical. Qed.

Theorem C21_idempotent : forall p q, LexicallyNormalizePath p = Some q -> LexicallyNormalizePath q = Some q.
Proof. exact norm_idempotent. Qed.

(** Canonical paths are left alone. *)
Theorem C21_fixed : forall p, canonical p -> LexicallyNormalizePath p = Some p.
Proof. exact norm_fixed. Qed.

(** Paths that always denote the same place have the same normal form. *)
Theorem C21_complete : forall p q, (forall cwd, resolve full_tree cwd p = resolve full_tree cwd q) ->
  LexicallyNormalizePath p = LexicallyNormalizePath q.
Proof. exact norm_complete. Qed.

Example C21_total_ex : LexicallyNormalizePath (S_ "a\.//b/../../../c/") = Some (S_ "../c").
Proof. reflexivity. Qed.
Example C21_same_place_ex : resolve full_tree [S_ "home"] (S_ "a\.//b/../../../c/") = Some [S_ "c"]
  /\ resolve full_tree [S_ "home"] (S_ "../c") = Some [S_ "c"].
Proof. split; reflexivity. Qed.
Example C21_canonical_ex : LexicallyNormalizePath (S_ "/../..//x/./y/..") = Some (S_ "/x")
  /\ LexicallyNormalizePath (S_ "x/..") = Some (S_ ".") /\ LexicallyNormalizePath [] = Some (S_ ".").
Proof. repeat split; reflexivity. Qed.
Example C21_idempotent_ex : LexicallyNormalizePath (S_ "../c") = Some (S_ "../c").
Proof. reflexivity. Qed.
Example C21_fixed_ex : canonical (S_ "../c").
Proof.
  apply (can_rel 1 [S_ "c"]); [|left; lia]. constructor; [|constructor]. repeat split; try discriminate.
  intros c [<-|[]] [H|H]; discriminate.
Qed.
Example C21_complete_ex : forall cwd, resolve full_tree cwd (S_ "a/../b") = resolve full_tree cwd (S_ ".\b").
Proof. reflexivity. Qed.

Print Assumptions C21_total.
Print Assumptions C21_same_place.
Print Assumptions C21_canonical.
Print Assumptions C21_idempotent.
Print Assumptions C21_fixed.
Print Assumptions C21_complete.

(** ** C22: split and join *)

Theorem C22_join : forall s d, exists parts, SplitString s d = Some parts /\ join d parts = s
  /\ Forall (fun p => ~ In d p) parts.
Proof.
  intros s d. destruct (split_total s d) as (r & R). exists r. destruct (split_spec s d r R) as (A & B & _). auto.
Qed.

(** The result is the only list of parts with that property. *)
Theorem C22_unique : forall s d parts, s <> [] -> parts <> [] -> Forall (fun p => ~ In d p) parts -> join d parts = s ->
  SplitString s d = Some parts.
Proof. exact split_unique. Qed.

(** Splitting with quotes: quoted words are kept whole, the text after the last quote is split ... *)
Theorem C22_quoted : forall d words tail,
  Forall (fun gw => ~ In quote (fst gw) /\ ~ In quote (snd gw)) words -> ~ In quote tail ->
  SplitQuotedString (quoted_text words tail) d = option_map (app (map snd words)) (SplitString tail d).
Proof. exact quoted_words. Qed.

(** ... but unquoted text in front of a quoted word is lost. *)
Theorem C22_quoted_refuted : exists s, SplitQuotedString s " "%char = Some [S_ "b c"] /\
  s = S_ "--path a " ++ quote :: S_ "b c" ++ [quote].
Proof. eexists. split; [|reflexivity]. reflexivity. Qed.

Theorem C22_quoted_terminates : forall s d, exists r, SplitQuotedString s d = Some r.
Proof. exact quoted_total. Qed.

(** A row of a CSV file has the fields between the commas unless the line ends with a comma ... *)
Theorem C22_csv : forall l r, csv_row l = Some r -> l <> [] -> last l zero <> ","%char ->
  r = fields (fun c => Ascii.eqb c ",") l.
Proof. exact csv_fields. Qed.

(** ... in which case the last, empty, field is missing. *)
Theorem C22_csv_refuted : csv_row (S_ "a,b,") = Some [S_ "a"; S_ "b"].
Proof. reflexivity. Qed.

Example C22_join_ex : SplitString (S_ ",a,,b,") ","%char = Some [[]; S_ "a"; []; S_ "b"; []].
Proof. reflexivity. Qed.
Example C22_unique_ex : join ","%char [[]; S_ "a"] = S_ ",a".
Proof. reflexivity. Qed.
Example C22_quoted_ex :
  SplitQuotedString (quoted_text [(S_ "", S_ "a b"); (S_ " ", S_ "c")] (S_ "d e")) " "%char = Some [S_ "a b"; S_ "c"; S_ "d"; S_ "e"].
Proof. reflexivity. Qed.
Example C22_quoted_terminates_ex : SplitQuotedString [quote; quote; quote] " "%char = Some [[]].
Proof. reflexivity. Qed.
Example C22_csv_ex : csv_row (S_ "a,,b") = Some [S_ "a"; []; S_ "b"].
Proof. reflexivity. Qed.

Print Assumptions C22_join.
Print Assumptions C22_unique.
Print Assumptions C22_quoted.
Print Assumptions C22_quoted_refuted.
Print Assumptions C22_quoted_terminates.
Print Assumptions C22_csv.
Print Assumptions C22_csv_refuted.

(** ** C40: file name decomposition *)

Theorem C40_dir_file : forall f, (exists c, In c f /\ separator c) ->
  exists c, separator c /\ f = DirNameOf f ++ c :: FileNameOf f.
Proof. exact dir_file. Qed.

Theorem C40_file : forall f c, In c (FileNameOf f) -> ~ separator c.
Proof. exact file_nosep. Qed.

Theorem C40_plain : forall f, (forall c, In c f -> ~ separator c) ->
  FileNameOf f = f /\ (f <> [] -> DirNameOf f = ["."; "/"]%char).
Proof. exact plain_file. Qed.

(** Name without extension and extension make the file name, unless the last dot is in the directory part ... *)
Theorem C40_extension : forall f,
  (forall d r, f = d ++ r -> (forall c, In c r -> c <> "."%char) -> (exists c, In c r /\ separator c) -> ~ In "."%char d) ->
  FileNameWithoutExtOf f ++ FileNameExtOf f = FileNameOf f.
Proof. exact file_ext. Qed.

(** ... in which case the "extension" is the rest of the path. *)
Theorem C40_extension_refuted : FileNameExtOf (S_ "../log") = S_ "./log" /\ FilePathWithoutExtOf (S_ "../log") = S_ ".".
Proof. split; reflexivity. Qed.

Example C40_dir_file_ex : DirNameOf (S_ "a/b\c.x") = S_ "a/b" /\ FileNameOf (S_ "a/b\c.x") = S_ "c.x".
Proof. split; reflexivity. Qed.
Example C40_file_ex : In "c"%char (FileNameOf (S_ "a/c")).
Proof. left. reflexivity. Qed.
Example C40_plain_ex : DirNameOf (S_ "c.x") = S_ "./".
Proof. reflexivity. Qed.
Example C40_extension_ex : FileNameWithoutExtOf (S_ "a/b.c.xosc") = S_ "b.c" /\ FileNameExtOf (S_ "a/b.c.xosc") = S_ ".xosc".
Proof. split; reflexivity. Qed.

Print Assumptions C40_dir_file.
Print Assumptions C40_file.
Print Assumptions C40_plain.
Print Assumptions C40_extension.
Print Assumptions C40_extension_refuted.

(** ** C41: file search *)

(** A file is found at the first place where it exists: as given, its bare name, then in every search directory, the
    environment's before the caller's. *)
Theorem C41_found : forall ex f env dirs p, LocateFile ex f env dirs = Some (p, true) ->
  exists before c after, places f env dirs = before ++ c :: after /\ ex c = true
    /\ Forall (fun y => ex y = false) before /\ LexicallyNormalizePath c = Some p.
Proof. exact locate_found. Qed.

Theorem C41_not_found : forall ex f env dirs p, LocateFile ex f env dirs = Some (p, false) ->
  p = f /\ Forall (fun y => ex y = false) (places f env dirs).
Proof. exact locate_not_found. Qed.

Theorem C41_total : forall ex f env dirs, exists p b, LocateFile ex f env dirs = Some (p, b).
Proof. exact locate_total. Qed.

(** The search directory list never contains a directory twice and loses none. *)
Theorem C41_paths : forall ps p, NoDup ps ->
  NoDup (fst (AddPath ps p)) /\ forall q, In q (fst (AddPath ps p)) <-> In q ps \/ q = p.
Proof. intros ps p N. split; [now apply addpath_nodup|]. intros q. apply addpath_in. Qed.

(** A file name with an absolute path or a drive is not combined with the directory. *)
Theorem C41_absolute : forall d f, absolute f = true -> CombineDirectoryPathAndFilepath d f = f.
Proof.
  intros d [|c f] H; [reflexivity|]. cbn in *. unfold separatorb in H. unfold slash, backslash.
  apply orb_true_iff in H as [H|H]; rewrite H; cbn; auto. now rewrite andb_false_r.
Qed.

(** A relative file name is looked up relative to the directory. *)
Theorem C41_relative : forall d f, d <> [] -> f <> [] -> absolute f = false -> nth 1 f zero <> ":"%char ->
  forall T cwd, resolve T cwd (CombineDirectoryPathAndFilepath d f)
    = match resolve T cwd d with Some n => resolve T n f | None => None end.
Proof.
  intros d [|c f] ND NF A C T cwd; [tauto|].
  assert (FA : forall a b, components (a ++ "/"%char :: b) = components a ++ components b).
  { intros a b. unfold components. rewrite <- filter_app. 
    enough (E : fields separatorb (a ++ "/"%char :: b) = fields separatorb a ++ fields separatorb b) by now rewrite E.
    induction a as [|x a IH]; [reflexivity|]. cbn [app fields]. destruct (separatorb x); [now rewrite IH|].
    rewrite IH. pose proof (fields_nonempty separatorb a) as N. destruct (fields separatorb a); [tauto|reflexivity]. }
  cbn [absolute] in A. unfold CombineDirectoryPathAndFilepath.
  assert (A' := A). unfold separatorb in A'. apply orb_false_iff in A' as [A1 A2].
  unfold slash, backslash. rewrite A1, A2. cbn [negb andb].
  replace (Ascii.eqb (hd zero f) colon) with false; [|symmetry; apply Ascii.eqb_neq; destruct f; cbn in *; auto; discriminate].
  cbn [negb]. destruct d as [|x d]; [tauto|]. unfold resolve.
  match goal with |- context [["/"%char] ++ ?P] => set (path := P) end.
  assert (CP : components path = components (c :: f)).
  { unfold path. destruct (Ascii.eqb c dot); reflexivity. }
  change ((x :: d) ++ ["/"%char] ++ path) with ((x :: d) ++ "/"%char :: path).
  rewrite FA, CP, walk_app.
  replace (absolute ((x :: d) ++ "/"%char :: path)) with (absolute (x :: d)) by reflexivity.
  cbn [absolute]. rewrite A. reflexivity.
Qed.

(** An empty directory stands for the working directory. *)
Theorem C41_empty_directory : forall f T cwd,
  resolve T cwd (CombineDirectoryPathAndFilepath [] f) = resolve T cwd f.
Proof.
  intros [|c f] T cwd; [reflexivity|]. unfold CombineDirectoryPathAndFilepath.
  destruct (negb (Ascii.eqb c slash) && negb (Ascii.eqb c backslash) && negb (Ascii.eqb (hd zero f) colon)) eqn:E; [|reflexivity].
  destruct (Ascii.eqb c dot) eqn:D; [reflexivity|].
  apply andb_true_iff in E as [E _]. apply andb_true_iff in E as [E1 E2].
  apply negb_true_iff in E1, E2. unfold slash, backslash in *.
  unfold resolve. change (components (dot :: "/"%char :: c :: f)) with (components (c :: f)).
  cbn [absolute]. unfold separatorb at 2. rewrite E1, E2. reflexivity.
Qed.

Example C41_found_ex : LocateFile (str_eqb (S_ "res/./f")) (S_ "a/f") [S_ "other"] [S_ "res"] = Some (S_ "res/f", true).
Proof. reflexivity. Qed.
Example C41_not_found_ex : LocateFile (fun _ => false) (S_ "a/f") [] [] = Some (S_ "a/f", false).
Proof. reflexivity. Qed.
Example C41_total_ex : LocateFile (fun _ => true) (S_ "a//f") [] [] = Some (S_ "a/f", true).
Proof. reflexivity. Qed.
Example C41_paths_ex : AddPath [S_ "a"] (S_ "a") = ([S_ "a"], false) /\ AddPath [S_ "a"] (S_ "b") = ([S_ "a"; S_ "b"], true).
Proof. split; reflexivity. Qed.
Example C41_absolute_ex : absolute (S_ "/a/f") = true.
Proof. reflexivity. Qed.
Example C41_relative_ex : CombineDirectoryPathAndFilepath (S_ "dir") (S_ "f") = S_ "dir/./f".
Proof. reflexivity. Qed.

Print Assumptions C41_found.
Print Assumptions C41_not_found.
Print Assumptions C41_total.
Print Assumptions C41_paths.
Print Assumptions C41_absolute.
Example C41_empty_directory_ex : CombineDirectoryPathAndFilepath [] (S_ "f") = S_ "./f".
Proof. reflexivity. Qed.

Print Assumptions C41_relative.
Print Assumptions C41_empty_directory.
