(** Properties C13, C14, C38: parameter distributions. *)
From Coq Require Import List String ZArith Bool Lia.
From Verif Require Import QAux DistModel DistProofs.
Import ListNotations.
Open Scope Z_scope.
Open Scope string_scope.

(** ** C13 *)

(** The indices 0..n-1 correspond one to one to the combinations, n being the reported number; selecting an index succeeds
    and shows exactly the entries of its combination (whose number fits an int; every distribution has an alternative). *)
Theorem C13_enumeration : forall s, plist s <> [] -> fits (plist s) ->
  num_permutations s = prod (plist s) /\
  exists f, (forall i, 0 <= i < num_permutations s -> valid (plist s) (f i) /\
                 exists s', set_index i s = (0, s') /\ shows s' (chosen (plist s) (f i))) /\
            (forall js, valid (plist s) js -> exists i, 0 <= i < num_permutations s /\ f i = js /\
                 forall i', 0 <= i' < num_permutations s -> f i' = js -> i' = i).
Proof. exact enumeration. Qed.

(** The application runs every permutation exactly once, in order. *)
Theorem C13_application_runs_all : forall file, file <> [] -> fits file -> forall fuel, (Z.to_nat (prod file) < fuel)%nat ->
  main_loop fuel file reset = Some (map Z.of_nat (seq 0 (Z.to_nat (prod file)))).
Proof. exact main_all. Qed.
(** Without distributions it runs once. *)
Theorem C13_application_single : forall fuel, (0 < fuel)%nat -> main_loop fuel [] reset = Some [-1].
Proof. exact main_single. Qed.

(** Beyond the range of unsigned int the reported number is wrong: two distributions of 65536 values report none. *)
Theorem C13_overflow_refuted : exists s, plist s <> [] /\ (forall d, In d (plist s) -> d <> []) /\
  prod (plist s) = 4294967296 /\ num_permutations s = 0.
Proof.
  set (d := repeat ([] : list entry) (Z.to_nat 65536)).
  assert (L : zlen d = 65536) by (unfold zlen, d; rewrite repeat_length, Z2Nat.id; lia).
  assert (P : prod [d; d] = 4294967296) by (cbn [prod]; rewrite L; reflexivity).
  exists (mkD [d; d] (-1) 0). split; [discriminate|]. split; [|split; [exact P|]].
  - intros x [<-|[<-|[]]] E; rewrite E in L; discriminate.
  - rewrite num_perm by discriminate. simpl plist. rewrite P. reflexivity.
Qed.

Definition ex_state : dstate :=
  mkD [[[("a", "1"); ("b", "x")]; [("a", "2"); ("b", "y")]]; [[("c", "p")]; [("c", "q")]; [("c", "r")]]] (-1) 0.
Example C13_example : fits (plist ex_state) /\ num_permutations ex_state = 6 /\
  let s := snd (set_index 4 ex_state) in map (get_parameter_entry s) [0; 1; 2]%nat = [Some ("a", "2"); Some ("b", "y"); Some ("c", "q")] /\
  num_parameters s = Some 3%nat /\ main_loop 7 (plist ex_state) reset = Some [0; 1; 2; 3; 4; 5].
Proof. split; [split; [repeat constructor; discriminate|reflexivity]|]. vm_compute. auto. Qed.

(** ** C14 *)

(** For every sequence of calls, as long as what is loaded has alternatives and fits an int, the index is in range or undefined. *)
Theorem C14_index_in_range : forall os, all_fit os reset -> in_range (drun os reset) (index (drun os reset)).
Proof. intros os A. apply index_inv; auto. left. reflexivity. Qed.
(** Out of range requests are rejected without effect. *)
Theorem C14_set_rejected : forall i s, num_permutations s <= i -> set_index i s = (-1, s).
Proof. exact set_index_reject. Qed.
Theorem C14_request_rejected : forall i s, num_permutations s <= i -> set_requested i s = (-1, s).
Proof. exact request_reject. Qed.
(** Incrementing moves to the next index, or is refused, without effect, when there is none. *)
Theorem C14_increment : forall s, fits (plist s) -> in_range s (index s) ->
  increment_index s = (-1, s) /\ (num_permutations s = 0 \/ index s = num_permutations s - 1) \/
  increment_index s = (index s + 1, mkD (plist s) (index s + 1) (-1)) /\ 0 <= index s + 1 < num_permutations s.
Proof. exact inc_spec. Qed.
(** Loading a file with an empty distribution on top leaves the index out of range; asking for the parameters then divides by zero. *)
Theorem C14_empty_distribution_refuted : exists os, let s := drun os reset in
  num_permutations s = 0 /\ index s = 0 /\ num_parameters s = None.
Proof. exists [DLoad [[[("a", "1")]]]; DSet 0; DLoad [[]]]. vm_compute. auto. Qed.
Example C14_example : all_fit [DLoad (plist ex_state); DInc; DSet 5; DInc; DRequest 3; DSet 17; DReset; DInc] reset /\
  index (drun [DLoad (plist ex_state); DInc; DSet 5; DInc; DRequest 3; DSet 17] reset) = 5.
Proof. split; [|reflexivity]. simpl. repeat split; try lia; repeat constructor; try discriminate. Qed.

(** ** C38 *)

(** A range with positive step terminates ... *)
Theorem C38_range_terminates : forall lower upper step, (0 < step)%Q -> exists fuel l, range_values fuel lower upper step = Some l.
Proof. exact range_terminates. Qed.
(** ... and yields exactly lower + k*step for all k with lower + k*step < upper + 1e-6, in order. *)
Theorem C38_range_values : forall upper step, (0 < step)%Q -> forall fuel lower l, range_values fuel lower upper step = Some l ->
  (forall k x, nth_error l k = Some x -> (x == lower + Qn k * step)%Q /\ (x < upper + SMALL)%Q) /\
  (forall k, (lower + Qn k * step < upper + SMALL)%Q -> (k < length l)%nat).
Proof. exact range_spec. Qed.
(** A step width of zero or below never terminates (the list grows for ever). *)
Theorem C38_range_terminates_refuted : forall upper step, (step <= 0)%Q -> forall fuel lower, (lower < upper + SMALL)%Q ->
  range_values fuel lower upper step = None.
Proof. exact range_loops. Qed.
(** After loading into a fresh or reset object the permutations are those of the file ... *)
Theorem C38_load_partial : forall os ds, plist (drun (os ++ [DReset; DLoad ds]) reset) = ds.
Proof. intros os ds. unfold drun. rewrite fold_left_app. reflexivity. Qed.
(** ... but loading again without reset multiplies them: the same file twice gives four permutations instead of two. *)
Theorem C38_load_refuted : exists ds, num_permutations (drun [DLoad ds] reset) = 2 /\
  num_permutations (drun [DLoad ds; DLoad ds] reset) = 4.
Proof. exists [[[("a", "1")]; [("a", "2")]]]. vm_compute. auto. Qed.
Example C38_example : exists l, range_values 10 0 1 (1 # 4) = Some l /\ length l = 5%nat.
Proof. eexists. split; vm_compute; reflexivity. Qed.

Print Assumptions C13_enumeration.
Print Assumptions C13_application_runs_all.
Print Assumptions C13_overflow_refuted.
Print Assumptions C14_index_in_range.
Print Assumptions C38_range_values.
Print Assumptions C38_range_terminates.
