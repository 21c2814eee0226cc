(** Property theorems for conditions and triggers: C06, C07, C08, C09. *)
From Coq Require Import String Floats.SpecFloat.
From Verif Require Import QAux CondModel CondProofs.
Local Open Scope nat_scope.

(** * C06 comparison rules *)
(** double: LT/GE, GT/LE, EQ/NE are complements, LT and GT swap with the operands (up to the boundary
    convention), LT, EQ, GT are mutually exclusive, equality is reflexive *)
Theorem C06_double_complements a b :
  evaluate_rule_q a b LESS_THAN = negb (evaluate_rule_q a b GREATER_OR_EQUAL) /\
  evaluate_rule_q a b GREATER_THAN = negb (evaluate_rule_q a b LESS_OR_EQUAL) /\
  evaluate_rule_q a b EQUAL_TO = negb (evaluate_rule_q a b NOT_EQUAL_TO).
Proof. exact (conj (rule_q_lt_ge a b) (conj (rule_q_gt_le a b) (rule_q_eq_ne a b))). Qed.
(** what each rule means, for all operands *)
Theorem C06_double_meaning a b :
  (evaluate_rule_q a b LESS_THAN = true <-> (SMALL < b - a)%Q) /\
  (evaluate_rule_q a b GREATER_THAN = true <-> (SMALL < a - b)%Q) /\
  (evaluate_rule_q a b LESS_OR_EQUAL = true <-> (a - b <= SMALL)%Q) /\
  (evaluate_rule_q a b GREATER_OR_EQUAL = true <-> (b - a <= SMALL)%Q) /\
  (evaluate_rule_q a b EQUAL_TO = true <-> (a - b < SMALL)%Q /\ (b - a < SMALL)%Q).
Proof. exact (rule_q_meaning a b). Qed.
(** away from |a-b| = tolerance one of LT, EQ, GT holds (missing: the boundary, see _refuted) *)
Theorem C06_double_trichotomy_partial a b :
  ~ (a - b == SMALL)%Q -> ~ (b - a == SMALL)%Q ->
  evaluate_rule_q a b LESS_THAN || evaluate_rule_q a b EQUAL_TO || evaluate_rule_q a b GREATER_THAN = true.
Proof. exact (rule_q_trichotomy a b). Qed.
Theorem C06_double_exclusive a b :
  (evaluate_rule_q a b LESS_THAN = true -> evaluate_rule_q a b EQUAL_TO = false /\ evaluate_rule_q a b GREATER_THAN = false) /\
  (evaluate_rule_q a b GREATER_THAN = true -> evaluate_rule_q a b EQUAL_TO = false /\ evaluate_rule_q a b LESS_THAN = false).
Proof. exact (rule_q_exclusive a b). Qed.
(** at the tolerance boundary none of the three rules holds, and GE differs from GT or EQ *)
Theorem C06_double_trichotomy_refuted : exists a b,
  evaluate_rule_q a b LESS_THAN = false /\ evaluate_rule_q a b EQUAL_TO = false /\
  evaluate_rule_q a b GREATER_THAN = false /\
  evaluate_rule_q a b GREATER_OR_EQUAL <> (evaluate_rule_q a b GREATER_THAN || evaluate_rule_q a b EQUAL_TO).
Proof. exists (-SMALL)%Q, 0%Q. vm_compute. repeat split; discriminate. Qed.
(** binary64, any bit pattern *)
Theorem C06_float_complements a b : is_nan_f a = false -> is_nan_f b = false ->
  evaluate_rule_f a b LESS_THAN = negb (evaluate_rule_f a b GREATER_OR_EQUAL) /\
  evaluate_rule_f a b GREATER_THAN = negb (evaluate_rule_f a b LESS_OR_EQUAL) /\
  evaluate_rule_f a b NOT_EQUAL_TO = negb (evaluate_rule_f a b EQUAL_TO).
Proof. exact (rule_f_complement a b). Qed.
Theorem C06_float_nan a b r : is_nan_f a = true \/ is_nan_f b = true ->
  evaluate_rule_f a b r = match r with NOT_EQUAL_TO => true | _ => false end.
Proof. exact (rule_f_nan a b r). Qed.
(** int, string, bool: the complete set of laws of a total order *)
Theorem C06_int : rule_laws evaluate_rule_z. Proof. exact rule_z_laws. Qed.
Theorem C06_string : rule_laws evaluate_rule_s. Proof. exact rule_s_laws. Qed.
Theorem C06_bool : rule_laws evaluate_rule_b. Proof. exact rule_b_laws. Qed.
Theorem C06_int_meaning a b :
  (evaluate_rule_z a b LESS_THAN = true <-> (a < b)%Z) /\ (evaluate_rule_z a b GREATER_THAN = true <-> (a > b)%Z).
Proof. exact (rule_z_meaning a b). Qed.
Theorem C06_string_meaning a b :
  (evaluate_rule_s a b LESS_THAN = true <-> lex_lt a b) /\ (evaluate_rule_s a b GREATER_THAN = true <-> lex_lt b a).
Proof. exact (rule_s_meaning a b). Qed.
Theorem C06_bool_meaning a b :
  (evaluate_rule_b a b LESS_THAN = true <-> a = false /\ b = true) /\ (evaluate_rule_b a b GREATER_THAN = true <-> a = true /\ b = false).
Proof. exact (rule_b_meaning a b). Qed.
Example C06_ex : evaluate_rule_q (10.5)%Q 10 GREATER_THAN = true /\ evaluate_rule_s "b" "abc" GREATER_THAN = true
  /\ evaluate_rule_q (1#10000000) 0 EQUAL_TO = true /\ evaluate_rule_q (1#100000) 0 EQUAL_TO = false
  /\ evaluate_rule_f (S754_finite false 1 0) (S754_zero false) GREATER_THAN = true
  /\ is_nan_f (S754_finite false 1 0) = false.
Proof. vm_compute. repeat split. Qed.

(** * C07 edge detection *)
(** for every sequence of evaluations, trigger firings and resets (evaluation times at least the
    tolerance apart), each evaluation reports exactly the edge between the previous raw outcome since
    the trigger last fired and the present one *)
Theorem C07_edge e ops : spaced (samples_of ops) ->
  exists os, cond_run (new_cond 0 e) ops = Some os /\ length os = length (samples_of ops) /\
    forall pre t raw post, ops = pre ++ OpEval t raw :: post ->
      exists o, nth_error os (length (samples_of pre)) = Some o /\
                out_value o = edge_def e (prev_raw pre) raw.
Proof. exact (edge_detection e ops). Qed.
(** the condition callback is invoked exactly when the reported value turns true *)
Theorem C07_callback d e ops os :
  cond_run (new_cond d e) ops = Some os -> callbacks_ok false ops os.
Proof. exact (callback_run ops (new_cond d e) os). Qed.
Example C07_ex :
  let ops := [OpEval 0 false; OpEval 1 true; OpEval 2 true; OpFired; OpReset; OpEval 3 true; OpEval 4 false; OpEval 5 true] in
  spaced (samples_of ops) /\
  option_map (map out_value) (cond_run (new_cond 0 RISING) ops) = Some [false; true; false; false; false; true].
Proof. vm_compute. repeat split; discriminate. Qed.

(** * C08 delay *)
(** the reported value is true iff the signal is true at t-d, or it rose at a sample that became due
    since the previous evaluation; the history lookup never goes out of bounds *)
Theorem C08_delay d smp : (0 <= d)%Q -> spaced smp ->
  exists os, cond_run (new_cond d NONE) (evals smp) = Some os /\ length os = length smp /\
    forall pre t v post o, smp = pre ++ (t, v) :: post -> nth_error os (length pre) = Some o ->
      delay_spec d pre t v (out_value o).
Proof. exact (delayed_condition d smp). Qed.
(** with a fixed time step: exactly the value at t-d *)
Theorem C08_delay_fixed_step d t0 dt vs : (0 <= d)%Q -> (SMALL <= dt)%Q ->
  exists os, cond_run (new_cond d NONE) (evals (uniform t0 dt vs)) = Some os /\ length os = length vs /\
    forall pre t v post o, uniform t0 dt vs = pre ++ (t, v) :: post -> nth_error os (length pre) = Some o ->
      out_value o = value_at (uniform t0 dt vs) (t - d).
Proof. exact (delayed_condition_uniform d t0 dt vs). Qed.
(** with a variable time step the reported value may be true although the signal was false at t-d *)
Theorem C08_delay_exact_refuted : exists d smp os pre t v post o,
  (0 <= d)%Q /\ spaced smp /\ cond_run (new_cond d NONE) (evals smp) = Some os /\
  smp = pre ++ (t, v) :: post /\ nth_error os (length pre) = Some o /\
  out_value o = true /\ value_at smp (t - d) = false.
Proof.
  exists 1%Q, [(0, false); (9#10, true); (1, false); (5#2, false)]%Q. eexists.
  exists [(0, false); (9#10, true); (1, false)]%Q, (5#2)%Q, false, []. eexists.
  split; [lra|]. split; [cbn; unfold SMALL; repeat split; lra|]. split; [vm_compute; reflexivity|].
  split; [reflexivity|]. split; [reflexivity|]. split; reflexivity.
Qed.
(** evaluating twice at the same time can read outside the history vector *)
Theorem C08_same_time_oob_refuted : exists smp, cond_run (new_cond 0 NONE) (evals smp) = None.
Proof. exists [(0, false); (1, true); (1, false)]%Q. vm_compute. reflexivity. Qed.
(** registering at an earlier time (ghost restart) can leave the history unsorted *)
Theorem C08_restart_sorted_refuted : exists h t v,
  sorted (values h) /\ ~ sorted (values (fst (register_value h t v))).
Proof.
  exists (mkHist [(0, false); (1, true); (2, false)]%Q 3), (1#2)%Q, false. split.
  - cbn. repeat split; intros e H; unfold SMALL; repeat (destruct H as [<-|H]; [cbn; lra|]); contradiction.
  - cbn. intros (_ & H & _). specialize (H ((1#2)%Q, false)). cbn in H. unfold SMALL in H.
    assert (1 + (1 # 1000000) <= 1 # 2)%Q by (apply H; auto). lra.
Qed.
Example C08_ex : let u := uniform 0 (1#10) [false; true; true; false; false; false] in
  option_map (map out_value) (cond_run (new_cond (2#10) NONE) (evals u)) = Some [false; false; false; true; true; false]
  /\ (SMALL <= 1#10)%Q.
Proof. vm_compute. split; auto; discriminate. Qed.

(** * C09 triggers *)
(** one evaluation: true iff some non-empty group has all its conditions reporting true *)
Theorem C09_trigger_value dflt gs t b gs' : gs <> [] -> trigger_evaluate dflt gs t = Some (b, gs') ->
  (b = true <-> exists g, In g gs /\ g <> [] /\ forall cr, In cr g -> holds t cr).
Proof. exact (trigger_spec dflt gs t b gs'). Qed.
(** whole runs, any number of groups and conditions, any non-negative delays: the trigger value of every
    step is the OR over groups of the AND over conditions of their specified (delayed) outcomes,
    computed from the complete raw history although the code skips some evaluations *)
Theorem C09_trigger_run dflt ds steps :
  ds <> [] -> (forall g d, In g ds -> In d g -> (0 <= d)%Q) -> spaced (times steps) ->
  exists bs, trigger_run dflt (map (map (fun d => new_cond d NONE)) ds) steps = Some bs /\ length bs = length steps /\
    forall pre t rw post b, steps = pre ++ (t, rw) :: post -> nth_error bs (length pre) = Some b ->
      (b = true <-> exists i g, nth_error ds i = Some g /\ g <> [] /\
                     forall j d, nth_error g j = Some d -> reports d (samples i j pre) t (rw i j)).
Proof. exact (trigger_run_spec dflt ds steps). Qed.
(** delayed conditions are evaluated in every step *)
Theorem C09_delayed_always_evaluated cs t acc b cs' : group_loop cs t acc = Some (b, cs') ->
  length cs' = length cs /\
  forall i c raw c', nth_error cs i = Some (c, raw) -> nth_error cs' i = Some c' -> (0 < delay c)%Q ->
    exists o, cond_evaluate c t raw = Some (o, c').
Proof. exact (group_loop_delayed cs t acc b cs'). Qed.

(** with edges the outcome depends on the order of the conditions inside the group: the skipped
    condition compares with a stale outcome *)
Definition order_steps : list tstep :=
  [(0%Q, fun _ j => match j with 0 => true | _ => false end);
   (1%Q, fun _ j => match j with 0 => false | _ => true end);
   (2%Q, fun _ j => match j with 0 => false | _ => true end);
   (3%Q, fun _ j => true)].
Definition order_steps_swapped : list tstep := map (fun s => (fst s, fun i j => snd s i (1 - j))) order_steps.
Theorem C09_edge_order_refuted :
  trigger_run false [[new_cond 0 NONE; new_cond 0 RISING]] order_steps = Some [false; false; false; true] /\
  trigger_run false [[new_cond 0 RISING; new_cond 0 NONE]] order_steps_swapped = Some [false; false; false; false].
Proof. vm_compute. split; reflexivity. Qed.
Example C09_ex :
  let steps := [(0%Q, fun i j => Nat.eqb i 1); (1%Q, fun i j => negb (Nat.eqb i 1)); (2%Q, fun i j => Nat.eqb j 0)] in
  spaced (times steps) /\
  trigger_run false (map (map (fun d => new_cond d NONE)) [[0; 1]; [0]]%Q) steps = Some [true; false; true].
Proof. vm_compute. repeat split; discriminate. Qed.

Print Assumptions C06_double_complements.
Print Assumptions C06_float_complements.
Print Assumptions C06_string.
Print Assumptions C07_edge.
Print Assumptions C07_callback.
Print Assumptions C08_delay.
Print Assumptions C08_delay_fixed_step.
Print Assumptions C09_trigger_value.
Print Assumptions C09_trigger_run.
