(** Property theorems for C10: triggering entities any / all. *)
From Verif Require Import QAux CondModel EntCondModel EntCondProofs.
Local Open Scope nat_scope.

(** distance, relative distance, traveled distance, acceleration, speed, relative speed, angle *)
Theorem C10_simple_any l : check_fresh ANY l = true <-> any_spec e_active e_out l.
Proof. exact (check_fresh_any l). Qed.
Theorem C10_simple_all l : check_fresh ALL l = true <-> all_spec e_active e_out l.
Proof. exact (check_fresh_all l). Qed.
Example C10_simple_ex :
  let l := [mkEnt true true; mkEnt false false; mkEnt true true] in
  check_fresh ALL l = true /\ check_fresh ANY (l ++ [mkEnt true false]) = true /\
  check_fresh ALL (l ++ [mkEnt true false]) = false.
Proof. vm_compute. auto. Qed.

(** rule any holds for every other condition too *)
Theorem C10_headway_ttc_any l : check_defined ANY l = true <-> any_spec e_active e_out l.
Proof. exact (check_defined_any l). Qed.
Theorem C10_collision_endofroad_any l : check_sticky ANY l = true <-> any_spec e_active e_out l.
Proof. exact (sticky_any l false eq_refl). Qed.
Theorem C10_reach_any co l : check_reach co ANY l = true <-> any_spec rp_active (rp_ok co) l.
Proof. exact (reach_any co l false eq_refl). Qed.
Theorem C10_standstill_offroad_any d now l : (0 <= d)%Q ->
  (check_duration ANY d now l = true <-> any_spec du_active (du_ok d now) l).
Proof. exact (fun H => duration_any d now l 0%Q false H eq_refl). Qed.
Example C10_any_ex :
  check_duration ANY 1 10 [mkDu true None; mkDu false (Some 0%Q); mkDu true (Some 2%Q)] = true /\
  check_reach true ANY [mkRp true true false; mkRp true true true] = true /\
  check_sticky ANY [mkEnt true false; mkEnt true true] = true.
Proof. vm_compute. auto. Qed.

(** rule all, clearance: correct *)
Theorem C10_clearance_all l : l <> [] -> (check_clear ALL l = true <-> forall e, In e l -> cl_ok e = true).
Proof. exact (clear_all l false false eq_refl). Qed.
(** rule any, clearance: correct when every triggering entity has at least one object to compare with *)
Theorem C10_clearance_any_partial l : (forall e, In e l -> cl_checked e = true) ->
  (check_clear ANY l = true <-> exists e, In e l /\ cl_ok e = true).
Proof. exact (clear_any l false false eq_refl). Qed.
(** otherwise a stale "object found" of the previous entity wins *)
Theorem C10_clearance_any_refuted : exists l, check_clear ANY l = false /\ exists e, In e l /\ cl_ok e = true.
Proof. exists [mkCl [None; Some true] true; mkCl [None; None] true]. split; [reflexivity|]. exists (mkCl [None; None] true). cbn; auto. Qed.
Example C10_clear_ex : check_clear ALL [mkCl [Some false; None] true; mkCl [] true] = true /\
  cl_checked (mkCl [Some false; None] true) = true.
Proof. auto. Qed.

(** rule all of collision / end of road: only the first active entity decides *)
Theorem C10_sticky_all_partial l : check_sticky ALL l = true <->
  exists l1 e l2, l = l1 ++ e :: l2 /\ (forall x, In x l1 -> e_active x = false) /\ e_active e = true /\ e_out e = true.
Proof. exact (sticky_all l). Qed.
Theorem C10_sticky_all_refuted : exists l, check_sticky ALL l = true /\ ~ all_spec e_active e_out l.
Proof.
  exists [mkEnt true true; mkEnt true false]. split; [reflexivity|]. intros [_ H].
  specialize (H (mkEnt true false)). cbn in H. discriminate H; auto.
Qed.
Theorem C10_reach_all_refuted : exists l, check_reach false ALL l = true /\ ~ all_spec rp_active (rp_ok false) l.
Proof.
  exists [mkRp true true true; mkRp true false true]. split; [reflexivity|]. intros [_ H].
  specialize (H (mkRp true false true)). cbn in H. discriminate H; auto.
Qed.
(** rule all of stand still / off road: the duration of an earlier entity is reused *)
Theorem C10_duration_all_refuted : exists d now l,
  check_duration ALL d now l = true /\ ~ all_spec du_active (du_ok d now) l.
Proof.
  exists 1%Q, 10%Q, [mkDu true (Some 0%Q); mkDu true None]. split; [reflexivity|]. intros [_ H].
  specialize (H (mkDu true None)). cbn in H. discriminate H; auto.
Qed.
(** rule all of headway / time to collision: exact law, and order dependence *)
Theorem C10_headway_ttc_all_partial l e : check_defined ALL (l ++ [e]) = true <->
  e_active e = true /\ e_out e = true /\ forall e', In e' l -> e_active e' = true -> e_out e' = true.
Proof. exact (defined_all_snoc l e false). Qed.
Theorem C10_headway_ttc_order_refuted : exists e1 e2,
  check_defined ALL [e1; e2] = true /\ check_defined ALL [e2; e1] = false.
Proof. exists (mkEnt false false), (mkEnt true true). auto. Qed.

Print Assumptions C10_simple_any.
Print Assumptions C10_simple_all.
Print Assumptions C10_headway_ttc_any.
Print Assumptions C10_standstill_offroad_any.
Print Assumptions C10_clearance_all.
