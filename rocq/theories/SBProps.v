(** Theorems C01-C05: storyboard life cycle, stop, execution counts, priorities, control domains. *)
From Coq Require Import List ZArith Lia Bool Arith NArith.
From Verif Require Import SBModel SBProofs SBProofs2.
Import ListNotations.
Local Open Scope nat_scope.

(* ------------------------------------------------------------------ *)
(** * A concrete storyboard for the examples: 0 storyboard, 1 story, 2 act, 3 maneuver group, 4 maneuver,
    events 5 and 6 (with start triggers) with actions 7 and 8, init actions 9 and 10. *)
Definition ex_kids (x : nat) : list nat :=
  match x with 0 => [1] | 1 => [2] | 2 => [3] | 3 => [4] | 4 => [5; 6] | 5 => [7] | 6 => [8] | _ => [] end.
Definition ex_par (x : nat) : option nat :=
  match x with 1 => Some 0 | 2 => Some 1 | 3 => Some 2 | 4 => Some 3 | 5 => Some 4 | 6 => Some 4 | 7 => Some 5 | 8 => Some 6 | _ => None end.
Definition ex_ty (x : nat) : etype :=
  match x with 0 => STORY_BOARD | 1 => STORY | 2 => ACT | 3 => MANEUVER_GROUP | 4 => MANEUVER | 5 => EVENT | 6 => EVENT | _ => ACTION end.
Definition ex_tree (mx : nat -> Z) (pr : nat -> prio) (obj : nat -> option nat) (dom : nat -> N) : tree :=
  mkTree ex_kids ex_par ex_ty mx (fun x => match x with 5 | 6 => true | _ => false end)
    (fun x => match x with 2 => true | _ => false end) pr (fun x => 7 <=? x) obj dom (fun _ => None)
    (fun o => if Nat.eqb o 0 then [9; 10] else []) (fun o => if Nat.eqb o 0 then [5; 6] else []) [9; 10].

Lemma ex_wf mx pr obj dom : wf (ex_tree mx pr obj dom).
Proof.
  constructor; simpl.
  - intros x c. do 9 (destruct x as [|x]; [do 9 (destruct c as [|c]; [simpl; intuition (congruence || lia)|]); simpl; intuition (congruence || lia)|]).
    simpl. do 9 (destruct c as [|c]; [simpl; intuition (congruence || lia)|]). simpl. intuition congruence.
  - intros x. do 9 (destruct x as [|x]; [simpl; repeat constructor; simpl; intuition congruence|]). simpl. constructor.
  - exists (fun x => x). intros x p. do 9 (destruct x as [|x]; [simpl; intros H; try discriminate; injection H as <-; lia|]). discriminate.
  - exists (fun x => 20 - x). intros x p. do 9 (destruct x as [|x]; [simpl; intros H; try discriminate; injection H as <-; lia|]). discriminate.
  - intros x c. do 9 (destruct x as [|x]; [simpl; try discriminate; intros _ [<-|[]]; reflexivity|]). discriminate.
  - intros c x. do 9 (destruct c as [|c]; [simpl; try discriminate; intros _ H; injection H as <-; reflexivity|]). discriminate.
  - intros x. do 9 (destruct x as [|x]; [simpl; try discriminate; reflexivity|]). reflexivity.
  - intros x. do 9 (destruct x as [|x]; [simpl; try discriminate; reflexivity|]). reflexivity.
  - intros x. do 9 (destruct x as [|x]; [simpl; try discriminate; eauto|]). discriminate.
  - intros x m e. do 9 (destruct x as [|x]; [simpl; try discriminate; intros _ H; injection H as <-; simpl; intuition (subst; reflexivity)|]). discriminate.
  - intros x. do 9 (destruct x as [|x]; [simpl; try discriminate; reflexivity|]). discriminate.
  - intros x. do 9 (destruct x as [|x]; [simpl; try discriminate; reflexivity|]). discriminate.
  - intros a [<-|[<-|[]]]; auto.
  - repeat constructor; simpl; intuition congruence.
  - intros o b. destruct (o =? 0); simpl; [|tauto]. intros [<-|[<-|[]]]; auto.
  - intros o e. destruct (o =? 0); simpl; [|tauto]. intros [<-|[<-|[]]]; auto.
Qed.

(** all triggers fire, actions run until stepped the next time; no stop trigger *)
Definition ex_env (stp : bool) (fire : nat -> bool) : env :=
  mkEnv (fun _ x => fire x) (fun _ _ => stp) (fun _ _ => AB_run) (fun _ _ => SB_end) (fun _ _ => false).
(** actions do not end by themselves *)
Definition ex_env_long (fire : nat -> bool) : env :=
  mkEnv (fun _ x => fire x) (fun _ _ => false) (fun _ _ => AB_run) (fun _ _ => SB_none) (fun _ _ => false).
Definition ex1 : tree := ex_tree (fun x => match x with 5 => 2%Z | _ => 1%Z end) (fun _ => PARALLEL) (fun _ => Some 0) (fun x => if 9 <=? x then 0%N else 1%N).
Definition ex_repeat : tree := ex_tree (fun x => match x with 3 => 2%Z | 5 => 2%Z | _ => 1%Z end) (fun _ => PARALLEL) (fun x => Some x) (fun _ => 1%N).

(* ------------------------------------------------------------------ *)
(** * C01 *)

(** For every well-formed storyboard and every behaviour of triggers and actions: the notifications of every element
    follow the life cycle, silent re-arming only concerns descendants of repeating elements, and the state the
    engine holds for an element is the one last reported (or INIT after re-arming). *)
Theorem C01_notifications : forall T, wf T -> forall r, ty T r = STORY_BOARD -> forall f E0 Es w,
  run f T r E0 Es = Some w ->
  (forall x, trace T x (log w) (st w x)) /\ rearms_ok T (log w).
Proof. exact (fun T W r Tr f E0 Es w H => let L := proj2 (run_log T W f r E0 Es w Tr H) in conj (lo_trace T w L) (lo_rearm T w L)). Qed.

(** Every single notification of the log changes the reported state along a life cycle edge. *)
Lemma trace_split T x tr s : forall l1 l2 b, trace T x (l1 ++ Note x tr s :: l2) b ->
  exists a, trace T x l2 a /\ life (is_rep T x) a tr s /\ a <> s.
Proof.
  induction l1 as [|e l1 IH]; intros l2 b H; simpl in H.
  - inversion H; subst; [|congruence]. eexists. split; [eassumption|]. split; [assumption|].
    match goal with H : life _ _ _ _ |- _ => inversion H; discriminate end.
  - inversion H; subst; eauto.
Qed.
Theorem C01_each_notification : forall T, wf T -> forall r, ty T r = STORY_BOARD -> forall f E0 Es w,
  run f T r E0 Es = Some w -> forall l1 x tr s l2, log w = l1 ++ Note x tr s :: l2 ->
  exists a, trace T x l2 a /\ life (is_rep T x) a tr s /\ a <> s.
Proof.
  exact (fun T W r Tr f E0 Es w H l1 x tr s l2 E =>
    trace_split T x tr s l1 l2 (st w x) (eq_ind _ (fun l => trace T x l (st w x)) (proj1 (C01_notifications T W r Tr f E0 Es w H) x) _ E)).
Qed.

(** The engine functions terminate on every well-formed storyboard: the recursion over children and parents is
    finite, so the theorems about [run] are not about an empty set of executions. *)
Theorem C01_terminates : forall T, wf T -> forall r E0 Es, exists N w, forall f, N <= f -> run f T r E0 Es = Some w.
Proof. exact run_tot. Qed.

(** Start refused: an element that is complete (or running) without ever having been executed ignores Start. *)
Theorem C01_start_rejected : forall T w x, st w x = COMPLETE \/ st w x = RUNNING -> nexec w x = 0%Z -> start_self T w x = w.
Proof. intros T w x [E|E] N; unfold start_self; rewrite E, N; reflexivity. Qed.

Example C01_example_log :
  option_map (fun w => rev (log w)) (run 30 ex1 0 (ex_env false (fun _ => true)) [ex_env false (fun x => x =? 5)])
  = Some [ Note 9 START_TRANSITION RUNNING; Note 10 START_TRANSITION RUNNING;
           Note 0 START_TRANSITION RUNNING; Note 1 START_TRANSITION RUNNING; Note 2 START_TRANSITION RUNNING;
           Note 3 START_TRANSITION RUNNING; Note 4 START_TRANSITION RUNNING;
           Note 5 INIT_TO_STBY_TRANSITION STANDBY; Note 6 INIT_TO_STBY_TRANSITION STANDBY;
           Note 5 START_TRANSITION RUNNING; Note 7 START_TRANSITION RUNNING;
           Note 9 END_TRANSITION COMPLETE; Note 10 END_TRANSITION COMPLETE;
           Note 7 END_TRANSITION COMPLETE; Note 5 END_TRANSITION STANDBY; Rearm 7 INIT ].
Proof. vm_compute. reflexivity. Qed.

(* ------------------------------------------------------------------ *)
(** * C02 *)

(** Stop terminates and leaves no element of the subtree active, from any combination of states (reachable or not). *)
Theorem C02_stop : forall T, wf T -> forall w x, exists N w', forall f, N <= f ->
  stop f T w x = Some w' /\ forall y, sub T x y -> ~ active (st w' y).
Proof.
  exact (fun T W w x => match stop_tot T W x w with ex_intro _ N (ex_intro _ w' H) =>
    ex_intro _ N (ex_intro _ w' (fun f Hf => conj (H f Hf) (proj2 (stop_any T W f w x w' (H f Hf))))) end).
Qed.
(** In particular when the stop trigger of a running element fires. *)
Theorem C02_stop_trigger : forall T, wf T -> forall f E w x w',
  st w x = RUNNING -> has_stop T x = true -> fire_stop E w x = true ->
  eval_triggers f T E w x = Some w' -> forall y, sub T x y -> ~ active (st w' y).
Proof. exact eval_triggers_stop. Qed.

Example C02_example :
  option_map (fun w => map (st w) [0; 1; 2; 3; 4; 5; 6; 7; 8])
    (run 30 ex1 0 (ex_env_long (fun _ => true)) [ex_env_long (fun x => x =? 5); ex_env true (fun _ => false)])
  = Some [RUNNING; COMPLETE; COMPLETE; COMPLETE; COMPLETE; COMPLETE; COMPLETE; INIT; INIT].
Proof. vm_compute. reflexivity. Qed.

(* ------------------------------------------------------------------ *)
(** * C03 *)

(** The execution counter is the number of executions reported. *)
Theorem C03_counter : forall T, wf T -> forall r, ty T r = STORY_BOARD -> forall f E0 Es w,
  run f T r E0 Es = Some w -> forall x, nexec w x = starts x (log w).
Proof. exact (fun T W r Tr f E0 Es w H => lo_count T w (proj2 (run_log T W f r E0 Es w Tr H))). Qed.
(** At most maximumExecutionCount executions between two re-armings from outside (hence at most that many in
    total if the element is never re-armed from outside). *)
Theorem C03_bound : forall T, wf T -> forall r, ty T r = STORY_BOARD -> forall f E0 Es w,
  run f T r E0 Es = Some w -> forall x, is_rep T x -> (0 < maxe T x)%Z -> (starts_since x (log w) <= maxe T x)%Z.
Proof. exact (fun T W r Tr f E0 Es w H x R M => proj1 (lo_since T w (proj2 (run_log T W f r E0 Es w Tr H)) x R M)). Qed.
(** The end of an execution is reported as COMPLETE exactly when the count has reached the maximum; otherwise the
    element returns to STANDBY. *)
Theorem C03_complete_iff : forall T, wf T -> forall r, ty T r = STORY_BOARD -> forall f E0 Es w,
  run f T r E0 Es = Some w -> forall l1 l2 x s, log w = l1 ++ Note x END_TRANSITION s :: l2 -> is_rep T x ->
  (s = COMPLETE <-> maxe T x <> (-1)%Z /\ (maxe T x <= starts x l2)%Z).
Proof. exact (fun T W r Tr f E0 Es w H => lo_ends T w (proj2 (run_log T W f r E0 Es w Tr H))). Qed.
(** An element without limit never completes by ending. *)
Theorem C03_unlimited : forall T, wf T -> forall r, ty T r = STORY_BOARD -> forall f E0 Es w,
  run f T r E0 Es = Some w -> forall x, is_rep T x -> maxe T x = (-1)%Z ->
  ~ In (Note x END_TRANSITION COMPLETE) (log w).
Proof.
  exact (fun T W r Tr f E0 Es w H x R M Hin => match in_split _ _ Hin with ex_intro _ l1 (ex_intro _ l2 E) =>
    proj1 (proj1 (C03_complete_iff T W r Tr f E0 Es w H l1 l2 x COMPLETE E R) eq_refl) M end).
Qed.

(** The counter is not reset when an enclosing maneuver group repeats: "in every period between re-armings an event
    that completes by ending has executed maximumExecutionCount times" is false (the second period has one execution
    of two). *)
Theorem C03_fresh_count_refuted :
  ~ (forall T, wf T -> forall r, ty T r = STORY_BOARD -> forall f E0 Es w, run f T r E0 Es = Some w ->
     forall l1 l2 x, log w = l1 ++ Note x END_TRANSITION COMPLETE :: l2 -> is_rep T x -> (0 < maxe T x)%Z ->
     (maxe T x <= starts_since x l2)%Z).
Proof.
  intros H.
  pose (E := ex_env false (fun _ => true)).
  destruct (run 40 ex_repeat 0 E [E; E; E; E; E]) as [w|] eqn:R; [|vm_compute in R; discriminate].
  assert (L : exists l1 l2, log w = l1 ++ Note 5 END_TRANSITION COMPLETE :: l2 /\ starts_since 5 l2 = 1%Z).
  { assert (Lg : option_map log (run 40 ex_repeat 0 E [E; E; E; E; E]) = Some (log w)) by (rewrite R; reflexivity).
    remember (log w) as lw eqn:Elw. clear Elw. vm_compute in Lg. injection Lg as Lg. rewrite <- Lg.
    eexists [_; _; _; _; _; _], _. split; [reflexivity|reflexivity]. }
  destruct L as (l1 & l2 & E1 & E2).
  specialize (H ex_repeat (ex_wf _ _ _ _) 0 eq_refl 40 E _ w R l1 l2 5 E1 (or_intror eq_refl) ltac:(reflexivity)).
  rewrite E2 in H. vm_compute in H. congruence.
Qed.
Example C03_example :
  let E := ex_env false (fun _ => true) in
  option_map (fun w => (starts 5 (log w), st w 5)) (run 40 ex1 0 E [E]) = Some (1%Z, STANDBY) /\
  option_map (fun w => (starts 5 (log w), st w 5)) (run 40 ex1 0 E [E; E]) = Some (2%Z, COMPLETE) /\
  option_map (fun w => (starts 5 (log w), st w 5)) (run 40 ex1 0 E [E; E; E; E]) = Some (2%Z, COMPLETE).
Proof. vm_compute. auto. Qed.

(* ------------------------------------------------------------------ *)
(** * C04 *)

(** The invariant used below holds in every world reached by the engine. *)
Theorem C04_reachable : forall T, wf T -> forall r, ty T r = STORY_BOARD -> forall f E0 Es w,
  run f T r E0 Es = Some w -> Inv T w.
Proof. exact (fun T W r Tr f E0 Es w H => proj1 (run_log T W f r E0 Es w Tr H)). Qed.
(** skip, another event of the maneuver running: nothing happens at all *)
Theorem C04_skip_blocked : forall T, wf T -> forall f E w x m e, par T x = Some m -> prio_of T x = SKIP ->
  par T e = Some m -> st w e = RUNNING -> start_event f T E w x = Some w.
Proof. exact skip_blocked. Qed.
(** skip, no event of the maneuver running: it starts *)
Theorem C04_skip_starts : forall T, wf T -> forall f E w x m w', Inv T w -> ty T x = EVENT -> par T x = Some m ->
  prio_of T x = SKIP -> st w x = STANDBY -> (forall e, par T e = Some m -> st w e <> RUNNING) ->
  start_event f T E w x = Some w' -> nexec w' x = (nexec w x + 1)%Z.
Proof. exact skip_starts. Qed.
(** overwrite: it starts; no other event of the maneuver is running when it starts nor afterwards *)
Theorem C04_overwrite : forall T, wf T -> forall f E w x m w', Inv T w -> ty T x = EVENT -> par T x = Some m ->
  prio_of T x = OVERWRITE -> st w x = STANDBY -> start_event f T E w x = Some w' ->
  nexec w' x = (nexec w x + 1)%Z /\
  (forall e, par T e = Some m -> e <> x -> st w' e <> RUNNING) /\
  exists w1, nexec w1 = nexec w /\ st w1 x = STANDBY /\ (forall e, par T e = Some m -> e <> x -> st w1 e <> RUNNING) /\
    event_go f T E w1 x = Some w'.
Proof. exact overwrite_starts. Qed.
(** parallel: it starts *)
Theorem C04_parallel : forall T, wf T -> forall f E w x m w', Inv T w -> ty T x = EVENT -> par T x = Some m ->
  prio_of T x = PARALLEL -> st w x = STANDBY -> start_event f T E w x = Some w' -> nexec w' x = (nexec w x + 1)%Z.
Proof. exact parallel_starts. Qed.
(** parallel or skip: a running action of another event that does not share a control domain with an action of the
    started event on the same object keeps running, and so does its event *)
Theorem C04_others_unaffected : forall T, wf T -> forall f E w x w' e b, Inv T w -> ty T x = EVENT -> st w x = STANDBY ->
  prio_of T x = PARALLEL \/ prio_of T x = SKIP ->
  start_event f T E w x = Some w' ->
  ty T e = EVENT -> e <> x -> par T b = Some e -> st w b = RUNNING ->
  (forall a, In a (kids T x) -> a_obj T a = a_obj T b -> N.land (a_dom T b) (a_dom T a) = 0%N) ->
  st w' b = RUNNING /\ st w' e = RUNNING.
Proof. exact unrelated_keeps. Qed.
(** the event start always returns *)
Theorem C04_terminates : forall T, wf T -> forall E x w, ty T x = EVENT ->
  exists N w', forall f, N <= f -> start_event f T E w x = Some w'.
Proof. exact start_event_tot. Qed.

Definition ex_prio (p : prio) (d : nat -> N) : tree := ex_tree (fun _ => 1%Z) (fun x => if x =? 6 then p else PARALLEL) (fun _ => Some 0) d.
Definition ex_prio_run (p : prio) (d : nat -> N) :=
  option_map (fun w => (st w 5, st w 6))
    (run 40 (ex_prio p d) 0 (ex_env_long (fun _ => true)) [ex_env_long (fun x => x =? 5); ex_env_long (fun x => x =? 6)]).
Example C04_example :
  ex_prio_run OVERWRITE (fun x => N.of_nat x) = Some (COMPLETE, RUNNING) /\
  ex_prio_run SKIP (fun x => N.of_nat x) = Some (RUNNING, STANDBY) /\
  ex_prio_run PARALLEL (fun x => N.of_nat x) = Some (RUNNING, RUNNING) /\
  ex_prio_run PARALLEL (fun x => 1%N) = Some (COMPLETE, RUNNING).
Proof. vm_compute. auto. Qed.

(* ------------------------------------------------------------------ *)
(** * C05 *)

(** After an event has started, no action of the event shares a control domain (or lamp) with another running
    registered private action of the same object. *)
Theorem C05_event : forall T, wf T -> forall f E w x w', lights_ok T -> Inv T w -> ty T x = EVENT -> st w x = STANDBY ->
  start_event f T E w x = Some w' ->
  forall o a b, In a (kids T x) -> a <> b -> a_private T a = true -> a_private T b = true ->
    a_obj T a = Some o -> a_obj T b = Some o -> registered T o a -> registered T o b ->
    st w' a = RUNNING -> st w' b = RUNNING -> ~ clash T a b.
Proof. exact event_exclusive. Qed.
(** If the init actions do not compete among themselves, then at the end of every step of every execution no two
    running private actions of an object compete. *)
Theorem C05_run : forall T, wf T -> forall f r E0 Es w, lights_ok T -> ty T r = STORY_BOARD ->
  (forall a b o, In a (sb_init T) -> In b (sb_init T) -> a <> b -> a_private T a = true -> a_private T b = true ->
     a_obj T a = Some o -> a_obj T b = Some o -> ~ clash T a b) ->
  run f T r E0 Es = Some w -> exclusive T w.
Proof. exact run_exclusive. Qed.
(** Without that assumption it is false: init actions are started without any conflict check. *)
Theorem C05_init_actions_refuted :
  ~ (forall T, wf T -> forall f r E0 Es w, lights_ok T -> ty T r = STORY_BOARD -> run f T r E0 Es = Some w -> exclusive T w).
Proof.
  intros H. pose (T := ex_tree (fun _ => 1%Z) (fun _ => PARALLEL) (fun _ => Some 0) (fun _ => 1%N)).
  pose (E := ex_env_long (fun _ => false)).
  destruct (run 40 T 0 E [E]) as [w|] eqn:R; [|vm_compute in R; discriminate].
  assert (L : lights_ok T) by (intros b Hb; discriminate Hb).
  assert (S : option_map (fun w => (st w 9, st w 10)) (run 40 T 0 E [E]) = Some (st w 9, st w 10)) by (rewrite R; reflexivity).
  remember (st w 9) as s9 eqn:E9. remember (st w 10) as s10 eqn:E10. vm_compute in S. injection S as S1 S2.
  refine (H T (ex_wf _ _ _ _) 40 0 E [E] w L eq_refl R 0 9 10 ltac:(discriminate) eq_refl eq_refl eq_refl eq_refl _ _ _ _ _).
  - left. simpl. auto.
  - left. simpl. auto.
  - congruence.
  - congruence.
  - exists 0%N. split; [reflexivity|]. split; [reflexivity|]. discriminate.
Qed.
(** lamps in common are always detected *)
Theorem C05_lamps : forall ta tb l, In l (lamps ta) -> In l (lamps tb) -> check_conflicting_lights ta tb = true.
Proof. exact lamps_check. Qed.
Example C05_example :
  let T := ex_tree (fun _ => 1%Z) (fun _ => PARALLEL) (fun _ => Some 0) (fun x => if x =? 10 then 2%N else 1%N) in
  option_map (fun w => (st w 9, st w 10, st w 7))
    (run 40 T 0 (ex_env_long (fun _ => true)) [ex_env_long (fun x => x =? 5)]) = Some (COMPLETE, RUNNING, RUNNING).
Proof. vm_compute. reflexivity. Qed.

Print Assumptions C01_notifications.
Print Assumptions C01_each_notification.
Print Assumptions C01_terminates.
Print Assumptions C01_start_rejected.
Print Assumptions C02_stop.
Print Assumptions C02_stop_trigger.
Print Assumptions C03_counter.
Print Assumptions C03_bound.
Print Assumptions C03_complete_iff.
Print Assumptions C03_unlimited.
Print Assumptions C03_fresh_count_refuted.
Print Assumptions C04_reachable.
Print Assumptions C04_skip_blocked.
Print Assumptions C04_skip_starts.
Print Assumptions C04_overwrite.
Print Assumptions C04_parallel.
Print Assumptions C04_others_unaffected.
Print Assumptions C04_terminates.
Print Assumptions C05_event.
Print Assumptions C05_run.
Print Assumptions C05_init_actions_refuted.
Print Assumptions C05_lamps.
