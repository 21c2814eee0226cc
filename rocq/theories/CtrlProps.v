(** * Properties of controllers: activation per domain, C54_assignment, the actions that change them *)
From Coq Require Import List Bool ZArith NArith Lia.
From Verif Require Import CtrlModel CtrlProofs.
Import ListNotations.

(** Controllers for the examples: number and name k, base type. *)
Definition plain (k : N) (type : Z) (active : N) (o : option N) : ctrl := Ctrl k type 3 active MODE_OVERRIDE o false true 0 false.
Definition world_of (l : list (N * ctrl)) (os : list (N * list N)) : world :=
  W (fun k => match find (fun x => fst x =? k)%N l with Some x => snd x | None => plain k 0 0 None end)
    (fun o => match find (fun x => fst x =? o)%N os with Some x => snd x | None => [] end).

(** ** One controller *)

(** Activation changes each domain as requested, where it can operate; the others and the rest of the controller stay. *)
Theorem C54_activation_per_domain c mode d :
  (requests mode d OFF -> ~ on (Activate_base c mode) d) /\
  (requests mode d ON -> on (Activate_base c mode) d <-> on c d \/ operates c d) /\
  (~ requests mode d OFF /\ ~ requests mode d ON -> on (Activate_base c mode) d <-> on c d).
Proof.
  unfold requests, on, operates. rewrite activate_bit. destruct (Nat.ltb_spec d 4) as [L|L].
  - destruct (nth d mode UNDEFINED); cbn.
    + split; [intros [_ F]; discriminate|]. split; [intros [_ F]; discriminate|]. intros _. reflexivity.
    + split; [intros _; discriminate|]. split; [intros [_ F]; discriminate|]. intros [F _]. exfalso. apply F. auto.
    + split; [intros [_ F]; discriminate|]. split; [intros _; apply orb_true_iff|]. intros [_ F]. exfalso. apply F. auto.
  - split; [intros [F _]; lia|]. split; [intros [F _]; lia|]. intros _. reflexivity.
Qed.

Theorem C54_activation_keeps_identity c mode :
  same_ctrl (Activate_base c mode) c /\ c_object (Activate_base c mode) = c_object c /\ c_deleted (Activate_base c mode) = c_deleted c.
Proof. exact (activate_keeps c mode). Qed.

(** The heading is set exactly when the lateral domain is switched off while active, or requested, as the controller asks for, and an object is linked. *)
Theorem C54_activation_alignment c mode :
  c_aligned (Activate_base c mode) = c_aligned c +
  match c_object c, nth 1 mode UNDEFINED with
  | Some _, OFF => if c_align_off c && N.testbit (c_active c) 1 then 1 else 0
  | Some _, ON => if c_align_on c then 1 else 0
  | _, _ => 0
  end.
Proof. exact (activate_aligned c mode). Qed.

Theorem C54_activation_null_object c mode :
  Activate c mode = None <-> needs_object (c_type c) = true /\ c_object c = None.
Proof. exact (activate_none c mode). Qed.

Theorem C54_activation_defined c mode c' : Activate c mode = Some c' -> c' = Activate_base c mode.
Proof. exact (activate_some c mode c'). Qed.

Theorem C54_deactivation_per_domain c mask d : on (DeactivateDomains c mask) d <-> on c d /\ ~ names mask d.
Proof.
  unfold on, names. rewrite deactivate_domains_bit, andb_true_iff, negb_true_iff. rewrite not_true_iff_false. reflexivity.
Qed.

Theorem C54_deactivation_alignment c mask :
  c_aligned (DeactivateDomains c mask) = c_aligned c +
  match c_object c with Some _ => if c_align_off c && N.testbit (c_active c) 1 && N.testbit mask 1 then 1 else 0 | None => 0 end.
Proof. exact (deactivate_domains_aligned c mask). Qed.

Theorem C54_deactivation_keeps_identity c mask :
  same_ctrl (DeactivateDomains c mask) c /\ c_object (DeactivateDomains c mask) = c_object c /\ c_deleted (DeactivateDomains c mask) = c_deleted c.
Proof. exact (deactivate_domains_keeps c mask). Qed.

Theorem C54_deactivation_null_object c : Deactivate c = None <-> c_type c = TYPE_FOLLOW_ROUTE /\ c_object c = None.
Proof. exact (deactivate_none c). Qed.

Theorem C54_deactivation_all c c' : Deactivate c = Some c' -> forall d, d < 4 -> ~ on c' d.
Proof.
  intros H d Hd. apply deactivate_some in H. subst. unfold on. rewrite deactivate_domains_bit, all_bit. apply Nat.ltb_lt in Hd. rewrite Hd, andb_false_r. discriminate.
Qed.

(** The masks and their text. *)
Theorem C54_domain_masks d mask : d < 4 -> (names (ControlDomain2DomainMask d) d /\ (forall x, names (ControlDomain2DomainMask d) x -> x = d)) /\
  (In d (ControlDomainMask2Str mask) <-> names mask d).
Proof.
  intro H. split; [split|].
  - unfold names. rewrite mask_bit, Nat.eqb_refl by exact H. reflexivity.
  - intros x F. unfold names in F. rewrite mask_bit in F by exact H. apply Nat.eqb_eq in F. auto.
  - rewrite mask_str. intuition.
Qed.

Theorem C54_query_on_domains c mask : IsActiveOnDomains c mask = true <-> (forall d, names mask d -> on c d).
Proof. exact (on_domains c mask). Qed.
Theorem C54_query_on_any c mask : IsActiveOnAnyOfDomains c mask = true <-> (exists d, names mask d /\ on c d).
Proof. exact (on_any c mask). Qed.
Theorem C54_query_on_none c mask : IsNotActiveOnDomains c mask = true <-> (forall d, names mask d -> ~ on c d).
Proof. exact (on_none c mask). Qed.
Theorem C54_query_on_only c mask : IsActiveOnDomainsOnly c mask = true <-> (forall d, names mask d <-> on c d).
Proof. exact (on_only c mask). Qed.
Theorem C54_query_active c : IsActive c = true <-> exists d, on c d.
Proof. exact (active_any c). Qed.

Example C54_activation_ex :
  let c := plain 1 0 1 (Some 7%N) in
  c_active (Activate_base c [OFF; ON; ON; UNDEFINED]) = 2%N /\ c_aligned (Activate_base c [OFF; ON; ON; UNDEFINED]) = 1 /\
  c_active (DeactivateDomains (plain 1 0 3 None) 1) = 2%N /\ IsActiveOnDomains c 3 = false /\ IsActiveOnAnyOfDomains c 3 = true /\
  ControlDomainMask2Str 3 = [1; 0] /\ Activate (plain 1 8 0 None) [ON; ON; OFF; OFF] = None /\ Deactivate (plain 1 3 0 None) = None.
Proof. vm_compute. repeat split. Qed.

(** ** All histories *)

(** No sequence of assignments, removals and actions makes a controller active on a domain where it cannot operate, assigns a controller twice to an
    object, or changes what identifies a controller. *)
Theorem C54_active_within_operating w l w' : run w l = Some w' -> within w -> within w'.
Proof. intros H. apply evolves_within. apply run_evolves in H. apply H. Qed.

Theorem C54_assigned_once w l w' o : run w l = Some w' -> NoDup (objs w o) -> NoDup (objs w' o).
Proof. intros H. apply run_evolves in H. apply H. Qed.

Theorem C54_identity_kept w l w' k : run w l = Some w' -> same_ctrl (ctrls w' k) (ctrls w k) /\ c_deleted (ctrls w' k) = c_deleted (ctrls w k).
Proof. intros H. apply run_evolves in H. destruct H as [A [_ C]]. split; [apply A|symmetry; apply C]. Qed.

Example C54_histories_ex :
  let w := world_of [] [] in
  within w /\
  match run w [OpLink 1 (Some 7%N); OpAssign 7 1; OpAssign 7 2; OpAssign 7 1; OpActivateAction 7 3 (Some 2%N) [ON; ON; ON; ON]; OpAssignAction (Some 7%N) (Some 3%N) ON OFF OFF OFF; OpUnassign 7 1] with
  | Some w' => objs w' 7%N = [2%N; 3%N] /\ c_active (ctrls w' 2%N) = 3%N /\ c_active (ctrls w' 3%N) = 1%N
  | None => False
  end.
Proof. split; [intros k d; discriminate|]. vm_compute. repeat split. Qed.

(** ** Queries of an object *)

Theorem C54_object_active_on_domains w o mask type :
  IsControllerActiveOnDomains w o mask type = true <-> (exists k, In k (objs w o) /\ forall d, names mask d -> on (ctrls w k) d).
Proof. exact (active_on_domains w o mask type). Qed.

Theorem C54_object_active_on_any w o mask type :
  IsControllerActiveOnAnyOfDomains w o mask type = true <-> (exists k, In k (objs w o) /\ exists d, names mask d /\ on (ctrls w k) d).
Proof. exact (active_on_any w o mask type). Qed.

(** The mode is that of the first controller active on the domains. *)
Theorem C54_object_mode_on_domains w o mode mask type :
  IsControllerModeOnDomains w o mode mask type = true <->
  (exists k, is_first (fun x => forall d, names mask d -> on (ctrls w x) d) (objs w o) k /\ c_mode (ctrls w k) = mode).
Proof. apply mode_on. intro x. apply on_domains. Qed.

Theorem C54_object_mode_on_any w o mode mask type :
  IsControllerModeOnAnyOfDomains w o mode mask type = true <->
  (exists k, is_first (fun x => exists d, names mask d /\ on (ctrls w x) d) (objs w o) k /\ c_mode (ctrls w k) = mode).
Proof. apply mode_on. intro x. apply on_any. Qed.

Theorem C54_object_controller_of_type w o type :
  (forall k, GetAssignedControllerOftype w o type = Some k <-> is_first (fun x => c_type (ctrls w x) = type) (objs w o) k) /\
  (IsAnyAssignedControllerOfType w o type = true <-> exists k, In k (objs w o) /\ c_type (ctrls w k) = type) /\
  (IsAnyActiveControllerOfType w o type = true <-> exists k, In k (objs w o) /\ c_type (ctrls w k) = type /\ exists d, on (ctrls w k) d).
Proof.
  split; [intro k; apply find_first; intro x; apply Z.eqb_eq|]. split.
  - unfold IsAnyAssignedControllerOfType, GetAssignedControllerOftype. destruct (find _ _) as [k|] eqn:E.
    + apply find_some in E. destruct E as [I E]. apply Z.eqb_eq in E. split; [intros _; exists k; auto|reflexivity].
    + split; [discriminate|]. intros [k [I F]]. pose proof (find_none _ _ E k I) as G. cbn in G. apply Z.eqb_neq in G. congruence.
  - unfold IsAnyActiveControllerOfType. destruct (find _ _) as [k|] eqn:E.
    + apply find_some in E. destruct E as [I E]. apply andb_true_iff in E. destruct E as [E1 E2]. apply Z.eqb_eq in E2. apply active_any in E1.
      split; [intros _; exists k; auto|reflexivity].
    + split; [discriminate|]. intros [k [I [F A]]]. pose proof (find_none _ _ E k I) as G. cbn in G. apply active_any in A. rewrite A, F, Z.eqb_refl in G. discriminate.
Qed.

Theorem C54_object_controller_on_domain w o d : d < 4 ->
  (forall k, GetControllerActiveOnDomainMask w o (ControlDomain2DomainMask d) = Some k <-> is_first (fun x => on (ctrls w x) d) (objs w o) k) /\
  (GetControllerActiveOnDomainMask w o (ControlDomain2DomainMask d) = None <-> (forall k, In k (objs w o) -> ~ on (ctrls w k) d)).
Proof. intro H. split; [intro k; apply get_active_one; exact H|apply get_active_none; exact H]. Qed.

(** The type of the queries on domains makes no difference. *)
Theorem C54_object_query_by_type_refuted :
  (forall w o mask type type', IsControllerActiveOnDomains w o mask type = IsControllerActiveOnDomains w o mask type') /\
  exists w o, IsControllerActiveOnDomains w o MASK_LAT 4 = true /\ ~ (exists k, In k (objs w o) /\ c_type (ctrls w k) = 4%Z).
Proof.
  split.
  - intros. apply eq_true_iff_eq. rewrite !C54_object_active_on_domains. reflexivity.
  - exists (world_of [(1%N, plain 1 8 2 (Some 7%N))] [(7%N, [1%N])]), 7%N. split; [reflexivity|]. intros [k [[<-|[]] F]]. discriminate.
Qed.

(** Both domains are controlled, but not by one controller: the query says no. *)
Theorem C54_object_active_jointly_refuted :
  exists w o, (forall d, names 3 d -> exists k, In k (objs w o) /\ on (ctrls w k) d) /\ IsControllerActiveOnDomains w o 3 TYPE_UNDEFINED = false.
Proof.
  exists (world_of [(1%N, plain 1 0 1 None); (2%N, plain 2 0 2 None)] [(7%N, [1%N; 2%N])]), 7%N. split; [|reflexivity].
  intros d H. destruct d as [|[|d]].
  - exists 1%N. split; [left; reflexivity|reflexivity].
  - exists 2%N. split; [right; left; reflexivity|reflexivity].
  - exfalso. unfold names in H. rewrite N.bits_above_log2 in H; [discriminate|]. change (N.log2 3) with 1%N. lia.
Qed.

Example C54_object_query_ex :
  let w := world_of [(1%N, plain 1 8 1 None); (2%N, plain 2 16 2 None)] [(7%N, [1%N; 2%N])] in
  GetControllerActiveOnDomainMask w 7 MASK_LAT = Some 2%N /\ GetControllerActiveOnDomainMask w 7 MASK_LIGHT = None /\
  IsControllerModeOnDomains w 7 MODE_OVERRIDE MASK_LAT TYPE_UNDEFINED = true /\ IsControllerModeOnAnyOfDomains w 7 MODE_ADDITIVE 3 TYPE_UNDEFINED = false /\
  IsAnyActiveControllerOfType w 7 16 = true /\ GetAssignedControllerOftype w 7 9 = None.
Proof. vm_compute. repeat split. Qed.

(** ** Assignment and C54_removal *)

Theorem C54_assignment w o k :
  (exists l, objs (AssignController w o k) o = l ++ [k] /\ forall x, In x l <-> In x (objs w o) /\ x <> k) /\
  (forall x, x <> o -> objs (AssignController w o k) x = objs w x) /\ ctrls (AssignController w o k) = ctrls w.
Proof.
  destruct (assign_obj w o k) as [A [B C]]. split; [|split; assumption]. exists (without k (objs w o)). split; [exact A|]. intro x. apply in_without.
Qed.

Theorem C54_assignment_order w o k : NoDup (objs w o) -> ~ In k (objs w o) -> objs (AssignController w o k) o = objs w o ++ [k].
Proof. intros _ H. destruct (assign_obj w o k) as [A _]. rewrite A, without_notin by exact H. reflexivity. Qed.

Theorem C54_removal w o k w' :
  UnassignController w o k = Some w' ->
  (forall x, In x (objs w' o) <-> In x (objs w o) /\ x <> k) /\ (forall x, x <> o -> objs w' x = objs w x) /\ (forall x, x <> k -> ctrls w' x = ctrls w x) /\
  (In k (objs w o) -> c_object (ctrls w' k) = None /\ (forall d, d < 4 -> ~ on (ctrls w' k) d)) /\ (~ In k (objs w o) -> ctrls w' k = ctrls w k).
Proof.
  intro H. destruct (unassign_spec w o k w' H) as [A [B [C [D [E _]]]]]. split; [intro x; rewrite A; apply in_without|]. auto.
Qed.

Theorem C54_removal_fails w o k :
  UnassignController w o k = None <-> In k (objs w o) /\ (c_deleted (ctrls w k) = true \/ c_type (ctrls w k) = TYPE_FOLLOW_ROUTE).
Proof. exact (unassign_none w o k). Qed.

(** Removal unlinks before it deactivates; the controller that follows a route then uses its null object, for every state it can be in. *)
Theorem C54_removal_follow_route_refuted :
  exists w o k, In k (objs w o) /\ c_object (ctrls w k) = Some o /\ c_deleted (ctrls w k) = false /\ UnassignController w o k = None.
Proof. exists (world_of [(1%N, plain 1 3 3 (Some 7%N))] [(7%N, [1%N])]), 7%N, 1%N. vm_compute. repeat split; auto. Qed.

Theorem C54_removal_of_all w o w' :
  UnassignControllers w o = Some w' ->
  objs w' o = [] /\ (forall x, x <> o -> objs w' x = objs w x) /\ (forall k, ~ In k (objs w o) -> ctrls w' k = ctrls w k) /\
  (forall k, In k (objs w o) -> forall d, d < 4 -> ~ on (ctrls w' k) d) /\ (forall k, c_object (ctrls w' k) = c_object (ctrls w k)).
Proof.
  unfold UnassignControllers. destruct (deactivate_all w (objs w o)) as [w1|] eqn:E; [|discriminate]. intro H. injection H as <-.
  destruct (deactivate_all_spec _ _ _ E) as [A [B [C [K M]]]]. split; [apply obj_set_same|]. split; [intros x Hx; rewrite obj_set_other by exact Hx; rewrite A; reflexivity|].
  split; [exact B|]. split; [exact C|]. intro k. apply K.
Qed.

Theorem C54_removal_of_all_fails w o :
  UnassignControllers w o = None <->
  (exists k, In k (objs w o) /\ (c_deleted (ctrls w k) = true \/ c_type (ctrls w k) = TYPE_FOLLOW_ROUTE /\ c_object (ctrls w k) = None)).
Proof.
  rewrite <- deactivate_all_none. unfold UnassignControllers. destruct (deactivate_all w (objs w o)); split; congruence.
Qed.

(** After the C54_removal of all controllers they still point at the object. *)
Theorem C54_removal_of_all_unlinks_refuted :
  exists w o k w', In k (objs w o) /\ UnassignControllers w o = Some w' /\ c_object (ctrls w' k) = Some o.
Proof.
  exists (world_of [(1%N, plain 1 0 3 (Some 7%N))] [(7%N, [1%N])]), 7%N, 1%N. eexists. split; [left; reflexivity|]. split; [reflexivity|]. reflexivity.
Qed.

(** A controller can be assigned to two objects at once. *)
Theorem C54_assignment_to_one_object_refuted :
  exists w k, In k (objs (AssignController (AssignController w 7 k) 8 k) 7%N) /\ In k (objs (AssignController (AssignController w 7 k) 8 k) 8%N).
Proof. exists (world_of [] []), 1%N. split; left; reflexivity. Qed.

(** Deleting an object that has a controller uses a reference behind the end of the list, whatever the controllers are. *)
Theorem C54_delete_object_with_controllers_refuted w o : objs w o <> [] -> SE_DeleteObject_controllers w o = None.
Proof. intro H. rewrite delete_controllers. destruct (objs w o); [contradiction|reflexivity]. Qed.

Theorem C54_delete_object_without_controllers w o : objs w o = [] -> SE_DeleteObject_controllers w o = Some w.
Proof. intro H. rewrite delete_controllers, H. reflexivity. Qed.

Example C54_assignment_ex :
  let w := world_of [(1%N, plain 1 0 1 (Some 7%N)); (2%N, plain 2 0 2 (Some 7%N))] [(7%N, [1%N; 2%N])] in
  objs (AssignController w 7 1) 7%N = [2%N; 1%N] /\
  match UnassignController w 7 1 with Some w' => objs w' 7%N = [2%N] /\ c_active (ctrls w' 1%N) = 0%N /\ c_object (ctrls w' 1%N) = None /\ c_active (ctrls w' 2%N) = 2%N | None => False end /\
  match UnassignControllers w 7 with Some w' => objs w' 7%N = [] /\ c_active (ctrls w' 2%N) = 0%N | None => False end /\
  SE_DeleteObject_controllers w 7 = None /\ objs w 8%N = [].
Proof. vm_compute. repeat split. Qed.

(** ** The action that activates a controller *)

(** It starts exactly when a controller is found, the last assigned or the first with the name; otherwise nothing changes. *)
Theorem C54_activate_action_starts w o minor name mode w' b :
  ActivateControllerAction_Start w o minor name mode = Some (w', b) ->
  (b = true <-> exists k, chosen w o name k) /\ (b = false -> w' = w).
Proof.
  intro H. apply activate_action_shape in H. destruct H as [[-> [-> F]]|[-> [k [w1 [C _]]]]].
  - split; [|reflexivity]. split; [discriminate|]. intros [k C]. destruct (F k C).
  - split; [|discriminate]. split; [intros _; exists k; exact C|reflexivity].
Qed.

(** From version 1.3: the chosen controller is active exactly as requested, and no other controller changes. *)
Theorem C54_activate_action_new w o minor name mode w' k :
  3 <= minor -> within w -> chosen w o name k -> ActivateControllerAction_Start w o minor name mode = Some (w', true) ->
  objs w' = objs w /\ (forall x, x <> k -> ctrls w' x = ctrls w x) /\ same_ctrl (ctrls w' k) (ctrls w k) /\ c_object (ctrls w' k) = c_object (ctrls w k) /\
  (forall d, d < 4 -> on (ctrls w' k) d <->
     match nth d mode UNDEFINED with ON => operates (ctrls w k) d | OFF => False | UNDEFINED => on (ctrls w k) d end).
Proof. exact (activate_new w o minor name mode w' k). Qed.

(** Before: the first controller of the first requested domain that has one is switched off altogether; no other. *)
Theorem C54_activate_action_old w o minor name mode w' k :
  minor < 3 -> within w -> chosen w o name k -> ActivateControllerAction_Start w o minor name mode = Some (w', true) ->
  objs w' = objs w /\
  (forall x, x <> k -> victim w o mode x -> forall d, d < 4 -> ~ on (ctrls w' x) d) /\
  (forall x, x <> k -> ~ victim w o mode x -> ctrls w' x = ctrls w x) /\
  (forall x, same_ctrl (ctrls w' x) (ctrls w x) /\ c_object (ctrls w' x) = c_object (ctrls w x)) /\
  (forall d, d < 4 -> on (ctrls w' k) d <->
     match nth d mode UNDEFINED with ON => operates (ctrls w k) d | OFF => False | UNDEFINED => on (ctrls w k) d /\ ~ victim w o mode k end).
Proof. exact (activate_old w o minor name mode w' k). Qed.

(** One controller per domain is kept exactly under these conditions. *)
Theorem C54_activate_action_exclusive_new w o minor name mode w' k :
  3 <= minor -> within w -> exclusive w o -> chosen w o name k -> ActivateControllerAction_Start w o minor name mode = Some (w', true) ->
  (exclusive w' o <-> (forall x d, In x (objs w o) -> x <> k -> requests mode d ON -> operates (ctrls w k) d -> ~ on (ctrls w x) d)).
Proof. exact (exclusive_new w o minor name mode w' k). Qed.

Theorem C54_activate_action_exclusive_old w o minor name mode w' k :
  minor < 3 -> within w -> exclusive w o -> chosen w o name k -> ActivateControllerAction_Start w o minor name mode = Some (w', true) ->
  (exclusive w' o <-> (forall x d, In x (objs w o) -> x <> k -> ~ victim w o mode x -> requests mode d ON -> operates (ctrls w k) d -> ~ on (ctrls w x) d)).
Proof. exact (exclusive_old w o minor name mode w' k). Qed.

(** From version 1.3 the conflicting controller is not the one deactivated: two controllers end up on one domain, with any two plain controllers. *)
Theorem C54_activate_action_exclusive_new_refuted :
  exists w o w', within w /\ exclusive w o /\ ActivateControllerAction_Start w o 3 None [UNDEFINED; ON; UNDEFINED; UNDEFINED] = Some (w', true) /\
  on (ctrls w' 1%N) DOMAIN_LAT /\ on (ctrls w' 2%N) DOMAIN_LAT /\ objs w' o = [1%N; 2%N].
Proof.
  exists (world_of [(1%N, plain 1 0 2 (Some 7%N)); (2%N, plain 2 0 0 (Some 7%N))] [(7%N, [1%N; 2%N])]), 7%N. eexists.
  split; [|split; [|split; [reflexivity|repeat split; reflexivity]]].
  - intros k d. unfold on, operates. cbn. destruct k as [|[[p|p|]|[p|p|]|]]; cbn; try discriminate; (destruct d as [|[|d]]; cbn; auto; discriminate).
  - intros k k' d [<-|[<-|[]]] [<-|[<-|[]]] _; unfold on; cbn; intros; try reflexivity; discriminate.
Qed.

(** Before version 1.3 only the conflict on the first domain is resolved. *)
Theorem C54_activate_action_exclusive_old_refuted :
  exists w o w', within w /\ exclusive w o /\ ActivateControllerAction_Start w o 2 None [ON; ON; UNDEFINED; UNDEFINED] = Some (w', true) /\
  on (ctrls w' 2%N) DOMAIN_LAT /\ on (ctrls w' 3%N) DOMAIN_LAT /\ objs w' o = [1%N; 2%N; 3%N].
Proof.
  exists (world_of [(1%N, plain 1 0 1 (Some 7%N)); (2%N, plain 2 0 2 (Some 7%N)); (3%N, plain 3 0 0 (Some 7%N))] [(7%N, [1%N; 2%N; 3%N])]), 7%N. eexists.
  split; [|split; [|split; [reflexivity|repeat split; reflexivity]]].
  - intros k d. unfold on, operates. cbn. destruct k as [|[[p|p|]|[p|p|]|]]; cbn; try discriminate; (destruct d as [|[|d]]; cbn; auto; discriminate).
  - intros k k' d [<-|[<-|[<-|[]]]] [<-|[<-|[<-|[]]]] _; unfold on; cbn; intros; try reflexivity; try discriminate;
      destruct d as [|[|d]]; cbn in *; discriminate.
Qed.

(** Before version 1.3, activating the lateral domain of the active controller again takes its longitudinal domain away. *)
Theorem C54_activate_action_again_refuted :
  exists w o w', objs w o = [1%N] /\ c_active (ctrls w 1%N) = 3%N /\
  ActivateControllerAction_Start w o 2 None [UNDEFINED; ON; UNDEFINED; UNDEFINED] = Some (w', true) /\ c_active (ctrls w' 1%N) = 2%N.
Proof.
  exists (world_of [(1%N, plain 1 0 3 (Some 7%N))] [(7%N, [1%N])]), 7%N. eexists. repeat split; reflexivity.
Qed.

Example C54_activate_action_ex :
  let w := world_of [(1%N, plain 1 0 1 (Some 7%N)); (2%N, plain 2 0 0 (Some 7%N))] [(7%N, [1%N; 2%N])] in
  chosen w 7 None 2 /\ chosen w 7 (Some 1%N) 1 /\
  match ActivateControllerAction_Start w 7 3 (Some 2%N) [UNDEFINED; ON; ON; OFF] with Some (w', b) => b = true /\ c_active (ctrls w' 1%N) = 1%N /\ c_active (ctrls w' 2%N) = 2%N | None => False end /\
  match ActivateControllerAction_Start w 7 2 None [ON; ON; UNDEFINED; UNDEFINED] with Some (w', b) => b = true /\ c_active (ctrls w' 1%N) = 0%N /\ c_active (ctrls w' 2%N) = 3%N | None => False end /\
  victim w 7 [ON; ON; UNDEFINED; UNDEFINED] 1 /\ ActivateControllerAction_Start w 7 3 (Some 5%N) [ON; ON; ON; ON] = Some (w, false).
Proof.
  split; [exists [1%N]; reflexivity|]. split; [exists [], [2%N]; split; [reflexivity|]; split; [reflexivity|constructor]|].
  split; [vm_compute; repeat split|]. split; [vm_compute; repeat split|]. split; [|reflexivity].
  exists 0. split; [split; [split; [lia|reflexivity]|exists 1%N; split; [left; reflexivity|reflexivity]]|]. split; [intros j Hj; lia|].
  exists [], [2%N]. split; [reflexivity|]. split; [reflexivity|constructor].
Qed.

(** ** The action that assigns a controller *)

(** What it does: an inactive controller becomes active on the longitudinal domain by the lateral request and the other way round. *)
Theorem C54_assign_action w o k lat long light anim w' :
  AssignControllerAction_Start w (Some o) (Some k) lat long light anim = Some w' ->
  objs w' = objs (AssignController w o k) /\ (forall x, x <> k -> ctrls w' x = ctrls w x) /\
  same_ctrl (ctrls w' k) (ctrls w k) /\ c_object (ctrls w' k) = c_object (ctrls w k) /\
  (IsActive (ctrls w k) = true -> ctrls w' k = ctrls w k) /\
  (IsActive (ctrls w k) = false ->
     (on (ctrls w' k) DOMAIN_LONG <-> lat = ON /\ operates (ctrls w k) DOMAIN_LONG) /\ (on (ctrls w' k) DOMAIN_LAT <-> long = ON /\ operates (ctrls w k) DOMAIN_LAT) /\
     (on (ctrls w' k) DOMAIN_LIGHT <-> light = ON /\ operates (ctrls w k) DOMAIN_LIGHT) /\ (on (ctrls w' k) DOMAIN_ANIM <-> anim = ON /\ operates (ctrls w k) DOMAIN_ANIM)).
Proof.
  intro H. destruct (assign_action_spec w o k lat long light anim w' H) as [A [B [C [D [E F]]]]].
  split; [exact A|]. split; [exact B|]. split; [exact C|]. split; [exact D|]. split; [exact E|]. intro I. specialize (F I).
  split; [exact (F 0 ltac:(lia))|]. split; [exact (F 1 ltac:(lia))|]. split; [exact (F 2 ltac:(lia))|exact (F 3 ltac:(lia))].
Qed.

(** The action does as requested when the lateral and longitudinal requests agree. *)
Theorem C54_assign_action_requested_partial w o k both light anim w' :
  AssignControllerAction_Start w (Some o) (Some k) both both light anim = Some w' -> IsActive (ctrls w k) = false ->
  forall d, d < 4 -> on (ctrls w' k) d <-> nth d [both; both; light; anim] UNDEFINED = ON /\ operates (ctrls w k) d.
Proof. intros H I. destruct (assign_action_spec w o k both both light anim w' H) as [_ [_ [_ [_ [_ F]]]]]. exact (F I). Qed.

(** Lateral requested, longitudinal refused: the controller is active on the longitudinal domain only. *)
Theorem C54_assign_action_requested_refuted :
  exists w o k w', AssignControllerAction_Start w (Some o) (Some k) ON OFF UNDEFINED UNDEFINED = Some w' /\ c_operating (ctrls w k) = 3%N /\
  on (ctrls w' k) DOMAIN_LONG /\ ~ on (ctrls w' k) DOMAIN_LAT.
Proof.
  exists (world_of [] []), 7%N, 1%N. eexists. split; [reflexivity|]. split; [reflexivity|]. split; [reflexivity|]. discriminate.
Qed.

(** A controller for speed only that is assigned with longitudinal activation stays inactive. *)
Theorem C54_assign_action_longitudinal_refuted :
  exists w o k w', AssignControllerAction_Start w (Some o) (Some k) UNDEFINED ON UNDEFINED UNDEFINED = Some w' /\ c_operating (ctrls w k) = 1%N /\
  IsActive (ctrls w' k) = false.
Proof.
  exists (world_of [(1%N, Ctrl 1 8 1 0 MODE_OVERRIDE (Some 7%N) false true 0 false)] []), 7%N, 1%N. eexists. split; [reflexivity|]. split; reflexivity.
Qed.

(** The action leaves the controllers that are active on the same domains active. *)
Theorem C54_assign_action_exclusive_refuted :
  exists w o w', exclusive w o /\ AssignControllerAction_Start w (Some o) (Some 2%N) ON ON UNDEFINED UNDEFINED = Some w' /\
  on (ctrls w' 1%N) DOMAIN_LAT /\ on (ctrls w' 2%N) DOMAIN_LAT /\ objs w' o = [1%N; 2%N].
Proof.
  exists (world_of [(1%N, plain 1 0 3 (Some 7%N)); (2%N, plain 2 0 0 (Some 7%N))] [(7%N, [1%N])]), 7%N. eexists. split; [|split; [reflexivity|repeat split; reflexivity]].
  intros k k' d [<-|[]] [<-|[]] _ _ _. reflexivity.
Qed.

Theorem C54_assign_action_fails w o k lat long light anim :
  AssignControllerAction_Start w o (Some k) lat long light anim = None ->
  IsActive (ctrls w k) = false /\ (c_deleted (ctrls w k) = true \/ needs_object (c_type (ctrls w k)) = true /\ c_object (ctrls w k) = None).
Proof.
  unfold AssignControllerAction_Start. set (w1 := match o with Some o => AssignController w o k | None => w end).
  assert (W1 : ctrls w1 = ctrls w) by (destruct o; reflexivity). rewrite W1. destruct (IsActive (ctrls w k)) eqn:I; cbn [negb]; [discriminate|].
  intro H. split; [reflexivity|]. assert (C : call w1 k (fun c => Activate c [lat; long; light; anim]) = None) by (destruct lat, long, light, anim; congruence).
  apply call_none in C. rewrite W1, activate_none in C. exact C.
Qed.

Example C54_assign_action_ex :
  let w := world_of [(1%N, plain 1 0 0 (Some 7%N)); (2%N, plain 2 8 0 None)] [(7%N, [])] in
  match AssignControllerAction_Start w (Some 7%N) (Some 1%N) ON ON OFF UNDEFINED with Some w' => objs w' 7%N = [1%N] /\ c_active (ctrls w' 1%N) = 3%N | None => False end /\
  AssignControllerAction_Start w (Some 7%N) (Some 2%N) ON ON OFF UNDEFINED = None.
Proof. vm_compute. repeat split. Qed.

Print Assumptions C54_activation_per_domain.
Print Assumptions C54_activation_keeps_identity.
Print Assumptions C54_activation_alignment.
Print Assumptions C54_activation_null_object.
Print Assumptions C54_activation_defined.
Print Assumptions C54_deactivation_per_domain.
Print Assumptions C54_deactivation_alignment.
Print Assumptions C54_deactivation_keeps_identity.
Print Assumptions C54_deactivation_null_object.
Print Assumptions C54_deactivation_all.
Print Assumptions C54_domain_masks.
Print Assumptions C54_query_on_domains.
Print Assumptions C54_query_on_any.
Print Assumptions C54_query_on_none.
Print Assumptions C54_query_on_only.
Print Assumptions C54_query_active.
Print Assumptions C54_active_within_operating.
Print Assumptions C54_assigned_once.
Print Assumptions C54_identity_kept.
Print Assumptions C54_object_active_on_domains.
Print Assumptions C54_object_active_on_any.
Print Assumptions C54_object_mode_on_domains.
Print Assumptions C54_object_mode_on_any.
Print Assumptions C54_object_controller_of_type.
Print Assumptions C54_object_controller_on_domain.
Print Assumptions C54_object_query_by_type_refuted.
Print Assumptions C54_object_active_jointly_refuted.
Print Assumptions C54_assignment.
Print Assumptions C54_assignment_order.
Print Assumptions C54_removal.
Print Assumptions C54_removal_fails.
Print Assumptions C54_removal_follow_route_refuted.
Print Assumptions C54_removal_of_all.
Print Assumptions C54_removal_of_all_fails.
Print Assumptions C54_removal_of_all_unlinks_refuted.
Print Assumptions C54_assignment_to_one_object_refuted.
Print Assumptions C54_delete_object_with_controllers_refuted.
Print Assumptions C54_delete_object_without_controllers.
Print Assumptions C54_activate_action_starts.
Print Assumptions C54_activate_action_new.
Print Assumptions C54_activate_action_old.
Print Assumptions C54_activate_action_exclusive_new.
Print Assumptions C54_activate_action_exclusive_old.
Print Assumptions C54_activate_action_exclusive_new_refuted.
Print Assumptions C54_activate_action_exclusive_old_refuted.
Print Assumptions C54_activate_action_again_refuted.
Print Assumptions C54_assign_action.
Print Assumptions C54_assign_action_requested_partial.
Print Assumptions C54_assign_action_requested_refuted.
Print Assumptions C54_assign_action_longitudinal_refuted.
Print Assumptions C54_assign_action_exclusive_refuted.
Print Assumptions C54_assign_action_fails.
