(** * C55: the lists of entities, ids and trailers *)
From Coq Require Import List Bool ZArith NArith Lia String.
From Verif Require Import EntModel EntProofs.
Import ListNotations.
Local Open Scope Z_scope.

(** ** A scenario: a truck (0) with two trailers (1, 2), a car (3), a pedestrian (4), another truck (5) *)

Definition get {A} (d : A) (r : res A) : A := match r with Ok w => w | _ => d end.
Definition step (w : world) (x : op) : world := get empty_world (run1 10 w x).
Definition fleet : world :=
  new_object (new_object (new_object (new_object (new_object (new_object empty_world "Truck" true true false) "" true true true) "" true false true) "Car" true false false) "Anna" false false false)
    "Lorry" true true false.
Definition coupled : world := step (step fleet (OpConnect 0 1)) (OpConnect 1 2).
Definition prepared : world := step coupled (OpAdd 3 true).
Definition street : world := step (step (step prepared (OpAdd 0 true)) (OpAdd 4 false)) (OpAdd 5 true).
Definition parked : world := step street (OpDeactivate 0).

(** Lists and links by computation. *)
Definition lists (w : world) : list N * list N := (object_ w, object_pool_ w).

(** ** The invariant *)

(** Runs of allowed operations: every operation succeeds, and afterwards each object is in one list, once, marked accordingly, has an id of its own, and its
    trailer is in a list too. *)
Theorem C55_step stack w x : inv w -> allowed stack w x -> exists w', run1 stack w x = Ok w' /\ inv w'.
Proof. exact (run1_ok stack w x). Qed.
Theorem C55_run stack l w' : runs stack empty_world l w' -> inv w'.
Proof. intro R. exact (runs_inv stack empty_world l w' R empty_inv). Qed.
Theorem C55_once w o : inv w -> (In o (object_ w) -> ~ In o (object_pool_ w)) /\ NoDup (object_ w) /\ NoDup (object_pool_ w).
Proof. intros [[D _] _]. apply nodup_app in D. destruct D as [D1 [D2 D3]]. split; [intros A P; exact (D3 o A P)|]. auto. Qed.
Theorem C55_active w o : inv w -> listed w o -> (e_active (ents w o) = true <-> In o (object_ w)).
Proof.
  intros [[_ [_ [A [P _]]]] _] [H|H]; split; auto. intro F. rewrite (P o H) in F. discriminate.
Qed.
Theorem C55_ids w : inv w -> NoDup (map (fun o => e_id (ents w o)) (object_ w ++ object_pool_ w)).
Proof.
  intros [[D [_ [_ [_ [I _]]]]] _]. apply nodup_map; [exact D|]. intros x y Hx Hy. apply I; [apply in_app_or in Hx; exact Hx|apply in_app_or in Hy; exact Hy].
Qed.
Theorem C55_trailer_listed w o t : inv w -> listed w o -> TrailerVehicle w o = Ok (Some t) -> listed w t.
Proof. intros [_ C] H E. destruct (C o H) as [r [R1 R2]]. rewrite E in R1. injection R1 as <-. apply R2. reflexivity. Qed.
Theorem C55_no_dangling w o : inv w -> listed w o -> live w o = true /\ exists r, TrailerVehicle w o = Ok r.
Proof. intros [[_ [L _]] C] H. split; [exact (L o H)|]. destruct (C o H) as [r [R _]]. eauto. Qed.
(** An id once given is never given again: new ids are at least the next id, which never decreases and is above all ids in use. *)
Theorem C55_ids_grow stack w l w' o : inv w -> runs stack w l w' -> listed w o -> e_id (ents w o) < nextId_ w /\ nextId_ w <= nextId_ w'.
Proof. intros H R Ho. split; [destruct H as [[_ [_ [_ [_ [_ [M _]]]]]] _]; exact (M o Ho)|]. exact (runs_nextid stack w l w' R H). Qed.

Ltac ends := apply chain_end; vm_compute; reflexivity.
Ltac next u := apply chain_next with (t := u); [vm_compute; reflexivity|discriminate|].

Lemma prepared_chain : chain prepared 0 [0; 1; 2]%N.
Proof. next 1%N. next 2%N. ends. Qed.
Lemma street_chain : chain street 0 [0; 1; 2]%N.
Proof. next 1%N. next 2%N. ends. Qed.
Lemma parked_chain : chain parked 0 [0; 1; 2]%N.
Proof. next 1%N. next 2%N. ends. Qed.

Lemma step_inv w x : inv w -> allowed 10 w x -> inv (step w x).
Proof. intros H A. destruct (run1_ok 10 w x H A) as [w' [R I]]. unfold step. rewrite R. exact I. Qed.

Lemma inv0_links w c u h v : inv0 w -> inv0 (set_hitch (set_coupler w c u) h v).
Proof. intro H. exact H. Qed.

Lemma coupled_inv : inv coupled.
Proof.
  assert (I0 : inv fleet) by (unfold fleet; do 6 apply new_inv; exact empty_inv).
  assert (E : exists h1 h2 c1 c2, coupled = set_hitch (set_coupler (set_hitch (set_coupler fleet c1 (Some 0%N)) h1 (Some 1%N)) c2 (Some 1%N)) h2 (Some 2%N)).
  { exists 0%N, 1%N, 1%N, 2%N. vm_compute. reflexivity. }
  destruct E as [h1 [h2 [c1 [c2 ->]]]]. destruct I0 as [I0 _]. split; [do 2 apply inv0_links; exact I0|]. intros o [F|F]; vm_compute in F; destruct F.
Qed.

Ltac lists_in H := vm_compute in H; repeat (destruct H as [H|H]; [try discriminate|]); try destruct H.
Ltac unlisted := let x := fresh in let Hx := fresh in let F := fresh in
  intros x Hx [F|F]; vm_compute in F; cbn in Hx; intuition (subst; discriminate).

Lemma prepared_inv : inv prepared.
Proof.
  apply step_inv; [exact coupled_inv|]. exists [3%N]. split; [ends|]. split; [repeat constructor; intros []|]. split; [vm_compute; repeat constructor|]. unlisted.
Qed.
Lemma street1_inv : inv (step prepared (OpAdd 0 true)).
Proof.
  apply step_inv; [exact prepared_inv|]. exists [0; 1; 2]%N. split; [exact prepared_chain|]. split; [repeat constructor; cbn; intuition discriminate|].
  split; [vm_compute; repeat constructor|]. unlisted.
Qed.
Lemma street_inv : inv street.
Proof.
  apply step_inv; [apply step_inv; [exact street1_inv|]|].
  - exists [4%N]. split; [ends|]. split; [repeat constructor; intros []|]. split; [vm_compute; repeat constructor|]. unlisted.
  - exists [5%N]. split; [ends|]. split; [repeat constructor; intros []|]. split; [vm_compute; repeat constructor|]. unlisted.
Qed.
Lemma parked_inv : inv parked.
Proof. apply step_inv; [exact street_inv|]. split; [left; vm_compute; auto|]. exists [0; 1; 2]%N. split; [exact street_chain|]. vm_compute. repeat constructor. Qed.

Example C55_step_ex : inv prepared /\ allowed 10 prepared (OpAdd 0 true) /\ allowed 10 street (OpDeactivate 0).
Proof.
  split; [exact prepared_inv|]. split.
  - exists [0; 1; 2]%N. split; [exact prepared_chain|]. split; [repeat constructor; cbn; intuition discriminate|]. split; [vm_compute; repeat constructor|]. unlisted.
  - split; [left; vm_compute; auto|]. exists [0; 1; 2]%N. split; [exact street_chain|]. vm_compute. repeat constructor.
Qed.
Example C55_run_ex : exists w, runs 10 empty_world [OpNew "Car" true false false; OpAdd 0 true; OpDeactivate 0; OpActivate 0; OpRemove 0 true] w /\ object_ w = [] /\ nextId_ w = 1.
Proof.
  set (w1 := new_object empty_world "Car" true false false). assert (I1 : inv w1) by (apply new_inv; exact empty_inv).
  assert (A1 : allowed 10 w1 (OpAdd 0 true)).
  { exists [0%N]. split; [ends|]. split; [repeat constructor; intros []|]. split; [vm_compute; repeat constructor|]. unlisted. }
  eexists. split.
  - eapply runs_cons; [exact I|reflexivity|]. fold w1. eapply runs_cons; [exact A1|vm_compute; reflexivity|].
    eapply runs_cons; [split; [left; vm_compute; auto|exists [0%N]; split; [ends|vm_compute; repeat constructor]]|vm_compute; reflexivity|].
    eapply runs_cons; [split; [right; vm_compute; auto|exists [0%N]; split; [ends|vm_compute; repeat constructor]]|vm_compute; reflexivity|].
    eapply runs_cons; [|vm_compute; reflexivity|apply runs_nil].
    exists [0%N]. split; [apply towed_end; reflexivity|]. split; [repeat constructor; intros []|]. split; [vm_compute; repeat constructor|]. split; [auto|].
    intros x t [[<-|[]]|[]] F. exfalso. apply F. left. reflexivity.
  - split; reflexivity.
Qed.
Example C55_once_ex : lists street = ([3; 0; 1; 2; 5]%N, [4]%N) /\ lists parked = ([3; 5]%N, [4; 0; 1; 2]%N).
Proof. vm_compute. auto. Qed.
Example C55_active_ex : inv street /\ inv parked /\ e_active (ents street 1) = true /\ e_active (ents parked 1) = false.
Proof. split; [exact street_inv|]. split; [exact parked_inv|]. vm_compute. auto. Qed.
Example C55_ids_ex : map (fun o => e_id (ents street o)) (object_ street ++ object_pool_ street) = [0; 1; 2; 3; 5; 4].
Proof. vm_compute. reflexivity. Qed.
Example C55_trailer_listed_ex : TrailerVehicle street 0 = Ok (Some 1%N) /\ TowVehicle street 2 = Ok (Some 1%N).
Proof. vm_compute. auto. Qed.
Example C55_no_dangling_ex : TrailerVehicle street 2 = Ok None /\ TrailerVehicle street 4 = Ok None.
Proof. vm_compute. auto. Qed.
Example C55_ids_grow_ex : nextId_ street = 6 /\ nextId_ (step street (OpRemove 3 true)) = 6.
Proof. vm_compute. auto. Qed.

(** ** Activation and deactivation *)

(** A vehicle that is not active takes its trailers along: they come to the end of the active list, in order, and leave the pool; nothing else changes. *)
Theorem C55_activate n w o l : inv w -> chain w o l -> NoDup l -> (List.length l <= n)%nat -> (forall x, In x l -> In x (object_pool_ w)) ->
  exists w', activateObject n w o = Ok (w', 0) /\ object_ w' = object_ w ++ l /\ (forall x, In x (object_pool_ w') <-> In x (object_pool_ w) /\ ~ In x l) /\ moved w w'.
Proof. exact (activate_chain n w o l). Qed.
Theorem C55_deactivate n w o l : inv w -> chain w o l -> NoDup l -> (List.length l <= n)%nat -> (forall x, In x l -> In x (object_ w)) ->
  exists w', deactivateObject n w o = Ok (w', 0) /\ object_pool_ w' = object_pool_ w ++ l /\ (forall x, In x (object_ w') <-> In x (object_ w) /\ ~ In x l) /\ moved w w'.
Proof. exact (deactivate_chain n w o l). Qed.
(** In every state: the object ends in the list asked for, no other object leaves that list, ids, names and links stay; -1 if it was there already. *)
Theorem C55_activate_any n w o l : inv w -> listed w o -> chain w o l -> (List.length l <= n)%nat ->
  exists w', activateObject n w o = Ok (w', if mem o (object_ w) then -1 else 0) /\ moved w w' /\ In o (object_ w') /\ (forall x, In x (object_ w) -> In x (object_ w')).
Proof.
  intros H Ho C Hl. destruct (activate_spec n w o H Ho) as [Q|R]; [|exact R]. exfalso. exact (activate_not_quit n w o l H Ho C Hl Q).
Qed.
Theorem C55_deactivate_any n w o l : inv w -> listed w o -> chain w o l -> (List.length l <= n)%nat ->
  exists w', deactivateObject n w o = Ok (w', if mem o (object_ w) then 0 else -1) /\ moved w w' /\ In o (object_pool_ w') /\ (forall x, In x (object_pool_ w) -> In x (object_pool_ w')).
Proof.
  intros H Ho C Hl. destruct (deactivate_spec n w o H Ho) as [Q|R]; [|exact R]. exfalso. exact (deactivate_not_quit n w o l H Ho C Hl Q).
Qed.
(** What is active already stays as it is. *)
Theorem C55_activate_again n w o : inv w -> In o (object_ w) -> activateObject (S n) w o = Ok (w, -1).
Proof. intros [H _]. exact (activate_already n w o H). Qed.
Theorem C55_deactivate_again n w o : inv w -> In o (object_pool_ w) -> deactivateObject (S n) w o = Ok (w, -1).
Proof. intros [H _]. exact (deactivate_already n w o H). Qed.

Example C55_deactivate_ex : inv street /\ chain street 0 [0; 1; 2]%N /\ (forall x, In x [0; 1; 2]%N -> In x (object_ street)).
Proof. split; [exact street_inv|]. split; [exact street_chain|]. vm_compute. intuition. Qed.
Example C55_activate_ex : inv parked /\ chain parked 0 [0; 1; 2]%N /\ (forall x, In x [0; 1; 2]%N -> In x (object_pool_ parked)) /\
  lists (step parked (OpActivate 0)) = ([3; 5; 0; 1; 2]%N, [4]%N).
Proof. split; [exact parked_inv|]. split; [exact parked_chain|]. split; [vm_compute; intuition|vm_compute; reflexivity]. Qed.
Example C55_activate_any_ex : inv parked /\ listed parked 1 /\ chain parked 1 [1; 2]%N.
Proof. split; [exact parked_inv|]. split; [right; vm_compute; auto|]. next 2%N. ends. Qed.
Example C55_deactivate_any_ex : inv street /\ listed street 1 /\ chain street 1 [1; 2]%N.
Proof. split; [exact street_inv|]. split; [left; vm_compute; auto|]. next 2%N. ends. Qed.
Example C55_activate_again_ex : option_map snd (match activateObject 100 street 3 with Ok x => Some x | _ => None end) = Some (-1).
Proof. vm_compute. reflexivity. Qed.
Example C55_deactivate_again_ex : option_map snd (match deactivateObject 100 street 4 with Ok x => Some x | _ => None end) = Some (-1).
Proof. vm_compute. reflexivity. Qed.

(** A trailer can be parted from its tow: deactivating it leaves the tow active. *)
Theorem C55_convoy_parted_refuted : exists w w', inv w /\ TrailerVehicle w 0 = Ok (Some 1%N) /\ deactivateObject max_trailers w 1 = Ok (w', 0) /\
  TrailerVehicle w' 0 = Ok (Some 1%N) /\ In 0%N (object_ w') /\ In 1%N (object_pool_ w').
Proof. exists street. eexists. split; [exact street_inv|]. split; [reflexivity|]. split; [vm_compute; reflexivity|]. vm_compute. auto 10. Qed.
(** Then activating the tow again does not bring it back: the tow is active already. *)
Theorem C55_convoy_stays_parted_refuted : exists w w', inv w /\ TrailerVehicle w 0 = Ok (Some 1%N) /\ activateObject max_trailers w 0 = Ok (w', -1) /\ In 1%N (object_pool_ w').
Proof.
  exists (step street (OpDeactivate 1)). eexists. split.
  - apply step_inv; [exact street_inv|]. split; [left; vm_compute; auto|]. exists [1; 2]%N. split; [next 2%N; ends|vm_compute; repeat constructor].
  - split; [reflexivity|]. split; [vm_compute; reflexivity|]. vm_compute. auto.
Qed.

(** ** Adding *)

(** An object that is in no list, with its trailers: they come to the end of the list asked for, in order, with consecutive ids from the next one on; a trailer
    without a name takes that of its tow and a plus; no other object changes. *)
Theorem C55_add n a w o l : inv0 w -> chain w o l -> NoDup l -> (List.length l <= n)%nat -> (forall x, In x l -> ~ listed w x) ->
  exists w', addObject n w o a = Ok (w', nextId_ w) /\ inv0 w' /\ same_links w w' /\
  object_ w' = (if a then object_ w ++ l else object_ w) /\ object_pool_ w' = (if a then object_pool_ w else object_pool_ w ++ l) /\
  map (fun x => e_id (ents w' x)) l = zseq (nextId_ w) (List.length l) /\ nextId_ w' = nextId_ w + Z.of_nat (List.length l) /\
  map (fun x => e_name (ents w' x)) l = chain_names w None l /\ (forall x, ~ In x l -> ents w' x = ents w x) /\ next_obj w' = next_obj w.
Proof. exact (add_chain n a w o l). Qed.
(** With a trailer that is in a list: it is moved to the list asked for. *)
Theorem C55_add_hooked n a w o t l : inv w -> live w o = true -> ~ listed w o -> TrailerVehicle w o = Ok (Some t) -> listed w t -> chain w t l -> (List.length l <= n)%nat ->
  exists w', addObject n w o a = Ok (w', nextId_ w) /\ inv w' /\ (forall x, listed w' x <-> listed w x \/ x = o) /\
  In o (if a then object_ w' else object_pool_ w') /\ In t (if a then object_ w' else object_pool_ w').
Proof. exact (add_hooked n a w o t l). Qed.
(** More than the permitted number of trailers ends the program. *)
Theorem C55_add_too_many n a w o l : inv0 w -> chain w o l -> NoDup l -> (n < List.length l)%nat -> (forall x, In x l -> ~ listed w x) -> addObject n w o a = Quit.
Proof. exact (add_too_long n a w o l). Qed.
Theorem C55_add_limit : max_trailers = 100%nat.
Proof. reflexivity. Qed.

Example C55_add_ex : inv0 prepared /\ chain prepared 0 [0; 1; 2]%N /\ (forall x, In x [0; 1; 2]%N -> ~ listed prepared x) /\
  map (fun o => (e_id (ents street o), e_name (ents street o))) [0; 1; 2]%N = [(1, "Truck"); (2, "Truck+"); (3, "Truck++")]%string /\
  lists (step prepared (OpAdd 0 false)) = ([3]%N, [0; 1; 2]%N).
Proof. split; [exact (proj1 prepared_inv)|]. split; [exact prepared_chain|]. split; [unlisted|]. vm_compute. auto. Qed.
Example C55_add_hooked_ex : let w := step coupled (OpAdd 1 false) in
  TrailerVehicle w 0 = Ok (Some 1%N) /\ lists w = ([], [1; 2]%N) /\ lists (step w (OpAdd 0 true)) = ([0; 1; 2]%N, []) /\ lists (step w (OpAdd 0 false)) = ([], [1; 2; 0]%N).
Proof. vm_compute. auto. Qed.
Example C55_add_too_many_ex : addObject 2 prepared 0 true = Quit.
Proof. vm_compute. reflexivity. Qed.

(** An object that is added twice is in the list twice, with one id. *)
Theorem C55_added_twice_refuted : exists w w' z, inv w /\ addObject max_trailers w 3 true = Ok (w', z) /\ ~ NoDup (object_ w').
Proof.
  exists prepared. eexists. exists 1. split; [exact prepared_inv|]. split; [vm_compute; reflexivity|]. cbn. intro D. inversion D as [|? ? F _]. apply F. left. reflexivity.
Qed.

(** ** Removing *)

(** An active object with all it tows, all active: they cease to exist and leave the list, the others stay in order, and no id is given back. *)
Theorem C55_remove n w o l : inv w -> towed w o l -> NoDup l -> (List.length l <= n)%nat -> (forall x, In x l -> In x (object_ w)) ->
  (forall x t, listed w x -> ~ In x l -> at_hitch w x = Some t -> ~ In t l) ->
  exists w', removeObject n w o true = Ok w' /\ inv w' /\ object_ w' = filter (fun x => negb (mem x l)) (object_ w) /\ object_pool_ w' = object_pool_ w /\
  (forall x, live w' x = live w x && negb (mem x l)) /\ ents w' = ents w /\ nextId_ w' = nextId_ w.
Proof.
  intros H T D Hl Ha Ht. destruct (removed_fields n w o l T D Hl Ha) as [w' [R [Lv [Ob [Po [En [Hi [Co [Nx No]]]]]]]]]. exists w'. split; [exact R|].
  split; [eapply (removed_inv w w' l); eassumption|]. auto.
Qed.
(** Not recursively: only that object. *)
Theorem C55_remove_one n w o : (0 < n)%nat -> inv w -> In o (object_ w) -> (forall x t, listed w x -> x <> o -> at_hitch w x = Some t -> t <> o) ->
  exists w', removeObject n w o false = Ok w' /\ inv w' /\ object_ w' = erase o (object_ w) /\ object_pool_ w' = object_pool_ w /\ (forall x, x <> o -> live w' x = live w x) /\ live w' o = false.
Proof.
  intros Hn H Ho Ht. pose proof H as [[_ [L _]] _]. destruct (removed_single w o n Hn (L o (or_introl Ho))) as [w' [R [Lv [Ob [Po [En [Hi [Co [Nx No]]]]]]]]]. exists w'. split; [exact R|].
  split; [eapply (removed_inv w w' [o]); try eassumption|].
  - intros x [<-|[]]. exact Ho.
  - intros x t Hx Hn' E [F|[]]. symmetry in F. revert F. apply (Ht x t Hx); [|exact E]. intros ->. apply Hn'. left. reflexivity.
  - split; [rewrite Ob; unfold erase; apply filter_ext; intro x; cbn; rewrite orb_false_r; reflexivity|]. split; [exact Po|]. split.
    + intros x Hx. rewrite Lv. cbn. apply N.eqb_neq in Hx. rewrite Hx. apply andb_true_r.
    + rewrite Lv. cbn. rewrite N.eqb_refl. apply andb_false_r.
Qed.
(** By id or name: nothing happens unless an active object fits; else the first that does is removed. *)
Theorem C55_remove_by n w p r : inv0 w ->
  (exists o l1 l2, object_ w = l1 ++ o :: l2 /\ p (ents w o) = true /\ Forall (fun x => p (ents w x) = false) l1 /\ removeObject_by n w p r = removeObject n w o r) \/
  (Forall (fun x => p (ents w x) = false) (object_ w) /\ removeObject_by n w p r = Ok w).
Proof.
  intros [_ [L _]]. unfold removeObject_by. destruct (search_spec w p (object_ w) (fun o H => L o (or_introl H))) as [[o [l1 [l2 [S1 [S2 [S3 S4]]]]]]|[S1 S2]]; rewrite S1; cbn [bind].
  - left. exists o, l1, l2. auto.
  - right. auto.
Qed.

Example C55_remove_ex : towed street 0 [0; 1; 2]%N /\ lists (step street (OpRemove 0 true)) = ([3; 5]%N, [4]%N).
Proof.
  split; [|vm_compute; reflexivity]. apply towed_next with (t := 1%N); [reflexivity|reflexivity|]. apply towed_next with (t := 2%N); [reflexivity|reflexivity|].
  apply towed_end; reflexivity.
Qed.
Example C55_remove_one_ex : In 3%N (object_ street) /\ lists (step street (OpRemove 3 false)) = ([0; 1; 2; 5]%N, [4]%N).
Proof. vm_compute. auto. Qed.
Example C55_remove_by_ex : match removeObject_by 10 street (by_name "Truck") true with Ok w => object_ w | _ => [] end = [3; 5]%N /\
  match removeObject_by 10 street (by_name "Anna") true with Ok w => lists w | _ => ([], []) end = lists street.
Proof. vm_compute. auto. Qed.

(** Trailers in a circle: no stack is large enough. *)
Theorem C55_remove_circle w (P : N -> Prop) : (forall o, P o -> In o (object_ w) /\ live w o = true /\ exists t, at_hitch w o = Some t /\ P t) ->
  forall n o, P o -> removeObject n w o true = Bad.
Proof. exact (remove_circle w P). Qed.
Definition circle : world := step (step (step (step (new_object (new_object empty_world "A" true true true) "B" true true true) (OpAdd 0 true)) (OpAdd 1 true)) (OpConnect 0 1)) (OpConnect 1 0).
Example C55_remove_circle_ex : forall n, removeObject n circle 0 true = Bad.
Proof.
  intro n. apply (C55_remove_circle circle (fun o => o = 0%N \/ o = 1%N)); [|auto]. intros o [E|E]; subst o.
  - split; [vm_compute; auto|]. split; [reflexivity|]. exists 1%N. split; [reflexivity|auto].
  - split; [vm_compute; auto|]. split; [reflexivity|]. exists 0%N. split; [reflexivity|auto].
Qed.
(** Removing a trailer leaves the hitch of its tow pointing to it: the next look at the trailer is undefined. *)
Theorem C55_removed_trailer_dangles_refuted : exists w w', inv w /\ In 1%N (object_ w) /\ removeObject 10 w 1 true = Ok w' /\ In 0%N (object_ w') /\ TrailerVehicle w' 0 = Bad.
Proof. exists street. eexists. split; [exact street_inv|]. split; [vm_compute; auto|]. split; [vm_compute; reflexivity|]. split; [vm_compute; auto|reflexivity]. Qed.
(** Removing a tow alone leaves the coupler of its trailer pointing to it. *)
Theorem C55_removed_tow_dangles_refuted : exists w w', inv w /\ In 0%N (object_ w) /\ removeObject 10 w 0 false = Ok w' /\ In 1%N (object_ w') /\ TowVehicle w' 1 = Bad.
Proof. exists street. eexists. split; [exact street_inv|]. split; [vm_compute; auto|]. split; [vm_compute; reflexivity|]. split; [vm_compute; auto|reflexivity]. Qed.
(** Removing an object of the pool deletes it but leaves it there: the next search through the pool is undefined. *)
Theorem C55_removed_from_pool_refuted : exists w w', inv w /\ In 4%N (object_pool_ w) /\ removeObject 10 w 4 true = Ok w' /\ In 4%N (object_pool_ w') /\ GetObjectBy w' (by_name "Nobody") = Bad.
Proof. exists street. eexists. split; [exact street_inv|]. split; [vm_compute; auto|]. split; [vm_compute; reflexivity|]. split; [vm_compute; auto|reflexivity]. Qed.

(** ** Searching *)

Theorem C55_by_id w id o : inv w -> (GetObjectBy w (by_id id) = Ok (Some o) <-> listed w o /\ e_id (ents w o) = id).
Proof.
  intros [H C]. pose proof (get_by_spec w (by_id id) H) as S. pose proof H as [_ [_ [_ [_ [I _]]]]]. unfold by_id in *. split.
  - intro E. rewrite E in S. destruct S as [S1 S2]. apply Z.eqb_eq in S2. auto.
  - intros [Ho E]. destruct (GetObjectBy w _) as [[o'|]| |]; [|exfalso; specialize (S o Ho); apply Z.eqb_neq in S; contradiction|destruct S|destruct S].
    destruct S as [S1 S2]. apply Z.eqb_eq in S2. f_equal. f_equal. apply I; [assumption|assumption|congruence].
Qed.
Theorem C55_by_none w p : inv w -> (GetObjectBy w p = Ok None <-> forall o, listed w o -> p (ents w o) = false).
Proof.
  intros [H C]. pose proof (get_by_spec w p H) as S. split.
  - intro E. rewrite E in S. exact S.
  - intro F. destruct (GetObjectBy w p) as [[o|]| |]; [|reflexivity|destruct S|destruct S]. destruct S as [S1 S2]. rewrite (F o S1) in S2. discriminate.
Qed.
Theorem C55_by_some w p o : inv w -> GetObjectBy w p = Ok (Some o) -> listed w o /\ p (ents w o) = true.
Proof. intros [H C] E. pose proof (get_by_spec w p H) as S. rewrite E in S. exact S. Qed.
(** Active objects come first. *)
Theorem C55_by_active_first w p o : inv w -> GetObjectBy w p = Ok (Some o) -> In o (object_pool_ w) -> forall x, In x (object_ w) -> p (ents w x) = false.
Proof.
  intros [H C] E Hp x Hx. pose proof H as [_ [L _]]. unfold GetObjectBy in E.
  destruct (search_spec w p (object_ w) (fun o H => L o (or_introl H))) as [[o' [l1 [l2 [S1 [S2 [S3 _]]]]]]|[S1 S2]]; rewrite S1 in E; cbn [bind] in E.
  - injection E as <-. exfalso. apply (inv_pool_not_active w o' H Hp). rewrite S2. apply in_or_app. right. left. reflexivity.
  - rewrite Forall_forall in S2. exact (S2 x Hx).
Qed.
Theorem C55_index w id i : inv w -> 0 <= i -> (GetObjectIdxById w id = Ok i <-> exists o, nth_error (object_ w) (Z.to_nat i) = Some o /\ e_id (ents w o) = id).
Proof.
  intros [H C] Hi. pose proof H as [D [L [_ [_ [I _]]]]]. unfold GetObjectIdxById.
  destruct (search_idx_spec w (by_id id) (object_ w) 0 (fun o H => L o (or_introl H))) as [[o [l1 [l2 [S1 [S2 [S3 S4]]]]]]|[S1 S2]]; rewrite S1.
  - apply Z.eqb_eq in S3. assert (N1 : nth_error (object_ w) (List.length l1) = Some o) by (rewrite S2, nth_error_app2, Nat.sub_diag by lia; reflexivity). split.
    + intro E. injection E as <-. exists o. rewrite ?Z.add_0_l, Nat2Z.id. auto.
    + intros [o' [N2 E]]. assert (o' = o). { apply I; [left; eapply nth_error_In; exact N2|left; eapply nth_error_In; exact N1|congruence]. } subst o'.
      apply nodup_app in D. destruct D as [D _]. f_equal. assert (Q : List.length l1 = Z.to_nat i).
      { eapply (proj1 (NoDup_nth_error (object_ w)) D); [apply nth_error_Some; congruence|congruence]. }
      lia.
  - split; [intro E; injection E as <-; lia|]. intros [o [N1 E]]. rewrite Forall_forall in S2. specialize (S2 o (nth_error_In _ _ N1)). apply Z.eqb_neq in S2. contradiction.
Qed.
Theorem C55_name_exists w s : inv w -> exists b, nameExists w s = Ok b /\ (b = true <-> exists o, In o (object_ w) /\ e_name (ents w o) = s).
Proof.
  intros [[_ [L _]] _]. unfold nameExists.
  destruct (search_spec w (by_name s) (object_ w) (fun o H => L o (or_introl H))) as [[o [l1 [l2 [S1 [S2 [S3 S4]]]]]]|[S1 S2]]; rewrite S1; cbn [bind]; eexists; (split; [reflexivity|]).
  - split; [|reflexivity]. intros _. exists o. apply String.eqb_eq in S3. split; [rewrite S2; apply in_or_app; right; left; reflexivity|exact S3].
  - split; [discriminate|]. intros [o [Ho E]]. rewrite Forall_forall in S2. specialize (S2 o Ho). unfold by_name in S2. apply String.eqb_neq in S2. contradiction.
Qed.
(** indexExists says the opposite of its name. *)
Theorem C55_index_exists_refuted w id : inv w -> exists b, indexExists w id = Ok b /\ (b = false <-> exists o, In o (object_ w) /\ e_id (ents w o) = id).
Proof.
  intros [[_ [L _]] _]. unfold indexExists.
  destruct (search_spec w (by_id id) (object_ w) (fun o H => L o (or_introl H))) as [[o [l1 [l2 [S1 [S2 [S3 S4]]]]]]|[S1 S2]]; rewrite S1; cbn [bind]; eexists; (split; [reflexivity|]).
  - split; [|reflexivity]. intros _. exists o. apply Z.eqb_eq in S3. split; [rewrite S2; apply in_or_app; right; left; reflexivity|exact S3].
  - split; [discriminate|]. intros [o [Ho E]]. rewrite Forall_forall in S2. specialize (S2 o Ho). unfold by_id in S2. apply Z.eqb_neq in S2. contradiction.
Qed.

Example C55_by_id_ex : GetObjectBy street (by_id 4) = Ok (Some 4%N) /\ GetObjectBy street (by_id 1) = Ok (Some 0%N) /\ GetObjectIdxById street 1 = Ok 1.
Proof. vm_compute. auto. Qed.
Example C55_by_none_ex : GetObjectBy street (by_name "Nobody") = Ok None /\ GetObjectBy street (by_id 77) = Ok None /\ GetObjectIdxById street 4 = Ok (-1).
Proof. vm_compute. auto. Qed.
Example C55_by_some_ex : GetObjectBy street (by_name "Truck+") = Ok (Some 1%N) /\ nameExists street "Truck+" = Ok true /\ nameExists street "Anna" = Ok false.
Proof. vm_compute. auto. Qed.
Example C55_index_exists_ex : indexExists street 0 = Ok false /\ indexExists street 77 = Ok true.
Proof. vm_compute. auto. Qed.

(** ** Trailers *)

(** Connecting: afterwards the tow has the trailer and the trailer the tow; what the tow had before is let go. *)
Theorem C55_connect w o t h c : inv w -> listed w o -> listed w t -> e_vehicle (ents w o) = true -> e_vehicle (ents w t) = true ->
  e_hitch (ents w o) = Some h -> e_coupler (ents w t) = Some c ->
  exists w', ConnectTrailerAction_Start w o (Some t) = Ok w' /\ inv w' /\ only_links w w' /\ TrailerVehicle w' o = Ok (Some t) /\
  (TrailerVehicle w o <> Ok (Some t) -> TowVehicle w' t = Ok (Some o)).
Proof. exact (connect_spec w o t h c). Qed.
Theorem C55_disconnect w o t : inv w -> listed w o -> TrailerVehicle w o = Ok (Some t) ->
  exists w', DisconnectTrailerAction_Start w o = Ok w' /\ inv w' /\ only_links w w' /\ TrailerVehicle w' o = Ok None /\ TowVehicle w' t = Ok None.
Proof.
  intros H Ho E. destruct (disconnect_spec w o H Ho t E) as [w' [R S]]. exists w'. unfold DisconnectTrailerAction_Start. rewrite E. cbn [bind]. auto.
Qed.
Theorem C55_disconnect_none w o : TrailerVehicle w o = Ok None -> DisconnectTrailerAction_Start w o = Ok w.
Proof. intro E. unfold DisconnectTrailerAction_Start. rewrite E. reflexivity. Qed.
Theorem C55_connect_none w o : ConnectTrailerAction_Start w o None = Ok w.
Proof. reflexivity. Qed.
Theorem C55_connect_same w o t : TrailerVehicle w o = Ok (Some t) -> ConnectTrailerAction_Start w o (Some t) = Ok w.
Proof. intro E. unfold ConnectTrailerAction_Start. rewrite E. cbn [bind]. rewrite N.eqb_refl. cbn [bind]. rewrite E. cbn [bind opt_eqb]. rewrite N.eqb_refl. reflexivity. Qed.
(** Other vehicles are not concerned, unless they share the hitch. *)
Theorem C55_connect_others w o t h x : TrailerVehicle w o = Ok None -> live w t = true -> e_vehicle (ents w t) = true -> live w o = true -> e_vehicle (ents w o) = true ->
  e_hitch (ents w o) = Some h -> e_hitch (ents w x) <> Some h -> forall w', ConnectTrailerAction_Start w o (Some t) = Ok w' -> TrailerVehicle w' x = TrailerVehicle w x.
Proof.
  intros E Lt Vt Lo Vo Eh Ex w'. unfold ConnectTrailerAction_Start. rewrite E. cbn [bind]. rewrite E. cbn [bind opt_eqb]. rewrite Lt, Vt, Vo. cbn [negb orb].
  unfold ConnectTrailer. rewrite Lt, Lo. cbn [negb orb]. destruct (e_coupler (ents w t)) as [c|]; cbn [bind fst]; [|intro R; injection R as <-; reflexivity].
  cbn [set_coupler ents]. rewrite Eh. cbn [bind fst]. intro R. injection R as <-. rewrite trailer_set_hitch. cbn [live ents set_coupler].
  destruct (e_hitch (ents w x)) as [h'|] eqn:Q; [|rewrite andb_false_r; reflexivity]. destruct (N.eqb_spec h' h) as [->|]; [congruence|]. rewrite andb_false_r. reflexivity.
Qed.

Example C55_connect_ex : let w := step street (OpConnect 0 2) in TrailerVehicle w 0 = Ok (Some 2%N) /\ TowVehicle w 2 = Ok (Some 0%N) /\ TowVehicle w 1 = Ok None.
Proof. vm_compute. auto. Qed.
Example C55_disconnect_ex : let w := step street (OpDisconnect 0) in TrailerVehicle w 0 = Ok None /\ TowVehicle w 1 = Ok None /\ TrailerVehicle w 1 = Ok (Some 2%N).
Proof. vm_compute. auto. Qed.
Example C55_disconnect_none_ex : TrailerVehicle street 3 = Ok None.
Proof. reflexivity. Qed.
Example C55_connect_same_ex : TrailerVehicle street 0 = Ok (Some 1%N).
Proof. reflexivity. Qed.
Example C55_connect_others_ex : TrailerVehicle street 5 = Ok None /\ e_hitch (ents street 0) <> e_hitch (ents street 5).
Proof. vm_compute. split; [reflexivity|discriminate]. Qed.

(** A trailer that has a tow already keeps hanging at it as well. *)
Theorem C55_two_tows_refuted : exists w w', inv w /\ TowVehicle w 1 = Ok (Some 0%N) /\ ConnectTrailerAction_Start w 5 (Some 1%N) = Ok w' /\
  TrailerVehicle w' 0 = Ok (Some 1%N) /\ TrailerVehicle w' 5 = Ok (Some 1%N) /\ TowVehicle w' 1 = Ok (Some 5%N).
Proof. exists street. eexists. split; [exact street_inv|]. split; [reflexivity|]. split; [vm_compute; reflexivity|]. vm_compute. auto. Qed.
(** A tow without a hitch: ConnectTrailer reports failure, yet the trailer has the tow from then on. *)
Theorem C55_half_connected_refuted : exists w w', inv w /\ ConnectTrailer w 3 (Some 2%N) = Ok (w', -1) /\ TrailerVehicle w' 3 = Ok None /\ couplers w' 2 = Some 3%N /\ couplers w 2 = Some 1%N.
Proof. exists street. eexists. split; [exact street_inv|]. split; [vm_compute; reflexivity|]. vm_compute. auto. Qed.

(** ** Copies of vehicles *)

(** The copy of a vehicle tows copies of the trailers, all new and under the same names; nothing that existed changes. *)
Theorem C55_copy n w v l : fresh w -> linked w -> towed w v l -> (List.length l <= n)%nat ->
  let k := next_obj w in
  exists w', copyVehicle n w v = Ok (w', k) /\ untouched w w' /\ next_obj w' = (k + N.of_nat (List.length l))%N /\ towed w' k (nseq k (List.length l)) /\
  map (fun x => e_name (ents w' x)) (nseq k (List.length l)) = map (fun x => e_name (ents w x)) l.
Proof.
  intros F L T Hl. destruct (copy_chain n w v l F L T Hl) as [w' [R [U [Nx [T' [Nm _]]]]]]. exists w'. auto.
Qed.
Example C55_copy_ex : match copyVehicle 10 street 0 with
  | Ok (w, k) => k = 6%N /\ TrailerVehicle w 6 = Ok (Some 7%N) /\ TrailerVehicle w 7 = Ok (Some 8%N) /\ TrailerVehicle w 8 = Ok None /\ TowVehicle w 8 = Ok (Some 7%N) /\
      TrailerVehicle w 0 = Ok (Some 1%N) /\ TowVehicle w 1 = Ok (Some 0%N)
  | _ => False
  end.
Proof. vm_compute. auto 10. Qed.
(** A vehicle that tows nothing shares its hitch with its copies: connecting a trailer to the copy connects it to the original too. *)
Theorem C55_copy_shares_hitch_refuted : exists w w' k w'', inv w /\ TrailerVehicle w 5 = Ok None /\ copyVehicle 10 w 5 = Ok (w', k) /\ ConnectTrailer w' k (Some 1%N) = Ok (w'', 0) /\
  TrailerVehicle w'' k = Ok (Some 1%N) /\ TrailerVehicle w'' 5 = Ok (Some 1%N).
Proof.
  exists street. eexists. exists 6%N. eexists. split; [exact street_inv|]. split; [reflexivity|]. split; [vm_compute; reflexivity|]. split; [vm_compute; reflexivity|]. vm_compute. auto.
Qed.
Example C55_copy_premises_ex : fresh coupled /\ linked coupled /\ towed coupled 0 [0; 1; 2]%N.
Proof.
  assert (E : coupled = set_hitch (set_coupler (set_hitch (set_coupler fleet 1 (Some 0%N)) 0 (Some 1%N)) 2 (Some 1%N)) 1 (Some 2%N)) by (vm_compute; reflexivity).
  assert (L : forall x, live coupled x = true -> In x [0; 1; 2; 3; 4; 5]%N).
  { intros x. rewrite E. cbn [live set_hitch set_coupler fleet new_object]. unfold upd.
    repeat match goal with |- context[(x =? ?k)%N] => destruct (N.eqb_spec x k) as [->|]; [intros _; vm_compute; tauto|] end. discriminate. }
  assert (H : forall h t, hitches coupled h = Some t -> (h = 0%N /\ t = 1%N) \/ (h = 1%N /\ t = 2%N)).
  { intros h t. rewrite E. cbn [hitches set_hitch set_coupler fleet new_object]. unfold upd. destruct (N.eqb_spec h 1) as [->|]; [intro F; injection F as <-; auto|].
    destruct (N.eqb_spec h 0) as [->|]; [intro F; injection F as <-; auto|].
    repeat match goal with |- context[if (h =? ?k)%N then _ else _] => destruct (h =? k)%N; [discriminate|] end. discriminate. }
  split; [split; [|split; [|split]]|split].
  - intros x Lx. apply L in Lx. cbn in Lx. intuition (subst; reflexivity).
  - intros h t Ht. destruct (H h t Ht) as [[-> ->]|[-> ->]]; reflexivity.
  - intros x h Lx. apply L in Lx. cbn in Lx. intuition (subst; revert H0; vm_compute; intro F; first [discriminate|injection F as <-; reflexivity]).
  - intros x c Lx. apply L in Lx. cbn in Lx. intuition (subst; revert H0; vm_compute; intro F; first [discriminate|injection F as <-; reflexivity]).
  - intros x h t Lx Eh Ht. apply L in Lx. destruct (H h t Ht) as [[-> ->]|[-> ->]]; cbn in Lx;
      (repeat destruct Lx as [Lx|Lx]); try destruct Lx; subst; vm_compute in Eh; try discriminate; (split; [reflexivity|]); (split; [reflexivity|]); (split; [reflexivity|]); eexists; (split; [reflexivity|]); vm_compute; discriminate.
  - apply towed_next with (t := 1%N); [reflexivity|reflexivity|]. apply towed_next with (t := 2%N); [reflexivity|reflexivity|]. apply towed_end; reflexivity.
Qed.

Print Assumptions C55_step.
Print Assumptions C55_run.
Print Assumptions C55_once.
Print Assumptions C55_active.
Print Assumptions C55_ids.
Print Assumptions C55_trailer_listed.
Print Assumptions C55_no_dangling.
Print Assumptions C55_ids_grow.
Print Assumptions C55_activate.
Print Assumptions C55_deactivate.
Print Assumptions C55_activate_any.
Print Assumptions C55_deactivate_any.
Print Assumptions C55_activate_again.
Print Assumptions C55_deactivate_again.
Print Assumptions C55_convoy_parted_refuted.
Print Assumptions C55_convoy_stays_parted_refuted.
Print Assumptions C55_add.
Print Assumptions C55_add_hooked.
Print Assumptions C55_add_too_many.
Print Assumptions C55_add_limit.
Print Assumptions C55_added_twice_refuted.
Print Assumptions C55_remove.
Print Assumptions C55_remove_one.
Print Assumptions C55_remove_by.
Print Assumptions C55_remove_circle.
Print Assumptions C55_removed_trailer_dangles_refuted.
Print Assumptions C55_removed_tow_dangles_refuted.
Print Assumptions C55_removed_from_pool_refuted.
Print Assumptions C55_by_id.
Print Assumptions C55_by_none.
Print Assumptions C55_by_some.
Print Assumptions C55_by_active_first.
Print Assumptions C55_index.
Print Assumptions C55_name_exists.
Print Assumptions C55_index_exists_refuted.
Print Assumptions C55_connect.
Print Assumptions C55_disconnect.
Print Assumptions C55_disconnect_none.
Print Assumptions C55_connect_none.
Print Assumptions C55_connect_same.
Print Assumptions C55_connect_others.
Print Assumptions C55_two_tows_refuted.
Print Assumptions C55_half_connected_refuted.
Print Assumptions C55_copy.
Print Assumptions C55_copy_shares_hitch_refuted.
