(** * Laws of the lists of entities and of trailers *)
From Coq Require Import List Bool ZArith NArith Lia String.
From Verif Require Import EntModel.
Import ListNotations.
Local Open Scope Z_scope.

(** ** Specification *)

(** An object is in one of the lists. *)
Definition listed (w : world) (o : N) : Prop := In o (object_ w) \/ In o (object_pool_ w).

(** The lists hold every object once, objects in them exist, know whether they are active and have ids of their own, all below the next one. *)
Definition inv0 (w : world) : Prop :=
  NoDup (object_ w ++ object_pool_ w) /\ (forall o, listed w o -> live w o = true) /\ (forall o, In o (object_ w) -> e_active (ents w o) = true) /\
  (forall o, In o (object_pool_ w) -> e_active (ents w o) = false) /\
  (forall o o', listed w o -> listed w o' -> e_id (ents w o) = e_id (ents w o') -> o = o') /\ (forall o, listed w o -> e_id (ents w o) < nextId_ w) /\
  (forall o, live w o = true -> (o < next_obj w)%N).
(** The trailer of an object in the lists is in the lists. *)
Definition closed (w : world) : Prop := forall o, listed w o -> exists r, TrailerVehicle w o = Ok r /\ forall t, r = Some t -> listed w t.
Definition inv (w : world) : Prop := inv0 w /\ closed w.

(** An object and all its trailers. *)
Inductive chain (w : world) : N -> list N -> Prop :=
| chain_end o : TrailerVehicle w o = Ok None -> chain w o [o]
| chain_self o : TrailerVehicle w o = Ok (Some o) -> chain w o [o]
| chain_next o t l : TrailerVehicle w o = Ok (Some t) -> t <> o -> chain w t l -> chain w o (o :: l).

(** The object at the hitch. *)
Definition at_hitch (w : world) (o : N) : option N :=
  if e_vehicle (ents w o) then match e_hitch (ents w o) with Some h => hitches w h | None => None end else None.
Inductive towed (w : world) : N -> list N -> Prop :=
| towed_end o : live w o = true -> at_hitch w o = None -> towed w o [o]
| towed_next o t l : live w o = true -> at_hitch w o = Some t -> towed w t l -> towed w o (o :: l).

(** Nothing that concerns trailers differs. *)
Definition same_links (w w' : world) : Prop :=
  (forall o, live w' o = live w o) /\ (forall h, hitches w' h = hitches w h) /\ (forall c, couplers w' c = couplers w c) /\
  (forall o, e_vehicle (ents w' o) = e_vehicle (ents w o) /\ e_hitch (ents w' o) = e_hitch (ents w o) /\ e_coupler (ents w' o) = e_coupler (ents w o)).
Definition same_ids (w w' : world) : Prop :=
  (forall o, e_id (ents w' o) = e_id (ents w o) /\ e_name (ents w' o) = e_name (ents w o)) /\ nextId_ w' = nextId_ w /\ next_obj w' = next_obj w.

(** ** Lists *)

Lemma mem_in o l : mem o l = true <-> In o l.
Proof.
  unfold mem. rewrite existsb_exists. split.
  - intros [x [H E]]. apply N.eqb_eq in E. subst. exact H.
  - intro H. exists o. split; [exact H|apply N.eqb_refl].
Qed.

Lemma mem_false o l : mem o l = false <-> ~ In o l.
Proof. rewrite <- mem_in. destruct (mem o l); intuition congruence. Qed.

Lemma in_erase o l x : In x (erase o l) <-> In x l /\ x <> o.
Proof. unfold erase. rewrite filter_In, negb_true_iff, N.eqb_neq. reflexivity. Qed.

Lemma erase_notin o l : ~ In o l -> erase o l = l.
Proof.
  induction l as [|a l IH]; [reflexivity|]. intro H. cbn. destruct (N.eqb_spec a o) as [->|]; cbn.
  - exfalso. apply H. left. reflexivity.
  - f_equal. apply IH. intro F. apply H. right. exact F.
Qed.

Lemma count_zero o l : count o l = 0%nat <-> ~ In o l.
Proof.
  unfold count. split.
  - intros H F. assert (G : In o (filter (N.eqb o) l)) by (apply filter_In; split; [exact F|apply N.eqb_refl]).
    destruct (filter (N.eqb o) l); [destruct G|discriminate].
  - intro H. destruct (filter (N.eqb o) l) as [|x r] eqn:E; [reflexivity|]. exfalso. assert (G : In x (filter (N.eqb o) l)) by (rewrite E; left; reflexivity).
    apply filter_In in G. destruct G as [G F]. apply N.eqb_eq in F. subst. contradiction.
Qed.

Lemma count_one o l : NoDup l -> In o l -> count o l = 1%nat.
Proof.
  unfold count. induction l as [|a l IH]; intros D H; [destruct H|]. inversion D; subst. cbn. destruct (N.eqb_spec o a) as [->|Hne].
  - cbn. f_equal. change (count a l = 0%nat). apply count_zero. assumption.
  - apply IH; [assumption|]. destruct H; [congruence|assumption].
Qed.

Lemma nodup_app {A} (l m : list A) : NoDup (l ++ m) <-> NoDup l /\ NoDup m /\ (forall x, In x l -> In x m -> False).
Proof.
  induction l as [|a l IH]; cbn.
  - split; [intro H; split; [constructor|]; split; [exact H|intros x []]|intros [_ [H _]]; exact H].
  - split.
    + intro H. inversion H as [|? ? H1 H2]; subst. apply IH in H2. destruct H2 as [A1 [A2 A3]]. rewrite in_app_iff in H1.
      split; [constructor; [tauto|exact A1]|]. split; [exact A2|]. intros x [->|F] G; [tauto|eauto].
    + intros [A1 [A2 A3]]. inversion A1 as [|? ? B1 B2]; subst. constructor.
      * rewrite in_app_iff. intros [F|F]; [contradiction|]. apply (A3 a); [left; reflexivity|exact F].
      * apply IH. split; [exact B2|]. split; [exact A2|]. intros x F G. apply (A3 x); [right; exact F|exact G].
Qed.

Lemma nodup_erase o l : NoDup l -> NoDup (erase o l).
Proof. apply NoDup_filter. Qed.

Lemma nodup_snoc (l : list N) k : NoDup (l ++ [k]) <-> NoDup l /\ ~ In k l.
Proof.
  rewrite nodup_app. split.
  - intros [A [_ B]]. split; [exact A|]. intro F. apply (B k F). left. reflexivity.
  - intros [A B]. split; [exact A|]. split; [constructor; [intros []|constructor]|]. intros x F [->|[]]. contradiction.
Qed.

(** ** Links *)

Lemma links_refl w : same_links w w.
Proof. repeat split. Qed.
Lemma links_trans a b c : same_links a b -> same_links b c -> same_links a c.
Proof.
  intros [A1 [A2 [A3 A4]]] [B1 [B2 [B3 B4]]]. split; [congruence|]. split; [congruence|]. split; [congruence|]. intro o.
  destruct (A4 o) as [? [? ?]], (B4 o) as [? [? ?]]. repeat split; congruence.
Qed.
Lemma links_sym a b : same_links a b -> same_links b a.
Proof. intros [A1 [A2 [A3 A4]]]. split; [auto|]. split; [auto|]. split; [auto|]. intro o. destruct (A4 o) as [? [? ?]]. auto. Qed.

Lemma trailer_same w w' o : same_links w w' -> TrailerVehicle w' o = TrailerVehicle w o.
Proof.
  intros [A1 [A2 [A3 A4]]]. unfold TrailerVehicle. rewrite A1. destruct (A4 o) as [-> [-> _]]. destruct (negb (live w o)); [reflexivity|].
  destruct (negb (e_vehicle (ents w o))); [reflexivity|]. destruct (e_hitch (ents w o)) as [h|]; [|reflexivity]. rewrite A2.
  destruct (hitches w h) as [t|]; [|reflexivity]. rewrite A1. destruct (A4 t) as [-> [_ ->]]. reflexivity.
Qed.

Lemma chain_same w w' o l : same_links w w' -> chain w o l -> chain w' o l.
Proof.
  intros H C. induction C as [o E|o E|o t l E Hne C IH].
  - apply chain_end. rewrite (trailer_same w w') by exact H. exact E.
  - apply chain_self. rewrite (trailer_same w w') by exact H. exact E.
  - eapply chain_next; [rewrite (trailer_same w w') by exact H; exact E|exact Hne|exact IH].
Qed.

Lemma trailer_live w o r : TrailerVehicle w o = Ok r -> live w o = true.
Proof. unfold TrailerVehicle. destruct (live w o); [reflexivity|discriminate]. Qed.

Lemma trailer_some w o t : TrailerVehicle w o = Ok (Some t) ->
  live w o = true /\ live w t = true /\ e_vehicle (ents w o) = true /\ e_vehicle (ents w t) = true /\
  (exists h, e_hitch (ents w o) = Some h /\ hitches w h = Some t) /\ (exists c, e_coupler (ents w t) = Some c).
Proof.
  unfold TrailerVehicle. destruct (live w o); [|discriminate]. cbn. destruct (e_vehicle (ents w o)) eqn:V; [|discriminate]. cbn.
  destruct (e_hitch (ents w o)) as [h|]; [|discriminate]. destruct (hitches w h) as [t'|] eqn:Eh; [|discriminate].
  destruct (live w t') eqn:L; [|discriminate]. cbn. destruct (e_vehicle (ents w t')) eqn:V2; [|discriminate]. cbn.
  destruct (e_coupler (ents w t')) as [c|] eqn:C; [|discriminate]. intro H. injection H as <-. repeat split; eauto.
Qed.

Lemma chain_head w o l : chain w o l -> exists r, l = o :: r /\ live w o = true.
Proof. intro C. destruct C as [o E|o E|o t l E Hne C]; eexists; (split; [reflexivity|]); eapply trailer_live; exact E. Qed.

Lemma chain_nonempty w o l : chain w o l -> (0 < List.length l)%nat.
Proof. intro C. destruct C; cbn; lia. Qed.

(** The trailer of a member of the chain is a member. *)
Lemma chain_closed w o l : chain w o l -> forall x, In x l -> exists r, TrailerVehicle w x = Ok r /\ forall t, r = Some t -> In t l.
Proof.
  intro C. induction C as [o E|o E|o t l E Hne C IH]; intros x Hx.
  - destruct Hx as [<-|[]]. exists None. split; [exact E|discriminate].
  - destruct Hx as [<-|[]]. exists (Some o). split; [exact E|]. intros t F. injection F as <-. left. reflexivity.
  - destruct Hx as [<-|Hx].
    + exists (Some t). split; [exact E|]. intros t' F. injection F as <-. right. destruct (chain_head _ _ _ C) as [r [-> _]]. left. reflexivity.
    + destruct (IH x Hx) as [r [R1 R2]]. exists r. split; [exact R1|]. intros t' F. right. apply R2. exact F.
Qed.

(** ** Moving an object between the lists *)

Definition to_active (w : world) (o : N) : world := set_lists (set_active w o true) (object_ w ++ [o]) (erase o (object_pool_ w)).
Definition to_passive (w : world) (o : N) : world := set_lists (set_active w o false) (erase o (object_ w)) (object_pool_ w ++ [o]).

Lemma ents_set_active w o b x :
  ents (set_active w o b) x = if (x =? o)%N then Ent (e_id (ents w o)) (e_name (ents w o)) (e_vehicle (ents w o)) (e_hitch (ents w o)) (e_coupler (ents w o)) b else ents w x.
Proof. reflexivity. Qed.

Lemma set_active_links w o b a p : same_links w (set_lists (set_active w o b) a p).
Proof.
  split; [reflexivity|]. split; [reflexivity|]. split; [reflexivity|]. intro x. cbn. unfold upd. destruct (N.eqb_spec x o) as [->|]; repeat split.
Qed.

Lemma set_active_ids w o b a p : same_ids w (set_lists (set_active w o b) a p).
Proof. split; [|split; reflexivity]. intro x. cbn. unfold upd. destruct (N.eqb_spec x o) as [->|]; repeat split. Qed.

Lemma inv_pool_not_active w o : inv0 w -> In o (object_pool_ w) -> ~ In o (object_ w).
Proof. intros [D _] H F. apply nodup_app in D. destruct D as [_ [_ D]]. exact (D o F H). Qed.

Lemma to_active_inv w o : inv0 w -> In o (object_pool_ w) -> inv0 (to_active w o) /\ (forall x, listed (to_active w o) x <-> listed w x).
Proof.
  intros H Hp. pose proof (inv_pool_not_active w o H Hp) as Ha. destruct H as [D [L [A [P [I [M Fr]]]]]]. apply nodup_app in D. destruct D as [D1 [D2 D3]].
  assert (Ls : forall x, listed (to_active w o) x <-> listed w x).
  { intro x. unfold listed. cbn. rewrite in_app_iff, in_erase. cbn. destruct (N.eq_dec x o) as [->|]; intuition congruence. }
  split; [|exact Ls]. split; [|split; [|split; [|split; [|split; [|split]]]]].
  - cbn. apply nodup_app. split; [apply nodup_snoc; auto|]. split; [apply nodup_erase; exact D2|]. intros x F G. apply in_erase in G. apply in_app_or in F.
    destruct F as [F|[->|[]]]; [exact (D3 x F (proj1 G))|destruct G; congruence].
  - intros x Hx. apply Ls in Hx. apply L. exact Hx.
  - intros x Hx. cbn in Hx |- *. unfold upd. destruct (N.eqb_spec x o) as [->|Hne]; [reflexivity|]. apply A. apply in_app_or in Hx. destruct Hx as [Hx|[->|[]]]; congruence.
  - intros x Hx. cbn in Hx |- *. apply in_erase in Hx. destruct Hx as [Hx Hne]. unfold upd. apply N.eqb_neq in Hne. rewrite Hne. apply P. exact Hx.
  - intros x y Hx Hy E. apply Ls in Hx, Hy. destruct (set_active_ids w o true (object_ w ++ [o]) (erase o (object_pool_ w))) as [Si _]. unfold to_active in E.
    rewrite !(proj1 (Si _)) in E. apply I; assumption.
  - intros x Hx. apply Ls in Hx. destruct (set_active_ids w o true (object_ w ++ [o]) (erase o (object_pool_ w))) as [Si _]. unfold to_active.
    rewrite (proj1 (Si x)). apply M. exact Hx.
  - exact Fr.
Qed.

Lemma to_passive_inv w o : inv0 w -> In o (object_ w) -> inv0 (to_passive w o) /\ (forall x, listed (to_passive w o) x <-> listed w x).
Proof.
  intros H Ha. pose proof H as [D [L [A [P [I [M Fr]]]]]]. apply nodup_app in D. destruct D as [D1 [D2 D3]].
  assert (Hp : ~ In o (object_pool_ w)) by (intro F; exact (D3 o Ha F)).
  assert (Ls : forall x, listed (to_passive w o) x <-> listed w x).
  { intro x. unfold listed. cbn. rewrite in_app_iff, in_erase. cbn. destruct (N.eq_dec x o) as [->|]; intuition congruence. }
  split; [|exact Ls]. split; [|split; [|split; [|split; [|split; [|split]]]]].
  - cbn. apply nodup_app. split; [apply nodup_erase; exact D1|]. split; [apply nodup_snoc; auto|]. intros x F G. apply in_erase in F. apply in_app_or in G.
    destruct G as [G|[->|[]]]; [exact (D3 x (proj1 F) G)|destruct F; congruence].
  - intros x Hx. apply Ls in Hx. apply L. exact Hx.
  - intros x Hx. cbn in Hx |- *. apply in_erase in Hx. destruct Hx as [Hx Hne]. unfold upd. apply N.eqb_neq in Hne. rewrite Hne. apply A. exact Hx.
  - intros x Hx. cbn in Hx |- *. unfold upd. destruct (N.eqb_spec x o) as [->|Hne]; [reflexivity|]. apply P. apply in_app_or in Hx. destruct Hx as [Hx|[->|[]]]; congruence.
  - intros x y Hx Hy E. apply Ls in Hx, Hy. destruct (set_active_ids w o false (erase o (object_ w)) (object_pool_ w ++ [o])) as [Si _]. unfold to_passive in E.
    rewrite !(proj1 (Si _)) in E. apply I; assumption.
  - intros x Hx. apply Ls in Hx. destruct (set_active_ids w o false (erase o (object_ w)) (object_pool_ w ++ [o])) as [Si _]. unfold to_passive.
    rewrite (proj1 (Si x)). apply M. exact Hx.
  - exact Fr.
Qed.

Lemma activate_pooled n w o : inv0 w -> In o (object_pool_ w) -> activateObject (S n) w o = into_trailer (activateObject n) (to_active w o) o.
Proof.
  intros H Hp. pose proof (inv_pool_not_active w o H Hp) as Ha. destruct H as [D [L _]]. apply nodup_app in D. destruct D as [_ [D2 _]].
  cbn [activateObject]. rewrite (L o (or_intror Hp)). cbn [negb]. rewrite (proj2 (count_zero o (object_ w)) Ha). cbn [Nat.eqb].
  change (object_pool_ (set_active (set_lists w (object_ w ++ [o]) (object_pool_ w)) o true)) with (object_pool_ w). rewrite (count_one o _ D2 Hp). reflexivity.
Qed.

Lemma activate_already n w o : inv0 w -> In o (object_ w) -> activateObject (S n) w o = Ok (w, -1).
Proof.
  intros [D [L _]] Ha. apply nodup_app in D. destruct D as [D1 _]. cbn [activateObject]. rewrite (L o (or_introl Ha)). cbn [negb].
  rewrite (count_one o _ D1 Ha). reflexivity.
Qed.

Lemma deactivate_active n w o : inv0 w -> In o (object_ w) -> deactivateObject (S n) w o = into_trailer (deactivateObject n) (to_passive w o) o.
Proof.
  intros [D [L _]] Ha. apply nodup_app in D. destruct D as [D1 [_ D3]]. cbn [deactivateObject]. rewrite (L o (or_introl Ha)). cbn [negb].
  rewrite (count_one o _ D1 Ha). cbn [Nat.eqb]. change (object_pool_ (set_active (set_lists w (erase o (object_ w)) (object_pool_ w)) o false)) with (object_pool_ w).
  rewrite (proj2 (count_zero o (object_pool_ w)) (fun F => D3 o Ha F)). reflexivity.
Qed.

Lemma deactivate_already n w o : inv0 w -> In o (object_pool_ w) -> deactivateObject (S n) w o = Ok (w, -1).
Proof.
  intros H Hp. pose proof (inv_pool_not_active w o H Hp) as Ha. destruct H as [D [L _]]. cbn [deactivateObject]. rewrite (L o (or_intror Hp)). cbn [negb].
  rewrite (proj2 (count_zero o (object_ w)) Ha). reflexivity.
Qed.

Lemma closed_same w w' : same_links w w' -> (forall x, listed w' x <-> listed w x) -> closed w -> closed w'.
Proof.
  intros S Ls C o Ho. apply Ls in Ho. destruct (C o Ho) as [r [R1 R2]]. exists r. rewrite (trailer_same w w' o S). split; [exact R1|]. intros t E. apply Ls. apply R2. exact E.
Qed.

Lemma ids_refl w : same_ids w w.
Proof. repeat split. Qed.
Lemma ids_trans a b c : same_ids a b -> same_ids b c -> same_ids a c.
Proof.
  intros [A1 [A2 A3]] [B1 [B2 B3]]. split; [|split; congruence]. intro o. destruct (A1 o), (B1 o). split; congruence.
Qed.

(** ** Activation and deactivation, in every state *)

Definition moved (w w' : world) : Prop := inv w' /\ same_links w w' /\ same_ids w w' /\ (forall x, listed w' x <-> listed w x).

Lemma moved_refl w : inv w -> moved w w.
Proof. intro H. split; [exact H|]. split; [apply links_refl|]. split; [apply ids_refl|reflexivity]. Qed.
Lemma moved_trans a b c : moved a b -> moved b c -> moved a c.
Proof.
  intros [A1 [A2 [A3 A4]]] [B1 [B2 [B3 B4]]]. split; [exact B1|]. split; [eapply links_trans; eassumption|]. split; [eapply ids_trans; eassumption|].
  intro x. rewrite B4. apply A4.
Qed.

Lemma to_active_moved w o : inv w -> In o (object_pool_ w) -> moved w (to_active w o).
Proof.
  intros [H C] Hp. destruct (to_active_inv w o H Hp) as [A B]. pose proof (set_active_links w o true (object_ w ++ [o]) (erase o (object_pool_ w))) as S.
  split; [split; [exact A|eapply closed_same; eassumption]|]. split; [exact S|]. split; [apply set_active_ids|exact B].
Qed.
Lemma to_passive_moved w o : inv w -> In o (object_ w) -> moved w (to_passive w o).
Proof.
  intros [H C] Ha. destruct (to_passive_inv w o H Ha) as [A B]. pose proof (set_active_links w o false (erase o (object_ w)) (object_pool_ w ++ [o])) as S.
  split; [split; [exact A|eapply closed_same; eassumption]|]. split; [exact S|]. split; [apply set_active_ids|exact B].
Qed.

Lemma activate_spec n : forall w o, inv w -> listed w o ->
  activateObject n w o = Quit \/
  exists w', activateObject n w o = Ok (w', if mem o (object_ w) then -1 else 0) /\ moved w w' /\ In o (object_ w') /\ (forall x, In x (object_ w) -> In x (object_ w')).
Proof.
  induction n as [|n IH]; intros w o H Ho; [left; reflexivity|]. pose proof H as [H0 C].
  destruct (mem o (object_ w)) eqn:E.
  - apply mem_in in E. right. exists w. rewrite (activate_already n w o H0 E). split; [reflexivity|]. split; [apply moved_refl; exact H|]. auto.
  - apply mem_false in E. destruct Ho as [Ho|Hp]; [contradiction|]. rewrite (activate_pooled n w o H0 Hp). pose proof (to_active_moved w o H Hp) as Mv.
    pose proof Mv as [[I1 C1] [S1 [_ Ls]]]. unfold into_trailer. assert (Lo : listed (to_active w o) o) by (left; cbn; apply in_or_app; right; left; reflexivity).
    assert (Gr : forall x, In x (object_ w) -> In x (object_ (to_active w o))) by (intros x Hx; cbn; apply in_or_app; left; exact Hx).
    assert (Oo : In o (object_ (to_active w o))) by (cbn; apply in_or_app; right; left; reflexivity).
    destruct (C1 o Lo) as [r [R1 R2]]. rewrite R1. cbn [bind]. destruct r as [t|].
    + destruct (N.eqb_spec t o) as [->|Hne]; [right; exists (to_active w o); auto|].
      destruct (IH (to_active w o) t (conj I1 C1) (R2 t eq_refl)) as [Q|[w' [R3 [Mv' [_ Gr']]]]].
      * left. rewrite Q. reflexivity.
      * right. exists w'. rewrite R3. cbn [bind fst]. split; [reflexivity|]. split; [eapply moved_trans; eassumption|]. auto.
    + right. exists (to_active w o). auto.
Qed.

Lemma deactivate_spec n : forall w o, inv w -> listed w o ->
  deactivateObject n w o = Quit \/
  exists w', deactivateObject n w o = Ok (w', if mem o (object_ w) then 0 else -1) /\ moved w w' /\ In o (object_pool_ w') /\ (forall x, In x (object_pool_ w) -> In x (object_pool_ w')).
Proof.
  induction n as [|n IH]; intros w o H Ho; [left; reflexivity|]. pose proof H as [H0 C].
  destruct (mem o (object_ w)) eqn:E.
  - apply mem_in in E. rewrite (deactivate_active n w o H0 E). pose proof (to_passive_moved w o H E) as Mv.
    pose proof Mv as [[I1 C1] [S1 [_ Ls]]]. unfold into_trailer. assert (Oo : In o (object_pool_ (to_passive w o))) by (cbn; apply in_or_app; right; left; reflexivity).
    assert (Lo : listed (to_passive w o) o) by (right; exact Oo).
    assert (Gr : forall x, In x (object_pool_ w) -> In x (object_pool_ (to_passive w o))) by (intros x Hx; cbn; apply in_or_app; left; exact Hx).
    destruct (C1 o Lo) as [r [R1 R2]]. rewrite R1. cbn [bind]. destruct r as [t|].
    + destruct (N.eqb_spec t o) as [->|Hne]; [right; exists (to_passive w o); auto|].
      destruct (IH (to_passive w o) t (conj I1 C1) (R2 t eq_refl)) as [Q|[w' [R3 [Mv' [_ Gr']]]]].
      * left. rewrite Q. reflexivity.
      * right. exists w'. rewrite R3. cbn [bind fst]. split; [reflexivity|]. split; [eapply moved_trans; eassumption|]. auto.
    + right. exists (to_passive w o). auto.
  - apply mem_false in E. destruct Ho as [Ho|Hp]; [contradiction|]. right. exists w. rewrite (deactivate_already n w o H0 Hp). split; [reflexivity|].
    split; [apply moved_refl; exact H|]. auto.
Qed.

Lemma activate_not_quit n : forall w o l, inv w -> listed w o -> chain w o l -> (List.length l <= n)%nat -> activateObject n w o <> Quit.
Proof.
  induction n as [|n IH]; intros w o l H Ho C Hl; [pose proof (chain_nonempty _ _ _ C); lia|]. pose proof H as [H0 Cl].
  destruct Ho as [Ha|Hp]; [rewrite (activate_already n w o H0 Ha); discriminate|]. rewrite (activate_pooled n w o H0 Hp).
  pose proof (to_active_moved w o H Hp) as [I1 [S1 [_ Ls]]]. unfold into_trailer.
  pose proof (trailer_same _ _ o S1) as Et.
  destruct C as [o E|o E|o t l E Hne C]; rewrite Et, E; cbn [bind].
  - discriminate.
  - rewrite N.eqb_refl. discriminate.
  - pose proof (proj2 (N.eqb_neq t o) Hne) as ->. destruct (Cl o (or_intror Hp)) as [r [R1 R2]]. rewrite R1 in E. injection E as ->.
    specialize (IH (to_active w o) t l I1 (proj2 (Ls t) (R2 t eq_refl)) (chain_same _ _ _ _ S1 C) ltac:(cbn in Hl; lia)).
    destruct (activateObject n (to_active w o) t); cbn [bind]; congruence.
Qed.

Lemma deactivate_not_quit n : forall w o l, inv w -> listed w o -> chain w o l -> (List.length l <= n)%nat -> deactivateObject n w o <> Quit.
Proof.
  induction n as [|n IH]; intros w o l H Ho C Hl; [pose proof (chain_nonempty _ _ _ C); lia|]. pose proof H as [H0 Cl].
  destruct Ho as [Ha|Hp]; [|rewrite (deactivate_already n w o H0 Hp); discriminate]. rewrite (deactivate_active n w o H0 Ha).
  pose proof (to_passive_moved w o H Ha) as [I1 [S1 [_ Ls]]]. unfold into_trailer.
  pose proof (trailer_same _ _ o S1) as Et.
  destruct C as [o E|o E|o t l E Hne C]; rewrite Et, E; cbn [bind].
  - discriminate.
  - rewrite N.eqb_refl. discriminate.
  - pose proof (proj2 (N.eqb_neq t o) Hne) as ->. destruct (Cl o (or_introl Ha)) as [r [R1 R2]]. rewrite R1 in E. injection E as ->.
    specialize (IH (to_passive w o) t l I1 (proj2 (Ls t) (R2 t eq_refl)) (chain_same _ _ _ _ S1 C) ltac:(cbn in Hl; lia)).
    destruct (deactivateObject n (to_passive w o) t); cbn [bind]; congruence.
Qed.

(** ** A whole chain from one list to the other *)

Lemma activate_chain n : forall w o l, inv w -> chain w o l -> NoDup l -> (List.length l <= n)%nat -> (forall x, In x l -> In x (object_pool_ w)) ->
  exists w', activateObject n w o = Ok (w', 0) /\ object_ w' = object_ w ++ l /\ (forall x, In x (object_pool_ w') <-> In x (object_pool_ w) /\ ~ In x l) /\ moved w w'.
Proof.
  induction n as [|n IH]; intros w o l H C D Hl Hp; [pose proof (chain_nonempty _ _ _ C); lia|]. pose proof H as [H0 Cl].
  assert (Po : In o (object_pool_ w)) by (apply Hp; destruct (chain_head _ _ _ C) as [r [-> _]]; left; reflexivity).
  rewrite (activate_pooled n w o H0 Po). pose proof (to_active_moved w o H Po) as Mv. pose proof Mv as [I1 [S1 [_ Ls]]]. unfold into_trailer.
  pose proof (trailer_same _ _ o S1) as Et.
  assert (One : forall l', l' = [o] -> object_ (to_active w o) = object_ w ++ l' /\ (forall x, In x (object_pool_ (to_active w o)) <-> In x (object_pool_ w) /\ ~ In x l')).
  { intros l' ->. split; [reflexivity|]. intro x. cbn. rewrite in_erase. intuition congruence. }
  destruct C as [o E|o E|o t l E Hne C]; rewrite Et, E; cbn [bind].
  - exists (to_active w o). split; [reflexivity|]. destruct (One [o] eq_refl) as [A B]. auto.
  - rewrite N.eqb_refl. exists (to_active w o). split; [reflexivity|]. destruct (One [o] eq_refl) as [A B]. auto.
  - pose proof (proj2 (N.eqb_neq t o) Hne) as ->. inversion D as [|? ? D1 D2]; subst.
    destruct (IH (to_active w o) t l I1 (chain_same _ _ _ _ S1 C) D2 ltac:(cbn in Hl; lia)) as [w' [R [A [B Mv']]]].
    { intros x Hx. cbn. apply in_erase. split; [apply Hp; right; exact Hx|]. intro F. subst. contradiction. }
    exists w'. rewrite R. cbn [bind fst]. split; [reflexivity|]. split; [rewrite A; cbn; rewrite <- app_assoc; reflexivity|].
    split; [|eapply moved_trans; eassumption]. intro x. rewrite B. cbn. rewrite in_erase. intuition congruence.
Qed.

Lemma deactivate_chain n : forall w o l, inv w -> chain w o l -> NoDup l -> (List.length l <= n)%nat -> (forall x, In x l -> In x (object_ w)) ->
  exists w', deactivateObject n w o = Ok (w', 0) /\ object_pool_ w' = object_pool_ w ++ l /\ (forall x, In x (object_ w') <-> In x (object_ w) /\ ~ In x l) /\ moved w w'.
Proof.
  induction n as [|n IH]; intros w o l H C D Hl Hp; [pose proof (chain_nonempty _ _ _ C); lia|]. pose proof H as [H0 Cl].
  assert (Po : In o (object_ w)) by (apply Hp; destruct (chain_head _ _ _ C) as [r [-> _]]; left; reflexivity).
  rewrite (deactivate_active n w o H0 Po). pose proof (to_passive_moved w o H Po) as Mv. pose proof Mv as [I1 [S1 [_ Ls]]]. unfold into_trailer.
  pose proof (trailer_same _ _ o S1) as Et.
  assert (One : forall l', l' = [o] -> object_pool_ (to_passive w o) = object_pool_ w ++ l' /\ (forall x, In x (object_ (to_passive w o)) <-> In x (object_ w) /\ ~ In x l')).
  { intros l' ->. split; [reflexivity|]. intro x. cbn. rewrite in_erase. intuition congruence. }
  destruct C as [o E|o E|o t l E Hne C]; rewrite Et, E; cbn [bind].
  - exists (to_passive w o). split; [reflexivity|]. destruct (One [o] eq_refl) as [A B]. auto.
  - rewrite N.eqb_refl. exists (to_passive w o). split; [reflexivity|]. destruct (One [o] eq_refl) as [A B]. auto.
  - pose proof (proj2 (N.eqb_neq t o) Hne) as ->. inversion D as [|? ? D1 D2]; subst.
    destruct (IH (to_passive w o) t l I1 (chain_same _ _ _ _ S1 C) D2 ltac:(cbn in Hl; lia)) as [w' [R [A [B Mv']]]].
    { intros x Hx. cbn. apply in_erase. split; [apply Hp; right; exact Hx|]. intro F. subst. contradiction. }
    exists w'. rewrite R. cbn [bind fst]. split; [reflexivity|]. split; [rewrite A; cbn; rewrite <- app_assoc; reflexivity|].
    split; [|eapply moved_trans; eassumption]. intro x. rewrite B. cbn. rewrite in_erase. intuition congruence.
Qed.

(** ** Adding objects *)

(** The world after the object itself was entered. *)
Definition entered (w : world) (o : N) (activate : bool) : world :=
  let e := ents w o in
  W (upd (ents w) o (Ent (nextId_ w) (e_name e) (e_vehicle e) (e_hitch e) (e_coupler e) activate)) (live w) (hitches w) (couplers w)
    (if activate then object_ w ++ [o] else object_ w) (if activate then object_pool_ w else object_pool_ w ++ [o])
    (nextId_ w + 1) (next_obj w) (next_handle w).

Lemma entered_links w o a : same_links w (entered w o a).
Proof.
  split; [reflexivity|]. split; [reflexivity|]. split; [reflexivity|]. intro x. cbn. unfold upd. destruct (N.eqb_spec x o) as [->|]; repeat split.
Qed.

Lemma entered_listed w o a x : listed (entered w o a) x <-> listed w x \/ x = o.
Proof. unfold listed. destruct a; cbn; rewrite in_app_iff; cbn; intuition congruence. Qed.

Lemma entered_inv w o a : inv0 w -> live w o = true -> ~ listed w o -> inv0 (entered w o a).
Proof.
  intros [D [L [A [P [I [M Fr]]]]]] Lo No. apply nodup_app in D. destruct D as [D1 [D2 D3]].
  split; [|split; [|split; [|split; [|split; [|split]]]]].
  - destruct a; cbn; apply nodup_app.
    + split; [apply nodup_snoc; split; [exact D1|]; intro F; apply No; left; exact F|]. split; [exact D2|]. intros x F G. apply in_app_or in F.
      destruct F as [F|[->|[]]]; [exact (D3 x F G)|]. apply No. right. exact G.
    + split; [exact D1|]. split; [apply nodup_snoc; split; [exact D2|]; intro F; apply No; right; exact F|]. intros x F G. apply in_app_or in G.
      destruct G as [G|[->|[]]]; [exact (D3 x F G)|]. apply No. left. exact F.
  - intros x Hx. apply entered_listed in Hx. change (live w x = true). destruct Hx as [Hx| ->]; [apply L; exact Hx|exact Lo].
  - intros x Hx. cbn. unfold upd. destruct (N.eqb_spec x o) as [->|Hne].
    + destruct a; [reflexivity|]. exfalso. apply No. left. exact Hx.
    + apply A. destruct a; cbn in Hx; [|exact Hx]. apply in_app_or in Hx. destruct Hx as [Hx|[->|[]]]; [exact Hx|congruence].
  - intros x Hx. cbn. unfold upd. destruct (N.eqb_spec x o) as [->|Hne].
    + destruct a; [|reflexivity]. exfalso. apply No. right. exact Hx.
    + apply P. destruct a; cbn in Hx; [exact Hx|]. apply in_app_or in Hx. destruct Hx as [Hx|[->|[]]]; [exact Hx|congruence].
  - assert (K : forall x, listed w x -> x <> o) by (intros x Hx ->; contradiction).
    intros x y Hx Hy. apply entered_listed in Hx, Hy. cbn. unfold upd. destruct Hx as [Hx| ->], Hy as [Hy| ->].
    + rewrite (proj2 (N.eqb_neq x o) (K x Hx)), (proj2 (N.eqb_neq y o) (K y Hy)). apply I; assumption.
    + rewrite (proj2 (N.eqb_neq x o) (K x Hx)), N.eqb_refl. cbn. intro E. pose proof (M x Hx). lia.
    + rewrite (proj2 (N.eqb_neq y o) (K y Hy)), N.eqb_refl. cbn. intro E. pose proof (M y Hy). lia.
    + reflexivity.
  - intros x Hx. apply entered_listed in Hx. cbn. unfold upd. destruct (N.eqb_spec x o) as [->|Hne]; cbn; [lia|]. destruct Hx as [Hx|Hx]; [|congruence]. pose proof (M x Hx). lia.
  - exact Fr.
Qed.

Lemma set_name_links w t s : same_links w (set_name w t s).
Proof.
  split; [reflexivity|]. split; [reflexivity|]. split; [reflexivity|]. intro x. cbn. unfold upd. destruct (N.eqb_spec x t) as [->|]; repeat split.
Qed.

Lemma set_name_inv w t s : inv0 w -> inv0 (set_name w t s).
Proof.
  assert (Ef : forall x, e_id (ents (set_name w t s) x) = e_id (ents w x) /\ e_active (ents (set_name w t s) x) = e_active (ents w x)).
  { intro x. cbn. unfold upd. destruct (N.eqb_spec x t) as [->|]; split; reflexivity. }
  intros [D [L [A [P [I [M Fr]]]]]]. split; [exact D|]. split; [exact L|]. split; [intros x Hx; rewrite (proj2 (Ef x)); apply A; exact Hx|].
  split; [intros x Hx; rewrite (proj2 (Ef x)); apply P; exact Hx|]. split; [intros x y Hx Hy; rewrite !(proj1 (Ef _)); apply I; assumption|].
  split; [intros x Hx; rewrite (proj1 (Ef x)); apply M; exact Hx|exact Fr].
Qed.

(** Names along the chain: a trailer without a name takes the name of its tow with a plus. *)
Fixpoint chain_names (w : world) (prev : option string) (l : list N) : list string :=
  match l with
  | [] => []
  | o :: l =>
      let s := e_name (ents w o) in
      let s := match prev with Some p => if (s =? "")%string then (p ++ "+")%string else s | None => s end in
      s :: chain_names w (Some s) l
  end.

Lemma chain_names_ext w w' l : (forall x, In x l -> e_name (ents w' x) = e_name (ents w x)) -> forall p, chain_names w' p l = chain_names w p l.
Proof.
  induction l as [|o l IH]; intros H p; [reflexivity|]. cbn. rewrite (H o (or_introl eq_refl)). f_equal. apply IH. intros x Hx. apply H. right. exact Hx.
Qed.

Fixpoint zseq (z : Z) (n : nat) : list Z := match n with O => [] | S n => z :: zseq (z + 1) n end.

Lemma add_chain n a : forall w o l, inv0 w -> chain w o l -> NoDup l -> (List.length l <= n)%nat -> (forall x, In x l -> ~ listed w x) ->
  exists w', addObject n w o a = Ok (w', nextId_ w) /\ inv0 w' /\ same_links w w' /\
  object_ w' = (if a then object_ w ++ l else object_ w) /\ object_pool_ w' = (if a then object_pool_ w else object_pool_ w ++ l) /\
  map (fun x => e_id (ents w' x)) l = zseq (nextId_ w) (List.length l) /\ nextId_ w' = nextId_ w + Z.of_nat (List.length l) /\
  map (fun x => e_name (ents w' x)) l = chain_names w None l /\ (forall x, ~ In x l -> ents w' x = ents w x) /\ next_obj w' = next_obj w.
Proof.
  induction n as [|n IH]; intros w o l H C D Hl Hn; [pose proof (chain_nonempty _ _ _ C); lia|].
  destruct (chain_head _ _ _ C) as [r [El Lo]]. assert (No : ~ listed w o) by (apply Hn; rewrite El; left; reflexivity).
  pose proof (entered_inv w o a H Lo No) as I1. pose proof (entered_links w o a) as S1. pose proof (trailer_same _ _ o S1) as Et.
  cbn [addObject]. rewrite Lo. cbn [negb]. change (W _ _ _ _ _ _ _ _ _) with (entered w o a).
  assert (Eo : ents (entered w o a) o = Ent (nextId_ w) (e_name (ents w o)) (e_vehicle (ents w o)) (e_hitch (ents w o)) (e_coupler (ents w o)) a).
  { cbn. unfold upd. rewrite N.eqb_refl. reflexivity. }
  assert (Ex : forall x, x <> o -> ents (entered w o a) x = ents w x).
  { intros x Hx. cbn. unfold upd. apply N.eqb_neq in Hx. rewrite Hx. reflexivity. }
  assert (One : l = [o] -> exists w', Ok (entered w o a, nextId_ w) = Ok (w', nextId_ w) /\ inv0 w' /\ same_links w w' /\
    object_ w' = (if a then object_ w ++ l else object_ w) /\ object_pool_ w' = (if a then object_pool_ w else object_pool_ w ++ l) /\
    map (fun x => e_id (ents w' x)) l = zseq (nextId_ w) (List.length l) /\ nextId_ w' = nextId_ w + Z.of_nat (List.length l) /\
    map (fun x => e_name (ents w' x)) l = chain_names w None l /\ (forall x, ~ In x l -> ents w' x = ents w x) /\ next_obj w' = next_obj w).
  { intros ->. exists (entered w o a). split; [reflexivity|]. split; [exact I1|]. split; [exact S1|]. split; [reflexivity|]. split; [reflexivity|].
    cbn [map]. rewrite Eo. split; [reflexivity|]. split; [reflexivity|]. split; [reflexivity|]. split; [|reflexivity].
    intros x Hx. apply Ex. intro F. apply Hx. left. auto. }
  destruct C as [o E|o E|o t l E Hne C].
  - rewrite Et, E. cbn [bind]. apply One. reflexivity.
  - rewrite Et, E. cbn [bind]. rewrite N.eqb_refl. apply One. reflexivity.
  - clear One. rewrite Et, E. cbn [bind]. pose proof (proj2 (N.eqb_neq t o) Hne) as Etf. rewrite Etf. inversion D as [|? ? D1 D2]; subst. clear El.
    set (w2 := if (e_name (ents (entered w o a) t) =? "")%string then set_name (entered w o a) t (e_name (ents (entered w o a) o) ++ "+")%string else entered w o a).
    assert (S2 : same_links w w2).
    { unfold w2. destruct (_ =? _)%string; [eapply links_trans; [exact S1|apply set_name_links]|exact S1]. }
    assert (I2 : inv0 w2) by (unfold w2; destruct (_ =? _)%string; [apply set_name_inv|]; exact I1).
    assert (L2 : object_ w2 = object_ (entered w o a) /\ object_pool_ w2 = object_pool_ (entered w o a) /\ nextId_ w2 = nextId_ w + 1 /\ next_obj w2 = next_obj w).
    { unfold w2. destruct (_ =? _)%string; repeat split. }
    destruct L2 as [L2a [L2b [L2c L2d]]].
    assert (Ls2 : forall x, listed w2 x <-> listed w x \/ x = o) by (intro x; unfold listed; rewrite L2a, L2b; apply entered_listed).
    assert (Ht : In t l) by (destruct (chain_head _ _ _ C) as [r' [-> _]]; left; reflexivity).
    assert (Nl : forall x, In x l -> ~ listed w2 x).
    { intros x Hx F. apply Ls2 in F. destruct F as [F| ->]; [|contradiction]. exact (Hn x (or_intror Hx) F). }
    assert (M1 : mem t (object_ w2) = false) by (apply mem_false; intro F; apply (Nl t Ht); left; exact F).
    assert (M2 : mem t (object_pool_ w2) = false) by (apply mem_false; intro F; apply (Nl t Ht); right; exact F).
    rewrite M1, M2. cbn [andb negb].
    destruct (IH w2 t l I2 (chain_same _ _ _ _ S2 C) D2 ltac:(cbn in Hl; lia) Nl) as [w' [R [I' [S' [A' [B' [Id' [Nx' [Nm' [Oth' No']]]]]]]]]].
    exists w'. rewrite R. cbn [bind fst]. split; [reflexivity|]. split; [exact I'|]. split; [eapply links_trans; eassumption|].
    assert (Oo : ents w' o = ents (entered w o a) o).
    { rewrite (Oth' o D1). unfold w2. destruct (_ =? _)%string; [|reflexivity]. cbn. unfold upd. rewrite (proj2 (N.eqb_neq o t) (not_eq_sym Hne)). reflexivity. }
    split; [rewrite A', L2a; destruct a; cbn; [rewrite <- app_assoc|]; reflexivity|]. split; [rewrite B', L2b; destruct a; cbn; [|rewrite <- app_assoc]; reflexivity|].
    cbn [map List.length zseq]. rewrite Oo, Eo, Id', L2c. cbn [e_id]. split; [reflexivity|]. split; [rewrite Nx', L2c; lia|]. split; [|split].
    + cbn [chain_names]. cbn [e_name]. f_equal. rewrite Nm'. destruct (chain_head _ _ _ C) as [l' [-> _]]. cbn [chain_names].
      assert (Nt : e_name (ents w2 t) = if (e_name (ents w t) =? "")%string then (e_name (ents w o) ++ "+")%string else e_name (ents w t)).
      { unfold w2. rewrite (Ex t Hne), Eo. cbn [e_name]. destruct (e_name (ents w t) =? "")%string.
        - cbn. unfold upd. rewrite N.eqb_refl. reflexivity.
        - exact (f_equal e_name (Ex t Hne)). }
      rewrite Nt. f_equal. apply chain_names_ext. intros x Hx. assert (x <> o) by (intros ->; apply D1; right; exact Hx).
      assert (x <> t) by (intros ->; inversion D2; subst; contradiction). unfold w2. destruct (_ =? _)%string; [|rewrite Ex by assumption; reflexivity].
      cbn. unfold upd. rewrite (proj2 (N.eqb_neq x t)), (proj2 (N.eqb_neq x o)) by assumption. reflexivity.
    + intros x Hx. cbn in Hx. assert (Hxo : x <> o) by (intros ->; tauto). assert (Hxl : ~ In x l) by tauto. rewrite (Oth' x Hxl). unfold w2.
      assert (x <> t) by (intros ->; contradiction). destruct (_ =? _)%string; [|apply Ex; assumption].
      cbn. unfold upd. rewrite (proj2 (N.eqb_neq x t)), (proj2 (N.eqb_neq x o)) by assumption. reflexivity.
    + rewrite No'. exact L2d.
Qed.

(** ** Removing objects *)

Lemma removed_fields n w o l : towed w o l -> NoDup l -> (List.length l <= n)%nat -> (forall x, In x l -> In x (object_ w)) ->
  exists w', removeObject n w o true = Ok w' /\ (forall x, live w' x = live w x && negb (mem x l)) /\ object_ w' = filter (fun x => negb (mem x l)) (object_ w) /\
  object_pool_ w' = object_pool_ w /\ ents w' = ents w /\ hitches w' = hitches w /\ couplers w' = couplers w /\ nextId_ w' = nextId_ w /\ next_obj w' = next_obj w.
Proof.
  revert n o l. assert (Er : forall x l (q : list N), erase x (filter (fun y => negb (mem y l)) q) = filter (fun y => negb (mem y (x :: l))) q).
  { intros x l q. unfold erase. induction q as [|y q IH]; [reflexivity|]. cbn [filter]. change (mem y (x :: l)) with ((y =? x)%N || mem y l).
    destruct (mem y l); cbn [negb filter].
    - rewrite orb_true_r. cbn [negb]. exact IH.
    - rewrite orb_false_r. destruct (y =? x)%N; cbn [negb]; [exact IH|]. f_equal. exact IH. }
  induction n as [|n IH]; intros o l T D Hl Ha.
  - destruct T; cbn in Hl; lia.
  - assert (Ho : In o (object_ w)) by (apply Ha; destruct T; left; reflexivity). cbn [removeObject]. pose proof (proj2 (mem_in o _) Ho) as ->. cbn [andb].
    assert (Lo : live w o = true) by (destruct T; assumption).
    destruct T as [o L E|o t l L E T].
    + rewrite L. cbn [negb]. assert (Q : (if negb (e_vehicle (ents w o)) then Ok w else match e_hitch (ents w o) with None => Ok w | Some h => match hitches w h with None => Ok w | Some t => removeObject n w t true end end) = Ok w).
      { unfold at_hitch in E. destruct (e_vehicle (ents w o)); cbn; [|reflexivity]. destruct (e_hitch (ents w o)) as [h|]; [|reflexivity]. rewrite E. reflexivity. }
      rewrite Q. cbn [bind]. rewrite L. cbn [negb]. eexists. split; [reflexivity|]. cbn. split.
      * intro x. unfold upd. rewrite orb_false_r. destruct (N.eqb_spec x o) as [->|]; cbn; [rewrite andb_false_r; reflexivity|rewrite andb_true_r; reflexivity].
      * split; [|repeat split]. unfold erase. apply filter_ext. intro x. rewrite orb_false_r. reflexivity.
    + rewrite L. cbn [negb]. inversion D as [|? ? D1 D2]; subst.
      assert (Q : (if negb (e_vehicle (ents w o)) then Ok w else match e_hitch (ents w o) with None => Ok w | Some h => match hitches w h with None => Ok w | Some t => removeObject n w t true end end) = removeObject n w t true).
      { unfold at_hitch in E. destruct (e_vehicle (ents w o)); cbn; [|discriminate]. destruct (e_hitch (ents w o)) as [h|]; [|discriminate]. rewrite E. reflexivity. }
      rewrite Q. destruct (IH t l T D2 ltac:(cbn in Hl; lia)) as [w' [R [Lv [Ob [Po [En [Hi [Co [Nx No]]]]]]]]]; [intros x Hx; apply Ha; right; exact Hx|].
      rewrite R. cbn [bind]. rewrite Lv, L. pose proof (proj2 (mem_false o l) D1) as F. rewrite F. cbn [negb andb]. eexists. split; [reflexivity|]. cbn. split; [|split].
      * intro x. unfold upd. destruct (N.eqb_spec x o) as [->|Hne]; cbn.
        { rewrite andb_false_r. reflexivity. }
        rewrite Lv. reflexivity.
      * rewrite Ob, Er. reflexivity.
      * repeat (split; [assumption|]). assumption.
Qed.

Lemma removed_single w o n : (0 < n)%nat -> live w o = true ->
  exists w', removeObject n w o false = Ok w' /\ (forall x, live w' x = live w x && negb (mem x [o])) /\ object_ w' = filter (fun x => negb (mem x [o])) (object_ w) /\
  object_pool_ w' = object_pool_ w /\ ents w' = ents w /\ hitches w' = hitches w /\ couplers w' = couplers w /\ nextId_ w' = nextId_ w /\ next_obj w' = next_obj w.
Proof.
  intros Hn L. destruct n as [|n]; [lia|]. cbn [removeObject andb bind]. rewrite L. cbn [negb]. eexists. split; [reflexivity|]. cbn. split; [|split; [|repeat split]].
  - intro x. unfold upd. rewrite orb_false_r. destruct (N.eqb_spec x o) as [->|]; cbn; [rewrite andb_false_r; reflexivity|rewrite andb_true_r; reflexivity].
  - unfold erase. apply filter_ext. intro x. rewrite orb_false_r. reflexivity.
Qed.

(** Trailers in a circle: no stack is large enough. *)
Lemma remove_circle w (P : N -> Prop) : (forall o, P o -> In o (object_ w) /\ live w o = true /\ exists t, at_hitch w o = Some t /\ P t) ->
  forall n o, P o -> removeObject n w o true = Bad.
Proof.
  intro H. induction n as [|n IH]; intros o Po; [reflexivity|]. destruct (H o Po) as [A [L [t [E Pt]]]]. cbn [removeObject].
  pose proof (proj2 (mem_in o _) A) as ->. rewrite L. cbn [andb negb]. unfold at_hitch in E. destruct (e_vehicle (ents w o)); [|discriminate].
  destruct (e_hitch (ents w o)) as [h|]; [|discriminate]. rewrite E. cbn [negb]. rewrite (IH t Pt). reflexivity.
Qed.

Lemma removed_inv w w' l : inv w ->
  (forall x, live w' x = live w x && negb (mem x l)) -> object_ w' = filter (fun x => negb (mem x l)) (object_ w) ->
  object_pool_ w' = object_pool_ w -> ents w' = ents w -> hitches w' = hitches w -> couplers w' = couplers w -> nextId_ w' = nextId_ w -> next_obj w' = next_obj w ->
  (forall x, In x l -> In x (object_ w)) -> (forall x t, listed w x -> ~ In x l -> at_hitch w x = Some t -> ~ In t l) ->
  inv w' /\ (forall x, listed w' x <-> listed w x /\ ~ In x l).
Proof.
  intros [[D [L [A [P [I [M Fr]]]]]] C] Lv Ob Po En Hi Co Nx No Hl Ht. apply nodup_app in D. destruct D as [D1 [D2 D3]].
  assert (Ls : forall x, listed w' x <-> listed w x /\ ~ In x l).
  { intro x. unfold listed. rewrite Ob, Po, filter_In, negb_true_iff, mem_false. split.
    - intros [[F G]|F]; [tauto|]. split; [tauto|]. intro G. exact (D3 x (Hl x G) F).
    - tauto. }
  split; [|exact Ls]. split; [split; [|split; [|split; [|split; [|split; [|split]]]]]|].
  - rewrite Ob, Po. apply nodup_app. split; [apply NoDup_filter; exact D1|]. split; [exact D2|]. intros x F G. apply filter_In in F. exact (D3 x (proj1 F) G).
  - intros x Hx. apply Ls in Hx. destruct Hx as [Hx F]. rewrite Lv, (L x Hx). apply mem_false in F. rewrite F. reflexivity.
  - intros x Hx. rewrite En. apply A. rewrite Ob in Hx. apply filter_In in Hx. apply Hx.
  - intros x Hx. rewrite En. apply P. rewrite Po in Hx. exact Hx.
  - intros x y Hx Hy. rewrite En. apply Ls in Hx, Hy. apply I; tauto.
  - intros x Hx. rewrite En, Nx. apply M. apply Ls in Hx. apply Hx.
  - intros x Hx. rewrite No. apply Fr. rewrite Lv in Hx. apply andb_true_iff in Hx. apply Hx.
  - intros x Hx. apply Ls in Hx. destruct Hx as [Hx F]. destruct (C x Hx) as [r [R1 R2]]. exists r. pose proof (proj2 (mem_false x l) F) as Fm.
    unfold TrailerVehicle in R1 |- *. rewrite Lv, Fm, En, Hi. rewrite (L x Hx) in R1 |- *. cbn [andb negb] in R1 |- *.
    specialize (Ht x). unfold at_hitch in Ht. destruct (e_vehicle (ents w x)); cbn [negb] in R1 |- *; [|split; [exact R1|]; intros t E; subst; discriminate].
    destruct (e_hitch (ents w x)) as [h|]; [|split; [exact R1|]; intros t E; subst; discriminate].
    destruct (hitches w h) as [t|] eqn:Eh; [|split; [exact R1|]; intros t E; subst; discriminate].
    specialize (Ht t Hx F eq_refl). pose proof (proj2 (mem_false t l) Ht) as Ftm. rewrite Lv, Ftm, andb_true_r. split; [exact R1|].
    intros t' E. subst r. apply Ls. split; [apply R2; reflexivity|]. destruct (negb (live w t)); [discriminate|]. destruct (negb (e_vehicle (ents w t))); [discriminate|].
    destruct (e_coupler (ents w t)); [|discriminate]. injection R1 as <-. exact Ht.
Qed.

(** ** Trailers *)

Lemma set_coupler_trailer w c v o : TrailerVehicle (set_coupler w c v) o = TrailerVehicle w o.
Proof. reflexivity. Qed.

Lemma trailer_set_hitch w h v o : TrailerVehicle (set_hitch w h v) o =
  if live w o && e_vehicle (ents w o) && match e_hitch (ents w o) with Some h' => (h' =? h)%N | None => false end
  then match v with None => Ok None | Some t => if negb (live w t) then Bad else if negb (e_vehicle (ents w t)) then Ok None else match e_coupler (ents w t) with None => Ok None | Some _ => Ok (Some t) end end
  else TrailerVehicle w o.
Proof.
  unfold TrailerVehicle. cbn. destruct (live w o); [|reflexivity]. destruct (e_vehicle (ents w o)); [|reflexivity]. cbn. destruct (e_hitch (ents w o)) as [h'|]; [|reflexivity].
  unfold upd. destruct (N.eqb_spec h' h) as [->|]; reflexivity.
Qed.

Lemma inv_set_links w h v c u : inv w -> match v with Some t => live w t = true /\ listed w t | None => True end -> inv (set_hitch (set_coupler w c u) h v).
Proof.
  intros [H C] Hv. split; [exact H|]. intros x Hx. change (listed w x) in Hx. rewrite trailer_set_hitch. rewrite set_coupler_trailer.
  change (live (set_coupler w c u)) with (live w). change (ents (set_coupler w c u)) with (ents w).
  destruct (_ && _ && _); [|exact (C x Hx)]. destruct v as [t|]; [|exists None; split; [reflexivity|discriminate]].
  destruct Hv as [L Lt]. rewrite L. cbn [negb]. destruct (negb (e_vehicle (ents w t))); [exists None; split; [reflexivity|discriminate]|].
  destruct (e_coupler (ents w t)); [|exists None; split; [reflexivity|discriminate]]. exists (Some t). split; [reflexivity|]. intros t' E. injection E as <-. exact Lt.
Qed.

Lemma inv_set_coupler w c u : inv w -> inv (set_coupler w c u).
Proof. intros [H C]. split; [exact H|exact C]. Qed.

Definition only_links (w w' : world) : Prop :=
  ents w' = ents w /\ live w' = live w /\ object_ w' = object_ w /\ object_pool_ w' = object_pool_ w /\ nextId_ w' = nextId_ w /\ next_obj w' = next_obj w.

Lemma disconnect_spec w o : inv w -> listed w o -> forall t, TrailerVehicle w o = Ok (Some t) ->
  exists w', DisconnectTrailer w o = Ok w' /\ inv w' /\ only_links w w' /\ TrailerVehicle w' o = Ok None /\ TowVehicle w' t = Ok None.
Proof.
  intros H Ho t E. pose proof (trailer_some w o t E) as [Lo [Lt [Vo [Vt [[h [Eh Hh]] [c Ec]]]]]]. unfold DisconnectTrailer. rewrite Lo, Eh, Hh, Lt, Ec. cbn [negb].
  exists (set_hitch (set_coupler w c None) h None). split; [reflexivity|]. split; [apply inv_set_links; [exact H|exact I]|]. split; [repeat split|]. split.
  - rewrite trailer_set_hitch. cbn. rewrite Lo, Vo, Eh, N.eqb_refl. reflexivity.
  - unfold TowVehicle. cbn. rewrite Lt, Vt, Ec. cbn. unfold upd. rewrite N.eqb_refl. reflexivity.
Qed.

Lemma connect_spec w o t h c : inv w -> listed w o -> listed w t -> e_vehicle (ents w o) = true -> e_vehicle (ents w t) = true ->
  e_hitch (ents w o) = Some h -> e_coupler (ents w t) = Some c ->
  exists w', ConnectTrailerAction_Start w o (Some t) = Ok w' /\ inv w' /\ only_links w w' /\ TrailerVehicle w' o = Ok (Some t) /\
  (TrailerVehicle w o <> Ok (Some t) -> TowVehicle w' t = Ok (Some o)).
Proof.
  intros H Ho Ht Vo Vt Eh Ec. pose proof H as [[_ [L _]] C]. pose proof (L o Ho) as Lo. pose proof (L t Ht) as Lt.
  remember (TrailerVehicle w o <> Ok (Some t)) as NT eqn:HNT.
  assert (Conn : forall w1, inv w1 -> only_links w w1 -> exists w', bind (ConnectTrailer w1 o (Some t)) (fun x => Ok (fst x)) = Ok w' /\ inv w' /\ only_links w w' /\
            TrailerVehicle w' o = Ok (Some t) /\ (NT -> TowVehicle w' t = Ok (Some o))).
  { intros w1 H1 [E1 [E2 [E3 [E4 [E5 E6]]]]]. unfold ConnectTrailer. rewrite E2, Lo, Lt. cbn [negb orb]. rewrite E1, Ec. cbn [e_hitch set_coupler ents]. rewrite E1, Eh.
    exists (set_hitch (set_coupler w1 c (Some o)) h (Some t)). cbn [bind fst]. split; [reflexivity|].
    split; [apply inv_set_links; [exact H1|]; split; [rewrite E2; exact Lt|unfold listed; rewrite E3, E4; exact Ht]|].
    split; [split; [exact E1|]; split; [exact E2|]; repeat split; assumption|]. split.
    - rewrite trailer_set_hitch. cbn. rewrite E1, E2, Lo, Vo, Eh, N.eqb_refl, Lt, Vt, Ec. reflexivity.
    - intros _. unfold TowVehicle. cbn. rewrite E1, E2, Lt, Vt, Ec. cbn. unfold upd. rewrite N.eqb_refl, Lo, Vo. cbn. rewrite Eh. reflexivity. }
  unfold ConnectTrailerAction_Start. destruct (C o Ho) as [r [R1 R2]]. rewrite R1. cbn [bind]. destruct r as [t'|].
  - destruct (N.eqb_spec t' t) as [->|Hne].
    + cbn [bind]. rewrite R1. cbn [bind opt_eqb]. rewrite N.eqb_refl. exists w. split; [reflexivity|]. split; [exact H|]. split; [repeat split|]. split; [exact R1|]. rewrite HNT; intro F; congruence.
    + destruct (disconnect_spec w o H Ho t' R1) as [w1 [D1 [D2 [D3 [D4 D5]]]]]. rewrite D1. cbn [bind]. rewrite D4. cbn [bind opt_eqb].
      pose proof D3 as [E1 [E2 _]]. rewrite E1, E2, Lt, Vt, Vo. cbn [negb orb]. apply Conn; assumption.
  - cbn [bind]. rewrite R1. cbn [bind opt_eqb]. rewrite Lt, Vt, Vo. cbn [negb orb]. apply Conn; [exact H|repeat split].
Qed.

(** ** Searching *)

Lemma search_spec w p l : (forall o, In o l -> live w o = true) ->
  (exists o l1 l2, search w p l = Ok (Some o) /\ l = l1 ++ o :: l2 /\ p (ents w o) = true /\ Forall (fun x => p (ents w x) = false) l1) \/
  (search w p l = Ok None /\ Forall (fun x => p (ents w x) = false) l).
Proof.
  induction l as [|a l IH]; intro H; cbn [search].
  - right. split; [reflexivity|constructor].
  - rewrite (H a (or_introl eq_refl)). cbn [negb]. destruct (p (ents w a)) eqn:E.
    + left. exists a, [], l. repeat split; [exact E|constructor].
    + destruct IH as [[o [l1 [l2 [S1 [S2 [S3 S4]]]]]]|[S1 S2]]; [intros o Ho; apply H; right; exact Ho| |].
      * left. exists o, (a :: l1), l2. split; [exact S1|]. split; [cbn; congruence|]. split; [exact S3|constructor; assumption].
      * right. split; [exact S1|constructor; assumption].
Qed.

Lemma search_idx_spec w p l : forall i, (forall o, In o l -> live w o = true) ->
  (exists o l1 l2, search_idx w p i l = Ok (i + Z.of_nat (List.length l1)) /\ l = l1 ++ o :: l2 /\ p (ents w o) = true /\ Forall (fun x => p (ents w x) = false) l1) \/
  (search_idx w p i l = Ok (-1) /\ Forall (fun x => p (ents w x) = false) l).
Proof.
  induction l as [|a l IH]; intros i H; cbn [search_idx].
  - right. split; [reflexivity|constructor].
  - rewrite (H a (or_introl eq_refl)). cbn [negb]. destruct (p (ents w a)) eqn:E.
    + left. exists a, [], l. repeat split; [f_equal; cbn; lia|exact E|constructor].
    + destruct (IH (i + 1)) as [[o [l1 [l2 [S1 [S2 [S3 S4]]]]]]|[S1 S2]]; [intros o Ho; apply H; right; exact Ho| |].
      * left. exists o, (a :: l1), l2. split; [rewrite S1; f_equal; cbn [List.length]; lia|]. split; [cbn; congruence|]. split; [exact S3|constructor; assumption].
      * right. split; [exact S1|constructor; assumption].
Qed.

Lemma get_by_spec w p : inv0 w ->
  match GetObjectBy w p with
  | Ok (Some o) => listed w o /\ p (ents w o) = true
  | Ok None => forall o, listed w o -> p (ents w o) = false
  | _ => False
  end.
Proof.
  intros [_ [L _]]. unfold GetObjectBy.
  destruct (search_spec w p (object_ w) (fun o H => L o (or_introl H))) as [[o [l1 [l2 [S1 [S2 [S3 _]]]]]]|[S1 S2]]; rewrite S1; cbn [bind].
  - split; [left; rewrite S2; apply in_or_app; right; left; reflexivity|exact S3].
  - destruct (search_spec w p (object_pool_ w) (fun o H => L o (or_intror H))) as [[o [l1 [l2 [T1 [T2 [T3 _]]]]]]|[T1 T2]]; rewrite T1.
    + split; [right; rewrite T2; apply in_or_app; right; left; reflexivity|exact T3].
    + rewrite Forall_forall in S2, T2. intros o [H|H]; auto.
Qed.

(** ** Histories *)

Inductive op :=
| OpNew (name : string) (vehicle : bool) (with_hitch with_coupler : bool)
| OpAdd (o : N) (activate : bool)
| OpActivate (o : N)
| OpDeactivate (o : N)
| OpConnect (o t : N)
| OpDisconnect (o : N)
| OpRemove (o : N) (recursive : bool).

(** A new object, its id is 0 (SE/Entities.cpp:22-24), with a hitch and a coupler of its own. *)
Definition new_object (w : world) (name : string) (vehicle with_hitch with_coupler : bool) : world :=
  let k := next_obj w in
  let h := next_handle w in
  W (upd (ents w) k (Ent 0 name vehicle (if with_hitch then Some h else None) (if with_coupler then Some h else None) false)) (upd (live w) k true)
    (if with_hitch then upd (hitches w) h None else hitches w) (if with_coupler then upd (couplers w) h None else couplers w)
    (object_ w) (object_pool_ w) (nextId_ w) (k + 1)%N (h + 1)%N.

Section Run.
Variable stack : nat.

Definition run1 (w : world) (x : op) : res world :=
  match x with
  | OpNew s v h c => Ok (new_object w s v h c)
  | OpAdd o a => bind (addObject max_trailers w o a) (fun r => Ok (fst r))
  | OpActivate o => bind (activateObject max_trailers w o) (fun r => Ok (fst r))
  | OpDeactivate o => bind (deactivateObject max_trailers w o) (fun r => Ok (fst r))
  | OpConnect o t => ConnectTrailerAction_Start w o (Some t)
  | OpDisconnect o => DisconnectTrailerAction_Start w o
  | OpRemove o r => removeObject stack w o r
  end.

(** What the caller has to see to. *)
Definition allowed (w : world) (x : op) : Prop :=
  match x with
  | OpNew _ _ _ _ => True
  | OpAdd o a => exists l, chain w o l /\ NoDup l /\ (List.length l <= max_trailers)%nat /\ forall x, In x l -> ~ listed w x
  | OpActivate o | OpDeactivate o => listed w o /\ exists l, chain w o l /\ (List.length l <= max_trailers)%nat
  | OpConnect o t => listed w o /\ listed w t /\ e_vehicle (ents w o) = true /\ e_vehicle (ents w t) = true /\
      (exists h, e_hitch (ents w o) = Some h) /\ exists c, e_coupler (ents w t) = Some c
  | OpDisconnect o => listed w o
  | OpRemove o r => exists l, (if r then towed w o l else l = [o]) /\ NoDup l /\ (List.length l <= stack)%nat /\
      (forall x, In x l -> In x (object_ w)) /\ forall x t, listed w x -> ~ In x l -> at_hitch w x = Some t -> ~ In t l
  end.

Lemma new_inv w s v h c : inv w -> inv (new_object w s v h c).
Proof.
  intros [[D [L [A [P [I [M Fr]]]]]] C].
  assert (K : forall x, listed w x -> x <> next_obj w) by (intros x Hx ->; pose proof (Fr _ (L _ Hx)); lia).
  assert (E : forall x, x <> next_obj w -> ents (new_object w s v h c) x = ents w x /\ live (new_object w s v h c) x = live w x).
  { intros x Hx. cbn. unfold upd. apply N.eqb_neq in Hx. rewrite Hx. auto. }
  split; [split; [exact D|]; split; [|split; [|split; [|split; [|split]]]]|].
  - intros x Hx. rewrite (proj2 (E x (K x Hx))). apply L. exact Hx.
  - intros x Hx. rewrite (proj1 (E x (K x (or_introl Hx)))). apply A. exact Hx.
  - intros x Hx. rewrite (proj1 (E x (K x (or_intror Hx)))). apply P. exact Hx.
  - intros x y Hx Hy. rewrite (proj1 (E x (K x Hx))), (proj1 (E y (K y Hy))). apply I; assumption.
  - intros x Hx. rewrite (proj1 (E x (K x Hx))). apply M. exact Hx.
  - intros x Hx. cbn in *. unfold upd in Hx. destruct (N.eq_dec x (next_obj w)) as [Ex|Ex]; [lia|]. apply N.eqb_neq in Ex. rewrite Ex in Hx. pose proof (Fr x Hx). lia.
  - intros x Hx. change (listed w x) in Hx. destruct (C x Hx) as [r [R1 R2]]. destruct (E x (K x Hx)) as [E1 E2].
    unfold TrailerVehicle in *. rewrite E1, E2. rewrite (L x Hx) in *. cbn [negb] in *.
    destruct (e_vehicle (ents w x)); cbn [negb] in *; [|exists r; auto]. destruct (e_hitch (ents w x)) as [h'|]; [|exists r; auto].
    assert (Hh : hitches (new_object w s v h c) h' = hitches w h' \/ hitches (new_object w s v h c) h' = None).
    { cbn. destruct h; [|auto]. unfold upd. destruct (h' =? next_handle w)%N; auto. }
    destruct Hh as [->| ->]; [|exists None; split; [reflexivity|discriminate]].
    destruct (hitches w h') as [t|]; [|exists r; auto]. destruct (live w t) eqn:Lt; [|discriminate]. cbn [negb] in *.
    assert (Kt : t <> next_obj w) by (intros ->; pose proof (Fr _ Lt); lia). destruct (E t Kt) as [E3 E4]. rewrite E3, E4, Lt. cbn [negb]. exists r. auto.
Qed.

Lemma run1_ok w x : inv w -> allowed w x -> exists w', run1 w x = Ok w' /\ inv w'.
Proof.
  intros H Al. destruct x as [s v h c|o a|o|o|o t|o|o r]; cbn [run1 allowed] in *.
  - eexists. split; [reflexivity|]. apply new_inv. exact H.
  - destruct Al as [l [C [D [Hl Hn]]]]. pose proof H as [H0 Cl].
    destruct (add_chain max_trailers a w o l H0 C D Hl Hn) as [w' [R [I' [S' [A' [B' _]]]]]]. exists w'. rewrite R. split; [reflexivity|]. split; [exact I'|].
    assert (Ls : forall x, listed w' x <-> listed w x \/ In x l) by (intro x; unfold listed; rewrite A', B'; destruct a; rewrite in_app_iff; tauto).
    intros x Hx. apply Ls in Hx. rewrite (trailer_same w w' x S'). destruct Hx as [Hx|Hx].
    + destruct (Cl x Hx) as [r [R1 R2]]. exists r. split; [exact R1|]. intros t E. apply Ls. left. apply R2. exact E.
    + destruct (chain_closed w o l C x Hx) as [r [R1 R2]]. exists r. split; [exact R1|]. intros t E. apply Ls. right. apply R2. exact E.
  - destruct Al as [Ho [l [C Hl]]]. destruct (activate_spec max_trailers w o H Ho) as [Q|[w' [R [[I' _] _]]]].
    + exfalso. exact (activate_not_quit _ _ _ _ H Ho C Hl Q).
    + exists w'. rewrite R. auto.
  - destruct Al as [Ho [l [C Hl]]]. destruct (deactivate_spec max_trailers w o H Ho) as [Q|[w' [R [[I' _] _]]]].
    + exfalso. exact (deactivate_not_quit _ _ _ _ H Ho C Hl Q).
    + exists w'. rewrite R. auto.
  - destruct Al as [Ho [Ht [Vo [Vt [[h Eh] [c Ec]]]]]]. destruct (connect_spec w o t h c H Ho Ht Vo Vt Eh Ec) as [w' [R [I' _]]]. exists w'. auto.
  - unfold DisconnectTrailerAction_Start. pose proof H as [_ C]. destruct (C o Al) as [r [R1 R2]]. rewrite R1. cbn [bind]. destruct r as [t|]; [|exists w; auto].
    destruct (disconnect_spec w o H Al t R1) as [w' [R [I' _]]]. exists w'. auto.
  - destruct Al as [l [T [D [Hl [Ha Ht]]]]]. destruct r.
    + destruct (removed_fields stack w o l T D Hl Ha) as [w' [R [Lv [Ob [Po [En [Hi [Co [Nx No]]]]]]]]]. exists w'. split; [exact R|].
      eapply (removed_inv w w' l); eassumption.
    + subst l. pose proof H as [[_ [L _]] _]. destruct (removed_single w o stack ltac:(cbn in Hl; lia) (L o (or_introl (Ha o (or_introl eq_refl))))) as [w' [R [Lv [Ob [Po [En [Hi [Co [Nx No]]]]]]]]].
      exists w'. split; [exact R|]. eapply (removed_inv w w' [o]); eassumption.
Qed.

(** A run of allowed operations. *)
Inductive runs : world -> list op -> world -> Prop :=
| runs_nil w : runs w [] w
| runs_cons w x l w1 w2 : allowed w x -> run1 w x = Ok w1 -> runs w1 l w2 -> runs w (x :: l) w2.

Lemma runs_inv w l w' : runs w l w' -> inv w -> inv w'.
Proof.
  intro R. induction R as [w|w x l w1 w2 A E R IH]; [auto|]. intro H. apply IH. destruct (run1_ok w x H A) as [w' [E' I']]. congruence.
Qed.
End Run.

Definition empty_world : world := W (fun _ => Ent 0 "" false None None false) (fun _ => false) (fun _ => None) (fun _ => None) [] [] 0 0 0.

Lemma empty_inv : inv empty_world.
Proof.
  split; [split; [constructor|]|intros o [[]|[]]]. split; [intros o [[]|[]]|]. split; [intros o []|]. split; [intros o []|]. split; [intros o o' [[]|[]]|].
  split; [intros o [[]|[]]|]. discriminate.
Qed.

(** ** More trailers than allowed *)

Lemma add_next n a w o t l : inv0 w -> TrailerVehicle w o = Ok (Some t) -> t <> o -> NoDup (o :: l) -> In t l -> (forall x, In x (o :: l) -> ~ listed w x) ->
  exists w2, addObject (S n) w o a = bind (addObject n w2 t a) (fun x => Ok (fst x, nextId_ w)) /\ inv0 w2 /\ same_links w w2 /\ forall x, In x l -> ~ listed w2 x.
Proof.
  intros H E Hne D Ht Hn. pose proof (trailer_live _ _ _ E) as Lo. pose proof (Hn o (or_introl eq_refl)) as No. inversion D as [|? ? D1 D2]; subst.
  pose proof (entered_inv w o a H Lo No) as I1. pose proof (entered_links w o a) as S1. pose proof (trailer_same _ _ o S1) as Et.
  cbn [addObject]. rewrite Lo. cbn [negb]. change (W _ _ _ _ _ _ _ _ _) with (entered w o a). rewrite Et, E. cbn [bind]. rewrite (proj2 (N.eqb_neq t o) Hne).
  set (w2 := if (e_name (ents (entered w o a) t) =? "")%string then set_name (entered w o a) t (e_name (ents (entered w o a) o) ++ "+")%string else entered w o a).
  assert (Nl : forall x, In x l -> ~ listed w2 x).
  { intros x Hx F. assert (F2 : listed (entered w o a) x) by (unfold w2 in F; destruct (_ =? _)%string; exact F).
    apply entered_listed in F2. destruct F2 as [F2| ->]; [|contradiction]. exact (Hn x (or_intror Hx) F2). }
  exists w2. assert (M1 : mem t (object_ w2) = false) by (apply mem_false; intro F; apply (Nl t Ht); left; exact F).
  assert (M2 : mem t (object_pool_ w2) = false) by (apply mem_false; intro F; apply (Nl t Ht); right; exact F).
  rewrite M1, M2. cbn [andb negb]. split; [reflexivity|]. split; [unfold w2; destruct (_ =? _)%string; [apply set_name_inv|]; exact I1|]. split; [|exact Nl].
  unfold w2. destruct (_ =? _)%string; [eapply links_trans; [exact S1|apply set_name_links]|exact S1].
Qed.

Lemma add_too_long n a : forall w o l, inv0 w -> chain w o l -> NoDup l -> (n < List.length l)%nat -> (forall x, In x l -> ~ listed w x) -> addObject n w o a = Quit.
Proof.
  induction n as [|n IH]; intros w o l H C D Hl Hn; [reflexivity|]. destruct C as [o E|o E|o t l E Hne C]; [cbn in Hl; lia|cbn in Hl; lia|].
  assert (Ht : In t l) by (destruct (chain_head _ _ _ C) as [r' [-> _]]; left; reflexivity).
  destruct (add_next n a w o t l H E Hne D Ht Hn) as [w2 [-> [I2 [S2 Nl]]]]. inversion D; subst.
  rewrite (IH w2 t l I2 (chain_same _ _ _ _ S2 C) ltac:(assumption) ltac:(cbn in Hl; lia) Nl). reflexivity.
Qed.

(** ** Copies *)

(** Objects and handles are below the next ones. *)
Definition fresh (w : world) : Prop :=
  (forall x, live w x = true -> (x < next_obj w)%N) /\ (forall h t, hitches w h = Some t -> (t < next_obj w)%N) /\
  (forall x h, live w x = true -> e_hitch (ents w x) = Some h -> (h < next_handle w)%N) /\
  (forall x c, live w x = true -> e_coupler (ents w x) = Some c -> (c < next_handle w)%N).
(** What is at a hitch is a vehicle that knows it has a tow. *)
Definition linked (w : world) : Prop := forall x h t, live w x = true -> e_hitch (ents w x) = Some h -> hitches w h = Some t ->
  live w t = true /\ e_vehicle (ents w x) = true /\ e_vehicle (ents w t) = true /\ exists c, e_coupler (ents w t) = Some c /\ couplers w c <> None.
Fixpoint nseq (k : N) (n : nat) : list N := match n with O => [] | S n => k :: nseq (k + 1)%N n end.

(** Nothing that existed before differs. *)
Definition untouched (w w' : world) : Prop :=
  (forall x, (x < next_obj w)%N -> ents w' x = ents w x /\ live w' x = live w x) /\
  (forall h, (h < next_handle w)%N -> hitches w' h = hitches w h /\ couplers w' h = couplers w h) /\
  object_ w' = object_ w /\ object_pool_ w' = object_pool_ w /\ nextId_ w' = nextId_ w /\ (next_obj w <= next_obj w')%N /\ (next_handle w <= next_handle w')%N.

Lemma untouched_trans a b c : untouched a b -> untouched b c -> untouched a c.
Proof.
  intros [A1 [A2 [A3 [A4 [A5 [A6 A7]]]]]] [B1 [B2 [B3 [B4 [B5 [B6 B7]]]]]]. split; [|split; [|repeat split; try congruence; lia]].
  - intros x Hx. destruct (A1 x Hx) as [<- <-]. apply B1. lia.
  - intros h Hh. destruct (A2 h Hh) as [<- <-]. apply B2. lia.
Qed.

Lemma towed_head w o l : towed w o l -> exists r, l = o :: r /\ live w o = true.
Proof. intro T. destruct T; eauto. Qed.

Lemma towed_untouched w w' o l : fresh w -> untouched w w' -> towed w o l -> towed w' o l.
Proof.
  intros [F1 [F2 [F3 F4]]] [A1 [A2 _]] T.
  assert (K : forall x, live w x = true -> live w' x = true /\ at_hitch w' x = at_hitch w x).
  { intros x L. destruct (A1 x (F1 x L)) as [E1 E2]. split; [congruence|]. unfold at_hitch. rewrite E1. destruct (e_vehicle (ents w x)); [|reflexivity].
    destruct (e_hitch (ents w x)) as [h|] eqn:E; [|reflexivity]. apply A2. exact (F3 x h L E). }
  induction T as [o L E|o t l L E T IH]; destruct (K o L) as [K1 K2].
  - apply towed_end; congruence.
  - eapply towed_next; [exact K1|rewrite K2; exact E|exact IH].
Qed.

Lemma towed_live w o l : towed w o l -> forall x, In x l -> live w x = true.
Proof. intro T. induction T as [o L E|o t l L E T IH]; intros x Hx; [destruct Hx as [<-|[]]; exact L|]. destruct Hx as [<-|Hx]; [exact L|auto]. Qed.

Lemma towed_ext w w' o l : (forall x, In x l -> live w' x = live w x /\ at_hitch w' x = at_hitch w x) -> towed w o l -> towed w' o l.
Proof.
  intros H T. induction T as [o L E|o t l L E T IH]; destruct (H o (or_introl eq_refl)) as [K1 K2].
  - apply towed_end; congruence.
  - eapply towed_next; [rewrite K1; exact L|rewrite K2; exact E|]. apply IH. intros x Hx. apply H. right. exact Hx.
Qed.

(** The copy before its trailers are copied. *)
Definition copied_coupler (w : world) (e : ent) : bool := match e_coupler e with Some c => match couplers w c with Some _ => true | None => false end | None => false end.
Definition base (w : world) (v : N) : world :=
  let k := next_obj w in
  let e := ents w v in
  if copied_coupler w e
  then W (upd (upd (ents w) k e) k (Ent (e_id e) (e_name e) (e_vehicle e) (e_hitch e) (Some (next_handle w)) (e_active e))) (upd (live w) k true) (hitches w)
         (upd (couplers w) (next_handle w) None) (object_ w) (object_pool_ w) (nextId_ w) (k + 1)%N (next_handle w + 1)%N
  else W (upd (ents w) k e) (upd (live w) k true) (hitches w) (couplers w) (object_ w) (object_pool_ w) (nextId_ w) (k + 1)%N (next_handle w).
Definition based (w : world) (v : N) (t : N) : world :=
  let w := base w v in
  let k := (next_obj w - 1)%N in
  let h' := next_handle w in
  let e' := ents w k in
  W (upd (ents w) k (Ent (e_id e') (e_name e') (e_vehicle e') (Some h') (e_coupler e') (e_active e'))) (live w) (upd (hitches w) h' (Some t))
    (couplers w) (object_ w) (object_pool_ w) (nextId_ w) (next_obj w) (h' + 1)%N.

Lemma copy_unfold n w v : live w v = true -> copyVehicle (S n) w v =
  match e_hitch (ents w v) with
  | Some h => match hitches w h with
              | Some t => bind (copyVehicle n (based w v t) t) (fun x => bind (ConnectTrailer (fst x) (next_obj w) (Some (snd x))) (fun y => Ok (fst y, next_obj w)))
              | None => Ok (base w v, next_obj w)
              end
  | None => Ok (base w v, next_obj w)
  end.
Proof.
  intro L. cbn [copyVehicle]. rewrite L. cbn [negb]. unfold based, base, copied_coupler.
  assert (Ek : (next_obj w + 1 - 1 = next_obj w)%N) by lia.
  destruct (e_coupler (ents w v)) as [c|]; cbn [couplers]; [destruct (couplers w c)|]; cbn [hitches next_handle next_obj ents live object_ object_pool_ nextId_ couplers];
    rewrite ?Ek; reflexivity.
Qed.

Lemma base_next w v : next_obj (base w v) = (next_obj w + 1)%N /\ (next_handle w <= next_handle (base w v))%N /\ hitches (base w v) = hitches w.
Proof. unfold base. destruct (copied_coupler w (ents w v)); cbn; repeat split; lia. Qed.

Lemma base_k w v : live (base w v) (next_obj w) = true /\
  exists c, ents (base w v) (next_obj w) = Ent (e_id (ents w v)) (e_name (ents w v)) (e_vehicle (ents w v)) (e_hitch (ents w v)) c (e_active (ents w v)) /\
  (copied_coupler w (ents w v) = true -> c = Some (next_handle w) /\ couplers (base w v) (next_handle w) = None /\ (next_handle w < next_handle (base w v))%N) /\
  (copied_coupler w (ents w v) = false -> c = e_coupler (ents w v)).
Proof.
  unfold base. destruct (copied_coupler w (ents w v)); cbn; unfold upd; rewrite !N.eqb_refl; (split; [reflexivity|]).
  - exists (Some (next_handle w)). split; [reflexivity|]. split; [|discriminate]. intros _. split; [reflexivity|]. split; [reflexivity|lia].
  - exists (e_coupler (ents w v)). split; [destruct (ents w v); reflexivity|]. split; [discriminate|reflexivity].
Qed.

Lemma base_untouched w v : untouched w (base w v).
Proof.
  unfold base. destruct (copied_coupler w (ents w v)); (split; [|split; [|repeat split; cbn; lia]]); intros x Hx; cbn; unfold upd;
    destruct (N.eqb_spec x (next_obj w)); destruct (N.eqb_spec x (next_handle w)); try lia; split; reflexivity.
Qed.

Lemma base_old w v x : fresh w -> live (base w v) x = true -> x = next_obj w \/ (live w x = true /\ ents (base w v) x = ents w x).
Proof.
  intros F L. destruct (N.eq_dec x (next_obj w)) as [|Hne]; [left; assumption|right]. apply N.eqb_neq in Hne.
  unfold base in *. destruct (copied_coupler w (ents w v)); cbn in *; unfold upd in *; rewrite Hne in *; auto.
Qed.

Lemma based_facts w v h t : fresh w -> linked w -> live w v = true -> e_hitch (ents w v) = Some h -> hitches w h = Some t ->
  let w1 := based w v t in
  fresh w1 /\ linked w1 /\ untouched w w1 /\ next_obj w1 = (next_obj w + 1)%N /\ live w1 (next_obj w) = true /\
  e_name (ents w1 (next_obj w)) = e_name (ents w v) /\ e_vehicle (ents w1 (next_obj w)) = true /\
  (exists h', e_hitch (ents w1 (next_obj w)) = Some h' /\ (next_handle w <= h' < next_handle w1)%N) /\
  (forall c, e_coupler (ents w v) = Some c -> couplers w c <> None ->
     exists c', e_coupler (ents w1 (next_obj w)) = Some c' /\ (next_handle w <= c' < next_handle w1)%N /\ couplers w1 c' = None).
Proof.
  intros Fr Li Lv Eh Hh. cbv zeta. destruct (base_next w v) as [B1 [B2 B3]]. destruct (base_k w v) as [K1 [c [K2 [K3 K4]]]].
  pose proof (base_untouched w v) as U. pose proof (base_old w v) as Old.
  destruct (Li v h t Lv Eh Hh) as [Lt [Vv [Vt [ct [Ect Cct]]]]].
  assert (Ek : (next_obj (base w v) - 1 = next_obj w)%N) by lia.
  unfold based. rewrite Ek, K2. cbn [e_id e_name e_vehicle e_hitch e_coupler e_active]. set (b := base w v) in *. clearbody b.
  pose proof Fr as [F1 [F2 [F3 F4]]]. pose proof U as [U1 [U2 [U3 [U4 [U5 [U6 U7]]]]]].
  set (w1 := W _ _ _ _ _ _ _ _ _).
  assert (Pk : ents w1 (next_obj w) = Ent (e_id (ents w v)) (e_name (ents w v)) (e_vehicle (ents w v)) (Some (next_handle b)) c (e_active (ents w v))).
  { cbn. unfold upd. rewrite N.eqb_refl. reflexivity. }
  assert (Po : forall x, x <> next_obj w -> ents w1 x = ents b x) by (intros x Hx; cbn; unfold upd; apply N.eqb_neq in Hx; rewrite Hx; reflexivity).
  assert (Ot : forall x, live w1 x = true -> x = next_obj w \/ (x <> next_obj w /\ live w x = true /\ ents w1 x = ents w x)).
  { intros x L. destruct (N.eq_dec x (next_obj w)) as [|Hne]; [left; assumption|right]. destruct (Old x Fr L) as [|[O1 O2]]; [contradiction|]. rewrite (Po x Hne). auto. }
  assert (Hc : forall c', c = Some c' -> (c' < next_handle b)%N).
  { intros c' E. subst c. destruct (copied_coupler w (ents w v)) eqn:Q.
    - destruct (K3 eq_refl) as [E1 [_ E2]]. injection E1 as ->. exact E2.
    - specialize (K4 eq_refl). pose proof (F4 v c' Lv (eq_sym K4)). lia. }
  split; [|split; [|split; [|split; [|split; [|split; [|split; [|split]]]]]]].
  - split; [|split; [|split]].
    + intros x L. cbn [next_obj w1]. rewrite B1. destruct (Ot x L) as [->|[_ [O _]]]; [lia|]. pose proof (F1 x O). lia.
    + intros h0 t0. cbn. unfold upd. rewrite B1, B3. destruct (h0 =? next_handle b)%N; intro E; [injection E as <-; pose proof (F1 t Lt); lia|]. pose proof (F2 _ _ E). lia.
    + intros x h0 L. destruct (Ot x L) as [->|[_ [O Eq]]].
      * rewrite Pk. cbn. intro E. injection E as <-. lia.
      * rewrite Eq. intro E. cbn. pose proof (F3 x h0 O E). lia.
    + intros x c0 L. destruct (Ot x L) as [->|[_ [O Eq]]].
      * rewrite Pk. cbn. intro E. pose proof (Hc c0 E). lia.
      * rewrite Eq. intro E. cbn. pose proof (F4 x c0 O E). lia.
  - intros x h0 t0 L. assert (Tl : forall t1, live w t1 = true -> live w1 t1 = true /\ ents w1 t1 = ents w t1).
    { intros t1 L1. pose proof (F1 t1 L1). destruct (U1 t1 H) as [Y1 Y2]. rewrite (Po t1) by lia. cbn. split; congruence. }
    assert (Tc : forall c1, (c1 < next_handle w)%N -> couplers w1 c1 = couplers w c1) by (intros c1 H1; cbn; apply (U2 c1 H1)).
    destruct (Ot x L) as [->|[Hx [O Eq]]].
    + rewrite Pk. cbn [e_hitch e_vehicle]. intro E. injection E as <-. cbn [hitches w1]. unfold upd. rewrite N.eqb_refl. intro E. injection E as <-.
      destruct (Tl t Lt) as [T1 T2]. rewrite T2. split; [exact T1|]. split; [exact Vv|]. split; [exact Vt|]. exists ct. split; [exact Ect|].
      rewrite Tc by (exact (F4 t ct Lt Ect)). exact Cct.
    + rewrite Eq. intros E1 E2. pose proof (F3 x h0 O E1) as Hh0.
      assert (E3 : hitches w h0 = Some t0). { cbn in E2. unfold upd in E2. rewrite (proj2 (N.eqb_neq h0 (next_handle b))) in E2 by lia. rewrite B3 in E2. exact E2. }
      destruct (Li x h0 t0 O E1 E3) as [L0 [V0 [V1 [c0 [C0 C1]]]]]. destruct (Tl t0 L0) as [T1 T2]. rewrite T2. split; [exact T1|]. split; [exact V0|]. split; [exact V1|].
      exists c0. split; [exact C0|]. rewrite Tc by (exact (F4 t0 c0 L0 C0)). exact C1.
  - split; [|split; [|repeat split; cbn; try assumption; lia]].
    + intros x Hx. rewrite (Po x) by lia. exact (U1 x Hx).
    + intros h0 Hh0. cbn. unfold upd. rewrite (proj2 (N.eqb_neq h0 (next_handle b))) by lia. exact (U2 h0 Hh0).
  - exact B1.
  - exact K1.
  - rewrite Pk. reflexivity.
  - rewrite Pk. exact Vv.
  - exists (next_handle b). rewrite Pk. split; [reflexivity|]. cbn. lia.
  - intros c0 Ec Cc. rewrite Pk. cbn [e_coupler]. assert (Q : copied_coupler w (ents w v) = true).
    { unfold copied_coupler. rewrite Ec. destruct (couplers w c0); [reflexivity|congruence]. }
    destruct (K3 Q) as [-> [K5 K6]]. exists (next_handle w). split; [reflexivity|]. split; [cbn; lia|exact K5].
Qed.

Lemma copy_chain n : forall w v l, fresh w -> linked w -> towed w v l -> (List.length l <= n)%nat ->
  let k := next_obj w in
  exists w', copyVehicle n w v = Ok (w', k) /\ untouched w w' /\ next_obj w' = (k + N.of_nat (List.length l))%N /\ towed w' k (nseq k (List.length l)) /\
  map (fun x => e_name (ents w' x)) (nseq k (List.length l)) = map (fun x => e_name (ents w x)) l /\
  e_vehicle (ents w' k) = e_vehicle (ents w v) /\
  (forall c, e_coupler (ents w v) = Some c -> couplers w c <> None ->
     exists c', e_coupler (ents w' k) = Some c' /\ (next_handle w <= c')%N /\ couplers w' c' = None) /\
  (forall x h, In x (nseq k (List.length l)) -> e_hitch (ents w' x) = Some h -> (next_handle w <= h)%N \/ exists y, In y l /\ e_hitch (ents w y) = Some h).
Proof.
  induction n as [|n IH]; intros w v l Fr Li T Hl; cbv zeta; [destruct T; cbn in Hl; lia|].
  destruct T as [v Lv E|v t l Lv E T].
  - (* nothing at the hitch *)
    assert (Q : copyVehicle (S n) w v = Ok (base w v, next_obj w)).
    { rewrite (copy_unfold n w v Lv). destruct (e_hitch (ents w v)) as [h|] eqn:Eh; [|reflexivity]. destruct (hitches w h) as [t|] eqn:Hh; [|reflexivity].
      destruct (Li v h t Lv Eh Hh) as [_ [Vv _]]. unfold at_hitch in E. rewrite Vv, Eh, Hh in E. discriminate. }
    exists (base w v). split; [exact Q|]. destruct (base_next w v) as [B1 [B2 B3]]. destruct (base_k w v) as [K1 [c [K2 [K3 K4]]]].
    split; [apply base_untouched|]. split; [rewrite B1; cbn; lia|]. cbn [nseq List.length map]. rewrite K2. cbn [e_name e_vehicle e_coupler]. split; [|split; [|split; [|split]]].
    + apply towed_end; [exact K1|]. unfold at_hitch in *. rewrite K2, B3. exact E.
    + reflexivity.
    + reflexivity.
    + intros c0 Ec Cc. assert (Q2 : copied_coupler w (ents w v) = true).
      { unfold copied_coupler. rewrite Ec. destruct (couplers w c0); [reflexivity|congruence]. }
      destruct (K3 Q2) as [-> [K5 K6]]. exists (next_handle w). split; [reflexivity|]. split; [lia|exact K5].
    + intros x h [<-|[]]. rewrite K2. cbn. intro Eh. right. exists v. split; [left; reflexivity|exact Eh].
  - unfold at_hitch in E. destruct (e_vehicle (ents w v)) eqn:Vv; [|discriminate]. destruct (e_hitch (ents w v)) as [h|] eqn:Eh; [|discriminate].
    rewrite (copy_unfold n w v Lv), Eh, E. destruct (Li v h t Lv Eh E) as [Lt [_ [Vt [ct [Ect Cct]]]]].
    destruct (based_facts w v h t Fr Li Lv Eh E) as [Fr1 [Li1 [U1 [N1 [L1 [Nm1 [V1 [[h' [Eh' Bh']] C1]]]]]]]]. set (w1 := based w v t) in *. clearbody w1.
    pose proof (towed_untouched w w1 t l Fr U1 T) as T1.
    destruct (IH w1 t l Fr1 Li1 T1 ltac:(cbn in Hl; lia)) as [w2 [R [U2 [N2 [T2 [Nm2 [V2 [C2 H2]]]]]]]]. clear IH. rewrite R. cbn [bind fst snd].
    pose proof Fr as [F1 [F2 [F3 F4]]]. pose proof U1 as [A1 [A2 _]]. pose proof U2 as [B1 [B2 [B3 [B4 [B5 [B6 B7]]]]]].
    pose proof (F1 t Lt) as Bt. destruct (A1 t Bt) as [At1 At2]. pose proof (F4 t ct Lt Ect) as Bct. destruct (A2 ct Bct) as [_ Act].
    destruct (C2 ct ltac:(rewrite At1; exact Ect) ltac:(rewrite Act; exact Cct)) as [c2 [Ec2 [Bc2 Nc2]]].
    assert (Lk : (next_obj w < next_obj w1)%N) by lia. destruct (B1 (next_obj w) Lk) as [Bk1 Bk2].
    destruct (towed_head _ _ _ T2) as [r2 [El2 Lk2]].
    assert (Conn : ConnectTrailer w2 (next_obj w) (Some (next_obj w1)) = Ok (set_hitch (set_coupler w2 c2 (Some (next_obj w))) h' (Some (next_obj w1)), 0)).
    { unfold ConnectTrailer. rewrite Lk2, Bk2, L1. cbn [negb orb]. rewrite Ec2. cbn [set_coupler ents]. rewrite Bk1, Eh'. reflexivity. }
    rewrite Conn. cbn [bind fst]. set (w3 := set_hitch _ _ _).
    assert (P1 : ents w3 = ents w2) by reflexivity. assert (P2 : live w3 = live w2) by reflexivity.
    assert (Mem : forall x h0, In x (nseq (next_obj w1) (List.length l)) -> e_hitch (ents w2 x) = Some h0 -> (next_handle w1 <= h0)%N \/ exists y, In y l /\ e_hitch (ents w y) = Some h0 /\ (h0 < next_handle w)%N).
    { intros x h0 Hx Ex. destruct (H2 x h0 Hx Ex) as [G|[y [Hy Ey]]]; [left; exact G|right]. pose proof (towed_live w t l T y Hy) as Ly. destruct (A1 y (F1 y Ly)) as [Ay _].
      rewrite Ay in Ey. exists y. split; [exact Hy|]. split; [exact Ey|exact (F3 y h0 Ly Ey)]. }
    exists w3. split; [reflexivity|]. split; [|split; [|split; [|split; [|split; [|split]]]]].
    + pose proof U1 as [_ [_ [A3 [A4 [A5 [A6 A7]]]]]]. split; [|split; [|cbn; repeat split; try congruence; lia]].
      * intros x Hx. rewrite P1, P2. destruct (A1 x Hx) as [<- <-]. apply B1. lia.
      * intros h0 Hh0. cbn. unfold upd. rewrite (proj2 (N.eqb_neq h0 h')), (proj2 (N.eqb_neq h0 c2)) by lia. destruct (A2 h0 Hh0) as [<- <-]. apply B2. lia.
    + cbn [next_obj w3 set_hitch set_coupler]. rewrite N2, N1. cbn [List.length]. lia.
    + cbn [nseq List.length]. apply towed_next with (next_obj w1).
      * rewrite P2, Bk2. exact L1.
      * unfold at_hitch. rewrite P1, Bk1, V1, Eh'. cbn. unfold upd. rewrite N.eqb_refl. reflexivity.
      * rewrite <- N1. apply (towed_ext w2 w3); [|exact T2]. intros x Hx. rewrite P2. split; [reflexivity|]. unfold at_hitch. rewrite P1.
        destruct (e_vehicle (ents w2 x)); [|reflexivity]. destruct (e_hitch (ents w2 x)) as [h0|] eqn:Ex; [|reflexivity]. cbn. unfold upd.
        rewrite (proj2 (N.eqb_neq h0 h')); [reflexivity|]. destruct (Mem x h0 Hx Ex) as [G|[y [_ [_ G]]]]; lia.
    + cbn [nseq List.length map]. rewrite P1, Bk1, Nm1. f_equal. rewrite <- N1, Nm2. apply map_ext_in. intros y Hy. destruct (A1 y (F1 y (towed_live w t l T y Hy))) as [-> _]. reflexivity.
    + rewrite P1, Bk1, V1. reflexivity.
    + intros c0 Ec Cc. destruct (C1 c0 Ec Cc) as [c' [Ec' [Bc' Nc']]]. exists c'. rewrite P1, Bk1. split; [exact Ec'|]. split; [lia|]. cbn. unfold upd.
      rewrite (proj2 (N.eqb_neq c' c2)) by lia. destruct (B2 c' ltac:(lia)) as [_ ->]. exact Nc'.
    + intros x h0 Hx Ex. cbn [nseq List.length] in Hx. rewrite P1 in Ex. destruct Hx as [<-|Hx].
      * rewrite Bk1, Eh' in Ex. injection Ex as <-. left. lia.
      * rewrite <- N1 in Hx. destruct (Mem x h0 Hx Ex) as [G|[y [Hy [Ey _]]]]; [left; lia|right]. exists y. split; [right; exact Hy|exact Ey].
Qed.

(** ** Adding an object whose trailer is in the lists already *)

Lemma add_hooked n a w o t l : inv w -> live w o = true -> ~ listed w o -> TrailerVehicle w o = Ok (Some t) -> listed w t -> chain w t l -> (List.length l <= n)%nat ->
  exists w', addObject n w o a = Ok (w', nextId_ w) /\ inv w' /\ (forall x, listed w' x <-> listed w x \/ x = o) /\
  In o (if a then object_ w' else object_pool_ w') /\ In t (if a then object_ w' else object_pool_ w').
Proof.
  intros H Lo No E Lt C Hl. pose proof H as [H0 Cl]. assert (Hne : t <> o) by (intros ->; contradiction).
  pose proof (entered_inv w o a H0 Lo No) as I1. pose proof (entered_links w o a) as S1. pose proof (trailer_same _ _ o S1) as Et.
  destruct n as [|n]; [pose proof (chain_nonempty _ _ _ C); lia|].
  cbn [addObject]. rewrite Lo. cbn [negb]. change (W _ _ _ _ _ _ _ _ _) with (entered w o a). rewrite Et, E. cbn [bind]. rewrite (proj2 (N.eqb_neq t o) Hne).
  set (w2 := if (e_name (ents (entered w o a) t) =? "")%string then set_name (entered w o a) t (e_name (ents (entered w o a) o) ++ "+")%string else entered w o a).
  assert (S2 : same_links w w2).
  { unfold w2. destruct (_ =? _)%string; [eapply links_trans; [exact S1|apply set_name_links]|exact S1]. }
  assert (I2 : inv0 w2) by (unfold w2; destruct (_ =? _)%string; [apply set_name_inv|]; exact I1).
  assert (L2 : object_ w2 = object_ (entered w o a) /\ object_pool_ w2 = object_pool_ (entered w o a)) by (unfold w2; destruct (_ =? _)%string; repeat split).
  destruct L2 as [L2a L2b]. clearbody w2.
  assert (Ls2 : forall x, listed w2 x <-> listed w x \/ x = o) by (intro x; unfold listed; rewrite L2a, L2b; apply entered_listed).
  assert (C2 : closed w2).
  { intros x Hx. apply Ls2 in Hx. rewrite (trailer_same w w2 x S2). destruct Hx as [Hx| ->].
    - destruct (Cl x Hx) as [r [R1 R2]]. exists r. split; [exact R1|]. intros t' F. apply Ls2. left. apply R2. exact F.
    - exists (Some t). split; [exact E|]. intros t' F. injection F as <-. apply Ls2. left. exact Lt. }
  assert (Lt2 : listed w2 t) by (apply Ls2; left; exact Lt). pose proof (chain_same _ _ _ _ S2 C) as Ch2.
  assert (Oo : In o (if a then object_ w2 else object_pool_ w2)) by (rewrite L2a, L2b; destruct a; cbn; apply in_or_app; right; left; reflexivity).
  pose proof I2 as [D2 _]. apply nodup_app in D2. destruct D2 as [_ [_ D2]].
  destruct a; cbn [negb].
  - rewrite andb_false_r. destruct (mem t (object_pool_ w2)) eqn:M; cbn [andb].
    + destruct (activate_spec (S n) w2 t (conj I2 C2) Lt2) as [Q|[w' [R [[I' [_ [_ Ls']]] [In' Gr]]]]].
      { exfalso. exact (activate_not_quit _ _ _ _ (conj I2 C2) Lt2 Ch2 Hl Q). }
      rewrite R. cbn [bind fst]. exists w'. split; [reflexivity|]. split; [exact I'|]. split; [intro x; rewrite Ls'; apply Ls2|]. split; [apply Gr; exact Oo|exact In'].
    + apply mem_false in M. destruct Lt2 as [Lt2|Lt2]; [|contradiction]. pose proof (proj2 (mem_in _ _) Lt2) as ->. cbn [negb andb]. exists w2. split; [reflexivity|].
      split; [split; assumption|]. auto.
  - rewrite andb_true_r. destruct (mem t (object_ w2)) eqn:M; cbn [andb].
    + destruct (deactivate_spec (S n) w2 t (conj I2 C2) Lt2) as [Q|[w' [R [[I' [_ [_ Ls']]] [In' Gr]]]]].
      { exfalso. exact (deactivate_not_quit _ _ _ _ (conj I2 C2) Lt2 Ch2 Hl Q). }
      rewrite R. cbn [bind fst]. exists w'. split; [reflexivity|]. split; [exact I'|]. split; [intro x; rewrite Ls'; apply Ls2|]. split; [apply Gr; exact Oo|exact In'].
    + apply mem_false in M. destruct Lt2 as [Lt2|Lt2]; [contradiction|]. pose proof (proj2 (mem_in _ _) Lt2) as ->. cbn [negb andb]. exists w2. split; [reflexivity|].
      split; [split; assumption|]. auto.
Qed.

(** ** Ids over histories *)

Lemma bind_fst {B} (r : res (world * B)) w' : bind r (fun x => Ok (fst x)) = Ok w' -> exists z, r = Ok (w', z).
Proof. destruct r as [[w z]| |]; [|discriminate|discriminate]. intro E. injection E as <-. exists z. reflexivity. Qed.

Lemma add_nextid n a w o l w' z : inv0 w -> chain w o l -> NoDup l -> (List.length l <= n)%nat -> (forall x, In x l -> ~ listed w x) ->
  addObject n w o a = Ok (w', z) -> nextId_ w <= nextId_ w'.
Proof.
  intros H0 C D Hl Hn R. destruct (add_chain n a w o l H0 C D Hl Hn) as [w2 [R2 [_ [_ [_ [_ [_ [Nx _]]]]]]]]. rewrite R2 in R. apply (f_equal (fun r => match r with Ok x => nextId_ (fst x) | _ => 0 end)) in R.
  cbn [fst] in R. lia.
Qed.
Lemma activate_nextid n w o w' z : inv w -> listed w o -> activateObject n w o = Ok (w', z) -> nextId_ w <= nextId_ w'.
Proof.
  intros H Ho R. destruct (activate_spec n w o H Ho) as [Q|[w2 [R2 [[_ [_ [[_ [Nx _]] _]]] _]]]]; [congruence|]. rewrite R2 in R.
  apply (f_equal (fun r => match r with Ok x => nextId_ (fst x) | _ => 0 end)) in R. cbn [fst] in R. lia.
Qed.
Lemma deactivate_nextid n w o w' z : inv w -> listed w o -> deactivateObject n w o = Ok (w', z) -> nextId_ w <= nextId_ w'.
Proof.
  intros H Ho R. destruct (deactivate_spec n w o H Ho) as [Q|[w2 [R2 [[_ [_ [[_ [Nx _]] _]]] _]]]]; [congruence|]. rewrite R2 in R.
  apply (f_equal (fun r => match r with Ok x => nextId_ (fst x) | _ => 0 end)) in R. cbn [fst] in R. lia.
Qed.

Lemma run1_add stack w o a : run1 stack w (OpAdd o a) = bind (addObject max_trailers w o a) (fun r => Ok (fst r)).
Proof. reflexivity. Qed.
Lemma run1_activate stack w o : run1 stack w (OpActivate o) = bind (activateObject max_trailers w o) (fun r => Ok (fst r)).
Proof. reflexivity. Qed.
Lemma run1_deactivate stack w o : run1 stack w (OpDeactivate o) = bind (deactivateObject max_trailers w o) (fun r => Ok (fst r)).
Proof. reflexivity. Qed.

Lemma run1_nextid stack w x w' : inv w -> allowed stack w x -> run1 stack w x = Ok w' -> nextId_ w <= nextId_ w'.
Proof.
  intros H Al R. destruct x as [s v h c|o a|o|o|o t|o|o r].
  - injection R as <-. cbn. lia.
  - destruct Al as [l [C [D [Hl Hn]]]]. rewrite run1_add in R. destruct (bind_fst _ _ R) as [z R']. exact (add_nextid _ a w o l w' z (proj1 H) C D Hl Hn R').
  - rewrite run1_activate in R. destruct (bind_fst _ _ R) as [z R']. exact (activate_nextid _ w o w' z H (proj1 Al) R').
  - rewrite run1_deactivate in R. destruct (bind_fst _ _ R) as [z R']. exact (deactivate_nextid _ w o w' z H (proj1 Al) R').
  - destruct Al as [Ho [Ht [Vo [Vt [[h Eh] [c Ec]]]]]]. destruct (connect_spec w o t h c H Ho Ht Vo Vt Eh Ec) as [w2 [R2 [_ [[_ [_ [_ [_ [Nx _]]]]] _]]]].
    cbn [run1] in R. rewrite R2 in R. injection R as <-. lia.
  - cbn [run1 allowed] in *. unfold DisconnectTrailerAction_Start in R. pose proof H as [_ C]. destruct (C o Al) as [r [R1 R2]]. rewrite R1 in R. cbn [bind] in R. destruct r as [t|]; [|injection R as <-; lia].
    destruct (disconnect_spec w o H Al t R1) as [w2 [R3 [_ [[_ [_ [_ [_ [Nx _]]]]] _]]]]. rewrite R3 in R. injection R as <-. lia.
  - destruct Al as [l [T [D [Hl [Ha Ht]]]]]. cbn [run1] in R. destruct r.
    + destruct (removed_fields stack w o l T D Hl Ha) as [w2 [R2 [_ [_ [_ [_ [_ [_ [Nx _]]]]]]]]]. rewrite R2 in R. injection R as <-. lia.
    + subst l. pose proof H as [[_ [L _]] _]. destruct (removed_single w o stack ltac:(cbn in Hl; lia) (L o (or_introl (Ha o (or_introl eq_refl))))) as [w2 [R2 [_ [_ [_ [_ [_ [_ [Nx _]]]]]]]]].
      rewrite R2 in R. injection R as <-. lia.
Qed.

Lemma runs_nextid stack w l w' : runs stack w l w' -> inv w -> nextId_ w <= nextId_ w'.
Proof.
  intro R. induction R as [w|w x l w1 w2 A E R IH]; [lia|]. intro H. pose proof (run1_nextid stack w x w1 H A E). destruct (run1_ok stack w x H A) as [w'' [E' I']].
  rewrite E' in E. injection E as ->. specialize (IH I'). lia.
Qed.

Lemma nodup_map {A B} (f : A -> B) l : NoDup l -> (forall x y, In x l -> In y l -> f x = f y -> x = y) -> NoDup (map f l).
Proof.
  induction l as [|a l IH]; intros D H; [constructor|]. inversion D; subst. cbn. constructor.
  - rewrite in_map_iff. intros [y [E Hy]]. assert (y = a) by (apply H; [right; exact Hy|left; reflexivity|exact E]). subst. contradiction.
  - apply IH; [assumption|]. intros x y Hx Hy. apply H; right; assumption.
Qed.
