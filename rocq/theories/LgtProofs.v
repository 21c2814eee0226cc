(** * Proofs about the lights of a vehicle (C71) *)
From Coq Require Import Reals Bool List ZArith Lra Lia.
From Verif Require Import AngModel AngProofs BoxModel AccModel AccProofs LgtModel.
Import ListNotations.
Open Scope R_scope.

(** ** Specification *)

(** The time that passed. *)
Fixpoint sum (l : list R) : R := match l with [] => 0 | x :: l => x + sum l end.

(** The lights of an action of some type: all fog lights, both indicators with the warning lights, else the one of that type. *)
Definition controlled (t i : Z) : Prop :=
  (0 <= t < VEHICLE_LIGHT_SIZE)%Z /\
  (i = t \/ t = FOG_LIGHTS /\ (i = FOG_LIGHTS_FRONT \/ i = FOG_LIGHTS_REAR) \/ t = WARNING_LIGHTS /\ (i = INDICATOR_LEFT \/ i = INDICATOR_RIGHT)).

(** The luminosity asked for. *)
Definition target (c : cfg) (d : dyn) : R :=
  match c_mode c with
  | M_OFF => 0
  | _ => if d_lumSet d then d_lum d else DEFAULT_LUMINOUS_INTENSITY
  end.

(** Part of the way from one value to another. *)
Definition way (a b f : R) : R := a + (b - a) * f.

(** ** Writes to the lights *)
Lemma fold_out : forall (f : vstate -> light -> light) vs ls i, ~ In i (map v_idx vs) ->
  fold_left (fun ls v => upd ls (v_idx v) (f v)) vs ls i = ls i.
Proof.
  intros f vs. induction vs as [|v vs IH]; intros ls i NI; [reflexivity|]. cbn [fold_left].
  rewrite IH by (intro H; apply NI; right; exact H). unfold upd.
  destruct (Z.eqb_spec i (v_idx v)) as [E|_]; [|reflexivity]. exfalso. apply NI. left. symmetry. exact E.
Qed.
Lemma fold_in : forall (f : vstate -> light -> light) vs ls v, NoDup (map v_idx vs) -> In v vs ->
  fold_left (fun ls v => upd ls (v_idx v) (f v)) vs ls (v_idx v) = f v (ls (v_idx v)).
Proof.
  intros f vs. induction vs as [|w vs IH]; intros ls v ND IN; [destruct IN|]. cbn [map] in ND. inversion ND as [|x y NI ND']; subst.
  cbn [fold_left]. destruct IN as [<-|IN].
  - rewrite fold_out by exact NI. unfold upd. rewrite Z.eqb_refl. reflexivity.
  - rewrite IH by assumption. unfold upd.
    destruct (Z.eqb_spec (v_idx v) (v_idx w)) as [E|_]; [|reflexivity]. exfalso. apply NI. rewrite <- E. apply in_map. exact IN.
Qed.

(** ** Which lights *)
Lemma set_spec : forall t is, SetVehicleLights t = Some is -> forall i, In i is <-> controlled t i.
Proof.
  intros t is H i. unfold SetVehicleLights in H. unfold controlled, FOG_LIGHTS, WARNING_LIGHTS, FOG_LIGHTS_FRONT, FOG_LIGHTS_REAR, INDICATOR_LEFT, INDICATOR_RIGHT, VEHICLE_LIGHT_SIZE in *.
  destruct ((0 <=? t) && (t <? 14))%Z eqn:B; [|discriminate].
  apply andb_prop in B. destruct B as [B1 B2]. apply Z.leb_le in B1. apply Z.ltb_lt in B2.
  destruct (Z.eqb_spec t 3) as [E|N3]; [|destruct (Z.eqb_spec t 7) as [E|N7]]; injection H as <-; cbn [In]; lia.
Qed.
Lemma set_nodup : forall t is, SetVehicleLights t = Some is -> NoDup is.
Proof.
  intros t is H. unfold SetVehicleLights in H.
  destruct (_ && _)%Z; [|discriminate]. destruct (t =? FOG_LIGHTS)%Z; [|destruct (t =? WARNING_LIGHTS)%Z]; injection H as <-;
  repeat constructor; cbn [In]; lia.
Qed.
Lemma set_some : forall t, (0 <= t < VEHICLE_LIGHT_SIZE)%Z -> exists is, SetVehicleLights t = Some is.
Proof.
  intros t [H1 H2]. unfold SetVehicleLights. rewrite (proj2 (Z.leb_le _ _) H1), (proj2 (Z.ltb_lt _ _) H2). cbn [andb].
  destruct (t =? FOG_LIGHTS)%Z; [|destruct (t =? WARNING_LIGHTS)%Z]; eexists; reflexivity.
Qed.
Lemma set_none : forall t, SetVehicleLights t = None <-> ~ (0 <= t < VEHICLE_LIGHT_SIZE)%Z.
Proof.
  intros t. split.
  - intros H B. destruct (set_some t B) as [is E]. rewrite E in H. discriminate.
  - intros N. destruct (SetVehicleLights t) as [is|] eqn:E; [|reflexivity]. exfalso. apply N.
    unfold SetVehicleLights in E. destruct ((0 <=? t) && (t <? VEHICLE_LIGHT_SIZE))%Z eqn:B; [|discriminate].
    apply andb_prop in B. destruct B as [B1 B2]. apply Z.leb_le in B1. apply Z.ltb_lt in B2. lia.
Qed.

(** ** Start *)
Lemma start_light_spec : forall c col ls i col' ls' v, start_light c col ls i = (col', ls', v) ->
  v_idx v = i /\ v_prev v = l_lum (ls i) /\ v_pmin v = l_rgb (ls i) /\ v_pmax v = l_max (ls i) /\
  col' = (if c_colorSet c then col else l_base (ls i)) /\ (v_min v, v_max v) = GetRgbMinMaxColor col' minus_one /\
  (forall j, j <> i -> ls' j = ls j) /\
  l_type (ls' i) = l_type (ls i) /\ l_base (ls' i) = l_base (ls i) /\ l_lum (ls' i) = l_lum (ls i) /\ v_trans v = 0 /\ v_lum v = 0.
Proof.
  intros c col ls i col' ls' v H. unfold start_light in H. cbv zeta in H.
  set (b := mode_eqb (c_mode c) M_FLASHING && mode_eqb (l_mode (ls i)) M_ON) in H.
  set (ls1 := if b then upd ls i (ResetLight M_UNKNOWN) else ls) in H.
  assert (X : l_lum (ls1 i) = l_lum (ls i) /\ l_rgb (ls1 i) = l_rgb (ls i) /\ l_max (ls1 i) = l_max (ls i) /\ l_base (ls1 i) = l_base (ls i) /\ l_type (ls1 i) = l_type (ls i)
          /\ forall j, j <> i -> ls1 j = ls j).
  { unfold ls1. destruct b; [|repeat split; reflexivity]. unfold upd. rewrite Z.eqb_refl.
    repeat split; try reflexivity. intros j N. rewrite (proj2 (Z.eqb_neq _ _) N). reflexivity. }
  destruct X as (X1 & X2 & X3 & X4 & X6 & X5). rewrite X4 in H.
  destruct (GetRgbMinMaxColor (if c_colorSet c then col else l_base (ls i)) minus_one) as [mn mx] eqn:G.
  injection H as <- <- <-. cbn [v_idx v_prev v_pmin v_pmax v_min v_max v_trans v_lum].
  rewrite X1, X2, X3. unfold upd at 2 3 4. rewrite Z.eqb_refl. cbn [l_type l_base l_lum].
  repeat split; try reflexivity; try assumption.
  - rewrite G. reflexivity.
  - intros j N. unfold upd. rewrite (proj2 (Z.eqb_neq _ _) N). apply X5. exact N.
Qed.

Lemma start_lights_spec : forall c is col ls col' ls' vs, NoDup is -> start_lights c col ls is = (col', ls', vs) ->
  map v_idx vs = is /\
  (forall v, In v vs -> v_prev v = l_lum (ls (v_idx v)) /\ v_pmin v = l_rgb (ls (v_idx v)) /\ v_pmax v = l_max (ls (v_idx v)) /\ v_trans v = 0 /\ v_lum v = 0 /\
     (v_min v, v_max v) = GetRgbMinMaxColor (if c_colorSet c then col else l_base (ls (v_idx v))) minus_one) /\
  (forall j, ~ In j is -> ls' j = ls j) /\
  (forall j, l_lum (ls' j) = l_lum (ls j) /\ l_type (ls' j) = l_type (ls j)).
Proof.
  intros c is. induction is as [|i is IH]; intros col ls col' ls' vs ND H.
  - injection H as <- <- <-. repeat split; try reflexivity; destruct H.
  - cbn [start_lights] in H. destruct (start_light c col ls i) as [[col1 ls1] v] eqn:S1.
    destruct (start_lights c col1 ls1 is) as [[col2 ls2] vs1] eqn:S2. injection H as <- <- <-.
    inversion ND as [|x y NI ND']; subst.
    destruct (start_light_spec _ _ _ _ _ _ _ S1) as (A1 & A2 & A3 & A4 & A5 & A6 & A7 & A8 & A9 & A10 & A11 & A12).
    destruct (IH _ _ _ _ _ ND' S2) as (B1 & B2 & B3 & B4).
    split; [cbn [map]; rewrite A1, B1; reflexivity|].
    split.
    { intros w [<-|IN].
      - rewrite A1. repeat split; try assumption. rewrite A6, A5. destruct (c_colorSet c); reflexivity.
      - destruct (B2 w IN) as (C1 & C2 & C3 & C4 & C5 & C6).
        assert (N : v_idx w <> i) by (intro E; apply NI; rewrite <- E, <- B1; apply in_map; exact IN).
        rewrite (A7 _ N) in C1, C2, C3, C6. repeat split; try assumption.
        rewrite C6, A5. destruct (c_colorSet c); reflexivity. }
    split.
    { intros j NJ. rewrite B3 by (intro H; apply NJ; right; exact H). apply A7. intro E. apply NJ. left. symmetry. exact E. }
    intros j. destruct (B4 j) as [-> ->]. destruct (Z.eq_dec j i) as [->|N]; [split; assumption|]. rewrite (A7 _ N). split; reflexivity.
Qed.

(** What comes before the loop leaves every luminosity as it is. *)
Lemma init_lum : forall ls i, l_lum (InitializeLights ls i) = l_lum (ls i).
Proof.
  intros ls i. unfold InitializeLights. cbv zeta. destruct (_ && _)%bool; [|reflexivity].
  destruct (GetRgbMinMaxColor _ _) as [mn mx]. reflexivity.
Qed.
Lemma conf_lum : forall t ls i, l_lum (HandleConflictingLights t ls i) = l_lum (ls i).
Proof.
  intros t ls i. unfold HandleConflictingLights. cbv zeta.
  destruct (_ || _)%bool; [unfold upd; destruct (i =? _)%Z; reflexivity|].
  destruct (t =? INDICATOR_LEFT)%Z; [|destruct (t =? INDICATOR_RIGHT)%Z; [|reflexivity]];
  (destruct (mode_eqb _ _); unfold upd; repeat (destruct (i =? _)%Z; try reflexivity)).
Qed.

Lemma start_spec : forall c d0 ls0 d ls, Start c d0 ls0 = Some (d, ls) ->
  NoDup (map v_idx (d_vs d)) /\ (forall i, In i (map v_idx (d_vs d)) <-> controlled (c_type c) i) /\
  (forall v, In v (d_vs d) -> v_prev v = l_lum (ls0 (v_idx v)) /\ v_trans v = 0 /\ v_lum v = 0) /\
  d_timer d = 0 /\ d_done d = false /\ d_lumSet d = d_lumSet d0 /\ d_lum d = d_lum d0 /\
  (c_mode c = M_FLASHING -> d_flash d = F_OFF /\ d_ftimer d = c_off c) /\ (forall i, l_lum (ls i) = l_lum (ls0 i)).
Proof.
  intros c d0 ls0 d ls H. unfold Start in H. destruct (SetVehicleLights (c_type c)) as [is|] eqn:SV; [|discriminate]. cbv zeta in H.
  set (ls1 := if (l_type (ls0 (c_type c)) =? UNDEFINED)%Z then InitializeLights ls0 else ls0) in H.
  destruct (start_lights c (d_rgb d0) (HandleConflictingLights (c_type c) ls1) is) as [[col ls2] vs] eqn:S2. injection H as <- <-.
  destruct (start_lights_spec _ _ _ _ _ _ _ (set_nodup _ _ SV) S2) as (B1 & B2 & B3 & B4).
  assert (L1 : forall i, l_lum (ls1 i) = l_lum (ls0 i)).
  { intro i. unfold ls1. destruct (_ =? _)%Z; [apply init_lum|reflexivity]. }
  cbn [d_vs d_timer d_done d_lumSet d_lum d_flash d_ftimer]. rewrite B1.
  split; [exact (set_nodup _ _ SV)|]. split; [exact (set_spec _ _ SV)|]. split.
  { intros v IN. destruct (B2 v IN) as (C1 & _ & _ & C4 & C5 & _). rewrite conf_lum, L1 in C1. repeat split; assumption. }
  repeat split; try reflexivity.
  - rewrite H. reflexivity.
  - rewrite H. reflexivity.
  - intro i. rewrite (proj1 (B4 i)), conf_lum. apply L1.
Qed.

(** ** A step *)
(** A light of the action after a step, seen from its state. *)
Definition inside (c : cfg) (d : dyn) : bool := negb (Rltb (c_T c + SMALL_NUMBER) (d_timer d)).
Definition factor (c : cfg) (d : dyn) : R := if Req_EM_T (c_T c) 0 then 1 else d_timer d / c_T c.
Definition fin (c : cfg) (d : dyn) : bool := (Rltb (Rabs (c_T c - 0)) SMALL_NUMBER || Rltb (c_T c - SMALL_NUMBER) (d_timer d)) && negb (d_done d).
Definition missing (c : cfg) (d : dyn) : bool := inside c d && (mode_eqb (c_mode c) M_ON || mode_eqb (c_mode c) M_FLASHING) && negb (d_lumSet d).
Definition newlum (c : cfg) (d : dyn) : R := if missing c d then DEFAULT_LUMINOUS_INTENSITY else d_lum d.
Definition moved (c : cfg) (d : dyn) (v : vstate) : vstate := if inside c d then transition (c_mode c) (newlum c d) (factor c d) v else v.
Definition lit (c : cfg) (d : dyn) (v : vstate) : vstate :=
  if mode_eqb (c_mode c) M_FLASHING then
    match d_flash d with
    | F_OFF => if negb (Rltb (d_ftimer d) (c_off c - SMALL_NUMBER)) then set_lum v_trans v else v
    | F_ON => if negb (Rltb (d_ftimer d) (c_on c - SMALL_NUMBER)) then set_lum (fun _ => 0) v else v
    | F_UNDEFINED => v
    end
  else set_lum v_trans v.
Definition next (c : cfg) (d : dyn) (v : vstate) : vstate := lit c d (moved c d v).

Lemma moved_map : forall c d vs, (if inside c d then map (transition (c_mode c) (newlum c d) (factor c d)) vs else vs) = map (moved c d) vs.
Proof. intros c d vs. unfold moved. destruct (inside c d); [reflexivity|]. symmetry. apply map_id. Qed.

Lemma step_vs : forall c d ls dt, d_vs (fst (fst (Step c d ls dt))) = map (next c d) (d_vs d).
Proof.
  intros c d ls dt. unfold Step. cbv zeta. fold (inside c d) (factor c d). fold (missing c d). fold (newlum c d). rewrite moved_map.
  change (map (next c d) (d_vs d)) with (map (fun v => lit c d (moved c d v)) (d_vs d)). rewrite <- (map_map (moved c d) (lit c d)). unfold lit.
  destruct (mode_eqb (c_mode c) M_FLASHING); [|reflexivity].
  destruct (d_flash d);
    [destruct (negb (Rltb (d_ftimer d) (c_off c - SMALL_NUMBER)))|destruct (negb (Rltb (d_ftimer d) (c_on c - SMALL_NUMBER)))|];
    cbn [fst d_vs]; try reflexivity; symmetry; apply map_id.
Qed.
Lemma step_timer : forall c d ls dt, d_timer (fst (fst (Step c d ls dt))) = if inside c d then d_timer d + dt else d_timer d.
Proof.
  intros c d ls dt. unfold Step. cbv zeta. fold (inside c d).
  destruct (mode_eqb (c_mode c) M_FLASHING); [destruct (d_flash d); [destruct (negb (Rltb (d_ftimer d) _))|destruct (negb (Rltb (d_ftimer d) _))|]|]; reflexivity.
Qed.
Lemma step_dyn : forall c d ls dt, let d' := fst (fst (Step c d ls dt)) in
  d_done d' = (d_done d || fin c d)%bool /\ d_lumSet d' = (d_lumSet d || missing c d)%bool /\ d_lum d' = newlum c d /\
  (c_mode c <> M_FLASHING -> d_flash d' = d_flash d /\ d_ftimer d' = d_ftimer d).
Proof.
  intros c d ls dt. cbv zeta. unfold Step. cbv zeta. fold (inside c d). fold (missing c d). fold (newlum c d). fold (fin c d).
  destruct (mode_eqb (c_mode c) M_FLASHING) eqn:M; [destruct (d_flash d); [destruct (negb (Rltb (d_ftimer d) _))|destruct (negb (Rltb (d_ftimer d) _))|]|];
  cbn [fst d_done d_lumSet d_lum d_flash d_ftimer]; split; try reflexivity; split; try reflexivity; split; try reflexivity; intro N; try (exfalso; apply N; destruct (c_mode c); try discriminate; reflexivity); split; reflexivity.
Qed.
Lemma step_ended : forall c d ls dt, snd (Step c d ls dt) = ((fin c d && negb (mode_eqb (c_mode c) M_FLASHING)) || (inside c d && mode_eqb (c_mode c) M_UNKNOWN))%bool.
Proof.
  intros c d ls dt. unfold Step. cbv zeta. fold (inside c d). fold (fin c d).
  destruct (mode_eqb (c_mode c) M_FLASHING) eqn:M; [destruct (d_flash d); [destruct (negb (Rltb (d_ftimer d) _))|destruct (negb (Rltb (d_ftimer d) _))|]|]; reflexivity.
Qed.

(** The writes to a light in a step. *)
Definition write_mode (c : cfg) (l : light) : light :=
  Light (l_type l) (c_mode c) (c_color c) (l_lum l) (l_em l) (l_rgb l) (l_base l) (l_max l) (l_emit l).
Definition write_rgb (f : R) (v : vstate) (l : light) : light :=
  Light (l_type l) (l_mode l) (l_color l) (l_lum l) (l_em l) (each2 (fun a b => a + (b - a) * f) (v_pmin v) (v_min v)) (l_base l)
    (each2 (fun a b => a + (b - a) * f) (v_pmax v) (v_max v)) (l_emit l).

Lemma step_ls : forall c d ls dt, snd (fst (Step c d ls dt)) =
  fold_left (fun ls v => upd ls (v_idx v) (fun l => SetVehicleLightState l (v_lum v))) (map (next c d) (d_vs d))
   (if inside c d then fold_left (fun ls v => upd ls (v_idx v) (write_rgb (factor c d) v)) (map (moved c d) (d_vs d))
       (if fin c d then fold_left (fun ls v => upd ls (v_idx v) (write_mode c)) (d_vs d) ls else ls)
    else if fin c d then fold_left (fun ls v => upd ls (v_idx v) (write_mode c)) (d_vs d) ls else ls).
Proof.
  intros c d ls dt. rewrite <- (step_vs c d ls dt). unfold Step. cbv zeta. fold (inside c d) (factor c d). fold (missing c d). fold (newlum c d). fold (fin c d). rewrite moved_map.
  destruct (mode_eqb (c_mode c) M_FLASHING); [destruct (d_flash d); [destruct (negb (Rltb (d_ftimer d) _))|destruct (negb (Rltb (d_ftimer d) _))|]|]; reflexivity.
Qed.

Lemma moved_idx : forall c d v, v_idx (moved c d v) = v_idx v.
Proof. intros. unfold moved. destruct (inside c d); [|reflexivity]. destruct (c_mode c); reflexivity. Qed.
Lemma next_idx : forall c d v, v_idx (next c d v) = v_idx v.
Proof.
  intros c d v. unfold next, lit. rewrite <- (moved_idx c d v).
  destruct (mode_eqb (c_mode c) M_FLASHING); [destruct (d_flash d); [destruct (negb _)|destruct (negb _)|]|]; reflexivity.
Qed.
Lemma moved_keep : forall c d v, v_prev (moved c d v) = v_prev v /\ v_min (moved c d v) = v_min v /\ v_max (moved c d v) = v_max v /\ v_pmin (moved c d v) = v_pmin v /\ v_pmax (moved c d v) = v_pmax v
  /\ v_lum (moved c d v) = v_lum v.
Proof. intros. unfold moved. destruct (inside c d); [|repeat split; reflexivity]. destruct (c_mode c); repeat split; reflexivity. Qed.
Lemma next_keep : forall c d v, v_prev (next c d v) = v_prev v /\ v_min (next c d v) = v_min v /\ v_max (next c d v) = v_max v /\ v_pmin (next c d v) = v_pmin v /\ v_pmax (next c d v) = v_pmax v
  /\ v_trans (next c d v) = v_trans (moved c d v).
Proof.
  intros c d v. destruct (moved_keep c d v) as (<- & <- & <- & <- & <- & _). unfold next, lit.
  destruct (mode_eqb (c_mode c) M_FLASHING); [destruct (d_flash d); [destruct (negb _)|destruct (negb _)|]|]; repeat split; reflexivity.
Qed.
Lemma map_idx_next : forall c d vs, map v_idx (map (next c d) vs) = map v_idx vs.
Proof. intros. rewrite map_map. apply map_ext. intro v. apply next_idx. Qed.
Lemma map_idx_moved : forall c d vs, map v_idx (map (moved c d) vs) = map v_idx vs.
Proof. intros. rewrite map_map. apply map_ext. intro v. apply moved_idx. Qed.

Lemma step_out : forall c d ls dt i, ~ In i (map v_idx (d_vs d)) -> snd (fst (Step c d ls dt)) i = ls i.
Proof.
  intros c d ls dt i NI. rewrite step_ls.
  rewrite (fold_out (fun v l => SetVehicleLightState l (v_lum v))) by (rewrite map_idx_next; exact NI).
  destruct (inside c d); [rewrite (fold_out (fun v => write_rgb (factor c d) v)) by (rewrite map_idx_moved; exact NI)|];
  (destruct (fin c d); [rewrite (fold_out (fun _ => write_mode c)) by exact NI|]; reflexivity).
Qed.
Lemma step_in : forall c d ls dt v, NoDup (map v_idx (d_vs d)) -> In v (d_vs d) ->
  snd (fst (Step c d ls dt)) (v_idx v) =
    SetVehicleLightState
      (let l := if fin c d then write_mode c (ls (v_idx v)) else ls (v_idx v) in if inside c d then write_rgb (factor c d) v l else l)
      (v_lum (next c d v)).
Proof.
  intros c d ls dt v ND IN. rewrite step_ls, <- (next_idx c d v).
  rewrite (fold_in (fun v l => SetVehicleLightState l (v_lum v))) by (try (rewrite map_idx_next; exact ND); apply in_map; exact IN).
  f_equal. rewrite next_idx. cbv zeta.
  assert (F : (if fin c d then fold_left (fun ls v => upd ls (v_idx v) (write_mode c)) (d_vs d) ls else ls) (v_idx v) =
              if fin c d then write_mode c (ls (v_idx v)) else ls (v_idx v)).
  { destruct (fin c d); [|reflexivity]. apply (fold_in (fun _ => write_mode c)); assumption. }
  destruct (inside c d) eqn:I; [|exact F].
  rewrite <- (moved_idx c d v) at 1.
  rewrite (fold_in (fun v => write_rgb (factor c d) v)) by (try (rewrite map_idx_moved; exact ND); apply in_map; exact IN).
  rewrite moved_idx, F. unfold write_rgb. destruct (moved_keep c d v) as (_ & -> & -> & -> & -> & _). reflexivity.
Qed.

Lemma step_target : forall c d ls dt, target c (fst (fst (Step c d ls dt))) = target c d.
Proof.
  intros c d ls dt. destruct (step_dyn c d ls dt) as (_ & L & M & _). unfold target. rewrite L, M. unfold newlum, missing.
  destruct (c_mode c), (d_lumSet d), (inside c d); reflexivity.
Qed.
Lemma newlum_target : forall c d, inside c d = true -> c_mode c = M_ON \/ c_mode c = M_FLASHING -> newlum c d = target c d.
Proof.
  intros c d I M. unfold newlum, missing, target. rewrite I. destruct M as [-> | ->]; destruct (d_lumSet d); reflexivity.
Qed.

(** The value a transition gives. *)
Lemma moved_trans : forall c d v, inside c d = true -> c_mode c <> M_UNKNOWN -> v_trans (moved c d v) = way (v_prev v) (target c d) (factor c d).
Proof.
  intros c d v I N. unfold moved. rewrite I. pose proof (newlum_target c d I) as NT. unfold way. destruct (c_mode c) eqn:M; cbn [transition v_trans].
  - unfold target. rewrite M. ring.
  - rewrite NT by (left; reflexivity). reflexivity.
  - rewrite NT by (right; reflexivity). reflexivity.
  - exfalso. apply N. reflexivity.
Qed.
Lemma next_lum : forall c d v, c_mode c <> M_FLASHING -> v_lum (next c d v) = v_trans (moved c d v).
Proof. intros c d v N. unfold next, lit. destruct (c_mode c); try reflexivity. exfalso. apply N. reflexivity. Qed.

(** ** Runs *)
Lemma sum_app : forall a b, sum (a ++ b) = sum a + sum b.
Proof. intros a b. induction a as [|x a IH]; cbn [sum app]; [lra|]. rewrite IH. lra. Qed.
Lemma sum_nonneg : forall l, Forall (Rle 0) l -> 0 <= sum l.
Proof. intros l H. induction H; cbn [sum]; lra. Qed.
Lemma sum_butlast : forall l, Forall (Rle 0) l -> sum (removelast l) <= sum l.
Proof.
  intros l H. destruct l as [|x l'] using rev_ind; [cbn; lra|]. rewrite removelast_last, sum_app. cbn [sum].
  apply Forall_app in H. destruct H as [_ H]. inversion H; subst. lra.
Qed.
Lemma butlast_nonneg : forall l, Forall (Rle 0) l -> 0 <= sum (removelast l).
Proof.
  intros l H. destruct l as [|x l'] using rev_ind; [cbn; lra|]. rewrite removelast_last.
  apply Forall_app in H. apply sum_nonneg. apply H.
Qed.
Lemma steps_last : forall c s dts dt, Steps c s (dts ++ [dt]) = fst (Step c (fst (Steps c s dts)) (snd (Steps c s dts)) dt).
Proof. intros. unfold Steps. rewrite fold_left_app. reflexivity. Qed.

Lemma inside_true : forall c d, d_timer d <= c_T c + SMALL_NUMBER -> inside c d = true.
Proof. intros c d H. unfold inside. rewrite (proj2 (Rltb_false _ _)) by lra. reflexivity. Qed.
Lemma inside_false : forall c d, c_T c + SMALL_NUMBER < d_timer d -> inside c d = false.
Proof. intros c d H. unfold inside. rewrite (proj2 (Rltb_true _ _)) by lra. reflexivity. Qed.
Lemma small_gt : 0 < SMALL_NUMBER.
Proof. unfold SMALL_NUMBER. lra. Qed.
Lemma fin_false : forall c d, SMALL_NUMBER <= c_T c -> d_timer d <= c_T c - SMALL_NUMBER -> fin c d = false.
Proof.
  intros c d H1 H2. pose proof small_gt. unfold fin. rewrite Rminus_0_r, Rabs_right by lra.
  rewrite (proj2 (Rltb_false _ _)) by lra. rewrite (proj2 (Rltb_false _ _)) by lra. reflexivity.
Qed.
Lemma fin_true : forall c d, d_done d = false -> c_T c - SMALL_NUMBER < d_timer d -> fin c d = true.
Proof. intros c d H1 H2. unfold fin. rewrite H1, (proj2 (Rltb_true _ _) H2). rewrite orb_true_r. reflexivity. Qed.
Lemma factor_eq : forall c d, 0 < c_T c -> factor c d = d_timer d / c_T c.
Proof. intros c d H. unfold factor. destruct (Req_EM_T (c_T c) 0); [lra|reflexivity]. Qed.

Section Run.
Variables (c : cfg) (d0 : dyn) (ls0 : lights) (d1 : dyn) (ls1 : lights).
Hypothesis ST : Start c d0 ls0 = Some (d1, ls1).

(** The indices stay. *)
Lemma run_idx : forall dts, map v_idx (d_vs (fst (Steps c (d1, ls1) dts))) = map v_idx (d_vs d1).
Proof.
  intro dts. induction dts as [|x dts IH] using rev_ind; [reflexivity|].
  rewrite steps_last, step_vs, map_idx_next. exact IH.
Qed.
Lemma run_nodup : forall dts, NoDup (map v_idx (d_vs (fst (Steps c (d1, ls1) dts)))).
Proof. intro dts. rewrite run_idx. apply (start_spec _ _ _ _ _ ST). Qed.
Lemma run_has : forall dts i, controlled (c_type c) i -> exists v, In v (d_vs (fst (Steps c (d1, ls1) dts))) /\ v_idx v = i.
Proof.
  intros dts i H. apply (start_spec _ _ _ _ _ ST) in H. rewrite <- (run_idx dts) in H. apply in_map_iff in H.
  destruct H as (v & E & IN). exists v. split; assumption.
Qed.
Lemma run_prev : forall dts v, In v (d_vs (fst (Steps c (d1, ls1) dts))) -> v_prev v = l_lum (ls0 (v_idx v)).
Proof.
  intro dts. induction dts as [|x dts IH] using rev_ind; intros v IN.
  - apply (start_spec _ _ _ _ _ ST). exact IN.
  - rewrite steps_last, step_vs in IN. apply in_map_iff in IN. destruct IN as (w & <- & IN).
    rewrite (proj1 (next_keep _ _ _)), next_idx. apply IH. exact IN.
Qed.

Hypothesis TT : SMALL_NUMBER <= c_T c.
Hypothesis KN : c_mode c <> M_UNKNOWN.

Lemma run_inv : forall dts, Forall (Rle 0) dts -> sum (removelast dts) <= c_T c - SMALL_NUMBER ->
  let d := fst (Steps c (d1, ls1) dts) in
  d_timer d = sum dts /\ d_done d = false /\ target c d = target c d0 /\
  (dts <> [] -> forall v, In v (d_vs d) -> v_trans v = way (v_prev v) (target c d0) (sum (removelast dts) / c_T c)).
Proof.
  pose proof small_gt as SG.
  intro dts. induction dts as [|x dts IH] using rev_ind; intros NN SU; cbv zeta.
  - destruct (start_spec _ _ _ _ _ ST) as (_ & _ & _ & A & B & C & D & _).
    cbn [Steps fold_left fst sum]. repeat split; try assumption.
    + unfold target. rewrite C, D. reflexivity.
    + intro H. exfalso. apply H. reflexivity.
  - rewrite removelast_last in SU. apply Forall_app in NN. destruct NN as [NN NX]. inversion NX as [|y z X0 _]; subst.
    specialize (IH NN). pose proof (sum_butlast dts NN) as SB. specialize (IH ltac:(lra)). cbv zeta in IH. destruct IH as (I1 & I2 & I3 & I4).
    rewrite steps_last, removelast_last.
    set (d := fst (Steps c (d1, ls1) dts)) in *. set (ls := snd (Steps c (d1, ls1) dts)).
    assert (IN : inside c d = true) by (apply inside_true; lra).
    destruct (step_dyn c d ls x) as (E1 & _).
    split; [rewrite step_timer, IN, sum_app, I1; cbn [sum]; lra|].
    split; [rewrite E1, I2, fin_false by lra; reflexivity|].
    split; [rewrite (step_target c d ls x); exact I3|].
    intros _ v INV. rewrite step_vs in INV. apply in_map_iff in INV. destruct INV as (w & <- & INW).
    destruct (next_keep c d w) as (P & _ & _ & _ & _ & TR). rewrite TR, P, moved_trans by assumption.
    rewrite I3, factor_eq, I1 by lra. reflexivity.
Qed.
End Run.

(** ** Transitions of lights that do not flash *)
Section Trans.
Variables (c : cfg) (d0 : dyn) (ls0 : lights) (d1 : dyn) (ls1 : lights).
Hypothesis ST : Start c d0 ls0 = Some (d1, ls1).
Hypothesis MO : c_mode c = M_ON \/ c_mode c = M_OFF.

Lemma mode_known : c_mode c <> M_UNKNOWN /\ c_mode c <> M_FLASHING.
Proof. destruct MO as [-> | ->]; split; discriminate. Qed.
Lemma mode_flags : mode_eqb (c_mode c) M_FLASHING = false /\ mode_eqb (c_mode c) M_UNKNOWN = false.
Proof. destruct MO as [-> | ->]; split; reflexivity. Qed.

(** While the transition lasts, the luminosity is the part of the way that belongs to the time that passed. *)
Lemma linear : forall dts dt i, SMALL_NUMBER <= c_T c -> Forall (Rle 0) dts -> sum (removelast dts) <= c_T c - SMALL_NUMBER -> sum dts <= c_T c + SMALL_NUMBER ->
  controlled (c_type c) i ->
  let s := Steps c (d1, ls1) dts in
  let r := Step c (fst s) (snd s) dt in
  l_lum (snd (fst r) i) = CLAMP (way (l_lum (ls0 i)) (target c d0) (sum dts / c_T c)) 0 MAX_INTENSITY_LUM /\
  (snd r = true <-> c_T c - SMALL_NUMBER < sum dts) /\
  (snd r = true -> l_mode (snd (fst r) i) = c_mode c /\ l_color (snd (fst r) i) = c_color c).
Proof.
  intros dts dt i TT NN SU IE CO. cbv zeta. pose proof small_gt as SG. destruct mode_known as [K1 K2]. destruct mode_flags as [F1 F2].
  destruct (run_inv c d0 ls0 d1 ls1 ST TT K1 dts NN SU) as (I1 & I2 & I3 & _).
  destruct (run_has c d0 ls0 d1 ls1 ST dts i CO) as (v & INV & <-).
  pose proof (run_prev c d0 ls0 d1 ls1 ST dts v INV) as PV. pose proof (run_nodup c d0 ls0 d1 ls1 ST dts) as ND.
  set (d := fst (Steps c (d1, ls1) dts)) in *. set (ls := snd (Steps c (d1, ls1) dts)).
  assert (IN : inside c d = true) by (apply inside_true; lra).
  rewrite step_ended, F1, F2, IN, (step_in c d ls dt v ND INV). cbv zeta. rewrite IN. cbn [negb andb orb]. rewrite orb_false_r, andb_true_r.
  split.
  { cbn [SetVehicleLightState l_lum]. rewrite (next_lum c d v K2), (moved_trans c d v IN K1), I3, PV, factor_eq, I1 by lra. reflexivity. }
  split.
  { split.
    - intro F. destruct (Rlt_dec (c_T c - SMALL_NUMBER) (sum dts)) as [L|NL]; [exact L|]. rewrite fin_false in F by lra. discriminate.
    - intro L. apply fin_true; [exact I2|]. rewrite I1. exact L. }
  intro F. rewrite F. split; reflexivity.
Qed.

(** A step that lies past the end leaves the luminosity of the step before and ends all the same. *)
Lemma late : forall dts dt i, SMALL_NUMBER <= c_T c -> Forall (Rle 0) dts -> sum (removelast dts) <= c_T c - SMALL_NUMBER -> c_T c + SMALL_NUMBER < sum dts ->
  controlled (c_type c) i ->
  let s := Steps c (d1, ls1) dts in
  let r := Step c (fst s) (snd s) dt in
  l_lum (snd (fst r) i) = CLAMP (way (l_lum (ls0 i)) (target c d0) (sum (removelast dts) / c_T c)) 0 MAX_INTENSITY_LUM /\
  snd r = true /\ l_mode (snd (fst r) i) = c_mode c /\ l_color (snd (fst r) i) = c_color c.
Proof.
  intros dts dt i TT NN SU IE CO. cbv zeta. pose proof small_gt as SG. destruct mode_known as [K1 K2]. destruct mode_flags as [F1 F2].
  destruct (run_inv c d0 ls0 d1 ls1 ST TT K1 dts NN SU) as (I1 & I2 & I3 & I4).
  destruct (run_has c d0 ls0 d1 ls1 ST dts i CO) as (v & INV & <-).
  pose proof (run_prev c d0 ls0 d1 ls1 ST dts v INV) as PV. pose proof (run_nodup c d0 ls0 d1 ls1 ST dts) as ND.
  assert (NE : dts <> []) by (intro E; rewrite E in IE; cbn in IE; lra). specialize (I4 NE v INV).
  set (d := fst (Steps c (d1, ls1) dts)) in *. set (ls := snd (Steps c (d1, ls1) dts)).
  assert (IN : inside c d = false) by (apply inside_false; lra).
  assert (FI : fin c d = true) by (apply fin_true; [exact I2|lra]).
  rewrite step_ended, F1, F2, IN, FI, (step_in c d ls dt v ND INV). cbv zeta. rewrite IN, FI.
  split; [|repeat split; reflexivity].
  cbn [SetVehicleLightState l_lum]. rewrite (next_lum c d v K2). unfold moved. rewrite IN, I4, PV. reflexivity.
Qed.

(** Without a transition time one step is all. *)
Lemma instant : forall dt i, c_T c = 0 -> controlled (c_type c) i ->
  let r := Step c d1 ls1 dt in
  l_lum (snd (fst r) i) = CLAMP (target c d0) 0 MAX_INTENSITY_LUM /\ snd r = true /\ l_mode (snd (fst r) i) = c_mode c /\ l_color (snd (fst r) i) = c_color c.
Proof.
  intros dt i TT CO. cbv zeta. pose proof small_gt as SG. destruct mode_known as [K1 K2]. destruct mode_flags as [F1 F2].
  destruct (start_spec _ _ _ _ _ ST) as (ND & IX & VS & A & B & C & D & _).
  destruct (run_has c d0 ls0 d1 ls1 ST [] i CO) as (v & INV & <-). cbn [Steps fold_left fst] in INV.
  destruct (VS v INV) as (PV & _ & _).
  assert (IN : inside c d1 = true) by (apply inside_true; lra).
  assert (FI : fin c d1 = true) by (apply fin_true; [exact B|lra]).
  rewrite step_ended, F1, F2, IN, FI, (step_in c d1 ls1 dt v ND INV). cbv zeta. rewrite IN, FI.
  split; [|repeat split; reflexivity].
  cbn [SetVehicleLightState l_lum]. rewrite (next_lum c d1 v K2), (moved_trans c d1 v IN K1). unfold factor. destruct (Req_EM_T (c_T c) 0); [|lra].
  unfold way, target. rewrite C, D. f_equal. ring.
Qed.
End Trans.

(** ** Numbers *)
Lemma clamp_in : forall x, 0 <= x <= MAX_INTENSITY_LUM -> CLAMP x 0 MAX_INTENSITY_LUM = x.
Proof. intros x H. rewrite CLAMP_Rmin, Rmax_right, Rmin_right; lra. Qed.
Lemma way_in : forall a b f lo hi, lo <= a <= hi -> lo <= b <= hi -> 0 <= f <= 1 -> lo <= way a b f <= hi.
Proof. intros a b f lo hi A B F. unfold way. split; nra. Qed.
Lemma pow_0 : forall k, pow_ 0 k = 0.
Proof. intro k. unfold pow_. destruct (Req_EM_T 0 0) as [_|N]; [reflexivity|]. exfalso. apply N. reflexivity. Qed.
Lemma pow_1 : forall k, pow_ 1 k = 1.
Proof. intro k. unfold pow_. destruct (Req_EM_T 1 0) as [E|_]; [lra|]. unfold Rpower. rewrite ln_1, Rmult_0_r. apply exp_0. Qed.
Lemma pow_pos : forall x k, 0 < x -> pow_ x k = Rpower x k.
Proof. intros x k H. unfold pow_. destruct (Req_EM_T x 0); [lra|reflexivity]. Qed.
Lemma pow_nonneg : forall x k, 0 <= pow_ x k.
Proof. intros x k. unfold pow_. destruct (Req_EM_T x 0); [lra|]. left. apply exp_pos. Qed.
Lemma pow_mono : forall x y k, 0 < k -> 0 <= x < y -> pow_ x k < pow_ y k.
Proof.
  intros x y k K [X Y]. rewrite (pow_pos y) by lra. unfold pow_. destruct (Req_EM_T x 0).
  - apply exp_pos.
  - unfold Rpower. apply exp_increasing. apply Rmult_lt_compat_l; [exact K|]. apply ln_increasing; lra.
Qed.
Lemma pow_quarter : forall x, 0 <= x -> pow_ x (1 / 4) ^ 4 = x.
Proof.
  intros x X. unfold pow_. destruct (Req_EM_T x 0) as [->|N]; [ring|].
  rewrite <- Rpower_pow by (apply exp_pos). rewrite Rpower_mult. replace (1 / 4 * INR 4) with 1 by (cbn; lra). apply Rpower_1. lra.
Qed.

Lemma dark : forall l, let l' := SetVehicleLightState l 0 in l_lum l' = 0 /\ l_em l' = Rgb 0 0 0 /\ l_emit l' = false.
Proof.
  intro l. cbv zeta. unfold SetVehicleLightState. cbv zeta. rewrite clamp_in by (unfold MAX_INTENSITY_LUM; lra).
  replace (0 / MAX_INTENSITY_LUM) with 0 by (unfold MAX_INTENSITY_LUM; lra). rewrite pow_0. unfold each. cbn [l_lum l_em l_emit fold_left ch_r ch_g ch_b].
  rewrite !Rmult_0_r. split; [reflexivity|]. split; [reflexivity|]. apply Rltb_false. lra.
Qed.

(** ** Colours *)
Definition unit_rgb (x : rgb) : Prop := 0 <= ch_r x <= 1 /\ 0 <= ch_g x <= 1 /\ 0 <= ch_b x <= 1.
(** Colours with every channel bright, but not all the same. *)
Definition bright (x : rgb) : Prop := 6 / 10 <= ch_r x /\ 6 / 10 <= ch_g x /\ 6 / 10 <= ch_b x /\ ~ (ch_r x = ch_g x /\ ch_g x = ch_b x).

Lemma clamp_between : forall x, 6 / 10 <= CLAMP x (6 / 10) 1 <= 1.
Proof. intro x. apply clamp_range. lra. Qed.

Lemma min_spec : forall base old, unit_rgb base ->
  exists s, 0 < s <= 1 /\ fst (GetRgbMinMaxColor base old) = each (fun c => c * s) base /\
    (ch_r base <= 25 / 100 -> ch_g base <= 25 / 100 -> ch_b base <= 25 / 100 -> s = 1) /\
    ch_r base * s <= 25 / 100 /\ ch_g base * s <= 25 / 100 /\ ch_b base * s <= 25 / 100.
Proof.
  intros [r g b] old (HR & HG & HB). cbn [ch_r ch_g ch_b] in *. unfold GetRgbMinMaxColor. cbv zeta.
  assert (D : exists s, 0 < s <= 1 /\ s = (if Rltb (25 / 100) (MAX (MAX r g) b) then 25 / 100 / MAX (MAX r g) b else 1) /\
      (r <= 25 / 100 -> g <= 25 / 100 -> b <= 25 / 100 -> s = 1) /\ r * s <= 25 / 100 /\ g * s <= 25 / 100 /\ b * s <= 25 / 100).
  { rewrite !MAX_Rmax. set (m := Rmax (Rmax r g) b).
    assert (M : r <= m /\ g <= m /\ b <= m).
    { unfold m. pose proof (Rmax_l r g). pose proof (Rmax_r r g). pose proof (Rmax_l (Rmax r g) b). pose proof (Rmax_r (Rmax r g) b). lra. }
    assert (M2 : r <= 25 / 100 -> g <= 25 / 100 -> b <= 25 / 100 -> m <= 25 / 100).
    { intros. unfold m. apply Rmax_lub; [apply Rmax_lub|]; assumption. }
    destruct (Rltb (25 / 100) m) eqn:L.
    - apply Rltb_true in L. exists (25 / 100 / m). assert (P : m * / m = 1) by (apply Rinv_r; lra).
      assert (P2 : 0 < / m) by (apply Rinv_0_lt_compat; lra).
      unfold Rdiv. split; [split; nra|]. split; [reflexivity|].
      split; [intros A B C; specialize (M2 A B C); lra|]. repeat split; nra.
    - apply Rltb_false in L. exists 1. repeat split; try lra. }
  destruct D as (s & S1 & S2 & S3 & S4).
  destruct (Req_EM_T r g) as [E1|N1]; [destruct (Req_EM_T g b) as [E2|N2]|].
  - cbn [fst]. subst g b. rewrite !MAX_Rmax, !Rmax_left in S2 by (try apply Rle_refl; rewrite Rmax_left; lra).
    exists s. split; [exact S1|]. split; [|split; [exact S3|exact S4]].
    unfold each. cbn [ch_r ch_g ch_b]. destruct (Rltb (25 / 100) r) eqn:L; rewrite S2.
    + apply Rltb_true in L. f_equal; field; lra.
    + f_equal; ring.
  - exists s. cbn [fst]. rewrite <- S2. split; [exact S1|]. split; [reflexivity|]. split; [exact S3|exact S4].
  - exists s. cbn [fst]. rewrite <- S2. split; [exact S1|]. split; [reflexivity|]. split; [exact S3|exact S4].
Qed.

Lemma max_spec : forall base old, unit_rgb base -> ~ bright base -> let m := snd (GetRgbMinMaxColor base old) in
  6 / 10 <= ch_r m <= 1 /\ 6 / 10 <= ch_g m <= 1 /\ 6 / 10 <= ch_b m <= 1.
Proof.
  intros [r g b] old (HR & HG & HB) NB. cbn [ch_r ch_g ch_b] in *. cbv zeta. unfold GetRgbMinMaxColor. cbv zeta.
  assert (D : ~ (r = g /\ g = b) -> let m := if Rltb (MIN (MIN r g) b) (6 / 10) then each (fun c => CLAMP (pow_ (c / MAX (MAX r g) b) (15 / 100)) (6 / 10) 1) (Rgb r g b) else old in
     6 / 10 <= ch_r m <= 1 /\ 6 / 10 <= ch_g m <= 1 /\ 6 / 10 <= ch_b m <= 1).
  { intro NE. cbv zeta. destruct (Rltb (MIN (MIN r g) b) (6 / 10)) eqn:L.
    - unfold each. cbn [ch_r ch_g ch_b]. split; [apply clamp_between|]. split; apply clamp_between.
    - exfalso. apply NB. apply Rltb_false in L. rewrite !MIN_Rmin in L.
      pose proof (Rmin_l r g). pose proof (Rmin_r r g). pose proof (Rmin_l (Rmin r g) b). pose proof (Rmin_r (Rmin r g) b).
      unfold bright. cbn [ch_r ch_g ch_b]. split; [lra|]. split; [lra|]. split; [lra|exact NE]. }
  destruct (Req_EM_T r g) as [E1|N1]; [destruct (Req_EM_T g b) as [E2|N2]|].
  - cbn [snd]. destruct (Rltb r (6 / 10)) eqn:L; cbn [ch_r ch_g ch_b]; [lra|]. apply Rltb_false in L. lra.
  - apply D. intros [_ A]. apply N2. exact A.
  - apply D. intros [A _]. apply N1. exact A.
Qed.

Lemma max_bright : forall base old, bright base -> snd (GetRgbMinMaxColor base old) = old.
Proof.
  intros [r g b] old (HR & HG & HB & NE). cbn [ch_r ch_g ch_b] in *. unfold GetRgbMinMaxColor. cbv zeta.
  assert (L : Rltb (MIN (MIN r g) b) (6 / 10) = false).
  { apply Rltb_false. rewrite !MIN_Rmin. apply Rmin_glb; [apply Rmin_glb|]; lra. }
  destruct (Req_EM_T r g) as [E1|N1]; [destruct (Req_EM_T g b) as [E2|N2]|].
  - exfalso. apply NE. split; assumption.
  - cbn [snd]. rewrite L. reflexivity.
  - cbn [snd]. rewrite L. reflexivity.
Qed.

(** ** Emission *)
Lemma emit_spec : forall l lum, l_emit (SetVehicleLightState l lum) = true <-> 1 / 1000 < ch_b (l_em (SetVehicleLightState l lum)).
Proof. intros l lum. unfold SetVehicleLightState. cbv zeta. cbn [l_emit l_em fold_left]. apply Rltb_true. Qed.

Lemma emission_eq : forall l lum, 0 <= lum <= MAX_INTENSITY_LUM -> l_em (SetVehicleLightState l lum) = each (fun m => m * pow_ (lum / MAX_INTENSITY_LUM) (1 / 4)) (l_max l).
Proof. intros l lum H. unfold SetVehicleLightState. cbv zeta. cbn [l_em]. rewrite clamp_in by exact H. reflexivity. Qed.

Lemma lit_emits : forall l lum, 6 / 10 <= ch_b (l_max l) -> SMALL_NUMBER <= lum -> l_emit (SetVehicleLightState l lum) = true.
Proof.
  intros l lum M L. apply emit_spec. unfold SetVehicleLightState. cbv zeta. cbn [l_em]. unfold each. cbn [ch_b].
  set (x := CLAMP lum 0 MAX_INTENSITY_LUM / MAX_INTENSITY_LUM).
  assert (X : 1 / 10 ^ 11 <= x).
  { unfold x. rewrite CLAMP_Rmin. unfold SMALL_NUMBER, MAX_INTENSITY_LUM in *. rewrite (Rmax_right 0 lum) by lra.
    assert (1 / 1000000 <= Rmin 12000 lum) by (apply Rmin_glb; lra). lra. }
  assert (X0 : 0 <= x) by (assert (0 < 1 / 10 ^ 11) by lra; lra).
  pose proof (pow_quarter x X0) as Q. pose proof (pow_nonneg x (1 / 4)) as P. set (p := pow_ x (1 / 4)) in *.
  assert (PB : 1 / 600 < p).
  { destruct (Rlt_dec (1 / 600) p) as [Y|Y]; [exact Y|]. exfalso.
    assert (p ^ 4 <= (1 / 600) ^ 4) by (apply pow_incr; lra). assert ((1 / 600) ^ 4 < 1 / 10 ^ 11) by lra. lra. }
  nra.
Qed.

(** ** Flashing *)
Section Flash.
Variable c : cfg.
Hypothesis FL : c_mode c = M_FLASHING.

Lemma flash_step : forall d ls dt dur, d_flash d = F_ON /\ dur = c_on c \/ d_flash d = F_OFF /\ dur = c_off c ->
  let d' := fst (fst (Step c d ls dt)) in
  (d_ftimer d < dur - SMALL_NUMBER -> d_flash d' = d_flash d /\ d_ftimer d' = d_ftimer d + dt /\ forall v, v_lum (next c d v) = v_lum v) /\
  (dur - SMALL_NUMBER <= d_ftimer d -> d_ftimer d' = dt /\
     (d_flash d = F_ON -> d_flash d' = F_OFF /\ forall v, v_lum (next c d v) = 0) /\
     (d_flash d = F_OFF -> d_flash d' = F_ON /\ forall v, v_lum (next c d v) = v_trans (moved c d v))).
Proof.
  intros d ls dt dur H. cbv zeta. unfold Step. cbv zeta. unfold next, lit. rewrite FL. cbn [mode_eqb].
  destruct H as [[E ->]|[E ->]]; rewrite E; (split; intro B;
    [rewrite (proj2 (Rltb_true _ _) B); cbn [negb]|rewrite (proj2 (Rltb_false _ _)) by lra; cbn [negb]];
    cbn [fst d_flash d_ftimer]).
  - split; [reflexivity|]. split; [reflexivity|]. intro v. apply (moved_keep c d v).
  - split; [apply Rplus_0_l|]. split; [|discriminate]. intros _. split; reflexivity.
  - split; [reflexivity|]. split; [reflexivity|]. intro v. apply (moved_keep c d v).
  - split; [apply Rplus_0_l|]. split; [discriminate|]. intros _. split; reflexivity.
Qed.

(** A phase: as long as less than its duration has passed, nothing changes. *)
Lemma phase : forall dts d ls dur, d_flash d = F_ON /\ dur = c_on c \/ d_flash d = F_OFF /\ dur = c_off c -> Forall (Rle 0) dts ->
  dts = [] \/ d_ftimer d + sum (removelast dts) < dur - SMALL_NUMBER ->
  let d' := fst (Steps c (d, ls) dts) in
  d_flash d' = d_flash d /\ d_ftimer d' = d_ftimer d + sum dts /\ map (fun v => (v_idx v, v_lum v)) (d_vs d') = map (fun v => (v_idx v, v_lum v)) (d_vs d).
Proof.
  intro dts. induction dts as [|x dts IH] using rev_ind; intros d ls dur K NN B; cbv zeta.
  - cbn [Steps fold_left fst sum]. rewrite Rplus_0_r. repeat split; reflexivity.
  - apply Forall_app in NN. destruct NN as [NN NX]. inversion NX as [|y z X0 _]; subst.
    rewrite removelast_last in B. destruct B as [B|B]; [destruct dts; discriminate|].
    pose proof (sum_butlast dts NN) as SB.
    destruct (IH d ls dur K NN ltac:(right; lra)) as (I1 & I2 & I3).
    rewrite steps_last. set (d2 := fst (Steps c (d, ls) dts)) in *. set (ls2 := snd (Steps c (d, ls) dts)).
    assert (K2 : d_flash d2 = F_ON /\ dur = c_on c \/ d_flash d2 = F_OFF /\ dur = c_off c) by (rewrite I1; exact K).
    destruct (flash_step d2 ls2 x dur K2) as [A _]. rewrite I2 in A. specialize (A B). destruct A as (A1 & A2 & A3).
    split; [rewrite A1; exact I1|]. split; [rewrite A2, sum_app; cbn [sum]; lra|].
    rewrite step_vs, map_map, <- I3. apply map_ext. intro v. rewrite next_idx, A3. reflexivity.
Qed.

(** What holds after every step. *)
Definition reached (d : dyn) (ls : lights) : Prop :=
  exists d0 ls0 d1 ls1 dts, Start c d0 ls0 = Some (d1, ls1) /\ dts <> [] /\ Steps c (d1, ls1) dts = (d, ls).

Lemma reached_inv : forall d ls, reached d ls ->
  NoDup (map v_idx (d_vs d)) /\ (forall i, controlled (c_type c) i -> In i (map v_idx (d_vs d))) /\
  (forall v, In v (d_vs d) -> exists l, ls (v_idx v) = SetVehicleLightState l (v_lum v)) /\
  (d_flash d = F_ON \/ d_flash d = F_OFF /\ forall v, In v (d_vs d) -> v_lum v = 0).
Proof.
  intros d ls (d0 & ls0 & d1 & ls1 & dts & ST & NE & E).
  assert (X : d_flash (fst (Steps c (d1, ls1) dts)) = F_ON \/ d_flash (fst (Steps c (d1, ls1) dts)) = F_OFF /\ forall v, In v (d_vs (fst (Steps c (d1, ls1) dts))) -> v_lum v = 0).
  { clear NE E. induction dts as [|x dts IH] using rev_ind.
    - right. destruct (start_spec _ _ _ _ _ ST) as (_ & _ & VS & _ & _ & _ & _ & F & _). split; [apply (F FL)|]. intros v IN. apply (VS v IN).
    - rewrite steps_last, step_vs. set (d2 := fst (Steps c (d1, ls1) dts)) in *. set (ls2 := snd (Steps c (d1, ls1) dts)).
      destruct IH as [IH|[IH VL]].
      + destruct (flash_step d2 ls2 x (c_on c) ltac:(left; split; [exact IH|reflexivity])) as [A B].
        destruct (Rlt_dec (d_ftimer d2) (c_on c - SMALL_NUMBER)) as [L|L].
        * left. rewrite (proj1 (A L)). exact IH.
        * right. destruct (B ltac:(lra)) as (_ & C & _). destruct (C IH) as [C1 C2]. split; [exact C1|].
          intros v IN. apply in_map_iff in IN. destruct IN as (w & <- & _). apply C2.
      + destruct (flash_step d2 ls2 x (c_off c) ltac:(right; split; [exact IH|reflexivity])) as [A B].
        destruct (Rlt_dec (d_ftimer d2) (c_off c - SMALL_NUMBER)) as [L|L].
        * right. destruct (A L) as (A1 & _ & A3). split; [rewrite A1; exact IH|].
          intros v IN. apply in_map_iff in IN. destruct IN as (w & <- & IW). rewrite A3. apply VL. exact IW.
        * left. destruct (B ltac:(lra)) as (_ & _ & C). apply (C IH). }
  destruct dts as [|x dts _] using rev_ind; [exfalso; apply NE; reflexivity|].
  pose proof (run_nodup c d0 ls0 d1 ls1 ST) as ND. pose proof (run_idx c d1 ls1 (dts ++ [x])) as RI. rewrite E in X, RI. cbn [fst] in X, RI.
  split; [rewrite RI; apply (start_spec _ _ _ _ _ ST)|].
  split; [intros i CO; rewrite RI; apply (start_spec _ _ _ _ _ ST); exact CO|].
  split; [|exact X].
  intros v IN. rewrite steps_last in E. set (d2 := fst (Steps c (d1, ls1) dts)) in *. set (ls2 := snd (Steps c (d1, ls1) dts)) in *.
  assert (EV : d_vs d = map (next c d2) (d_vs d2)) by (rewrite <- (step_vs c d2 ls2 x), E; reflexivity).
  rewrite EV in IN. apply in_map_iff in IN. destruct IN as (w & <- & IW).
  rewrite next_idx. replace ls with (snd (fst (Step c d2 ls2 x))) by (rewrite E; reflexivity).
  rewrite (step_in c d2 ls2 x w (ND dts) IW). eexists. reflexivity.
Qed.

Lemma reached_steps : forall d ls dts, reached d ls -> reached (fst (Steps c (d, ls) dts)) (snd (Steps c (d, ls) dts)).
Proof.
  intros d ls dts (d0 & ls0 & d1 & ls1 & dts0 & ST & NE & E). exists d0, ls0, d1, ls1, (dts0 ++ dts). split; [exact ST|].
  split; [destruct dts0; [exfalso; apply NE; reflexivity|discriminate]|].
  unfold Steps in *. rewrite fold_left_app, E. apply surjective_pairing.
Qed.

Lemma flash_dark : forall d ls i, reached d ls -> d_flash d = F_OFF -> controlled (c_type c) i ->
  l_lum (ls i) = 0 /\ l_em (ls i) = Rgb 0 0 0 /\ l_emit (ls i) = false.
Proof.
  intros d ls i RE FO CO. destruct (reached_inv d ls RE) as (_ & IX & LS & [X|[_ X]]); [congruence|].
  specialize (IX i CO). apply in_map_iff in IX. destruct IX as (v & <- & IN). destruct (LS v IN) as [l ->]. rewrite (X v IN). apply dark.
Qed.

Lemma phase_lights : forall d ls dts dur i, reached d ls -> d_flash d = F_ON /\ dur = c_on c \/ d_flash d = F_OFF /\ dur = c_off c -> Forall (Rle 0) dts ->
  dts = [] \/ d_ftimer d + sum (removelast dts) < dur - SMALL_NUMBER -> controlled (c_type c) i ->
  let s := Steps c (d, ls) dts in
  d_flash (fst s) = d_flash d /\ d_ftimer (fst s) = d_ftimer d + sum dts /\ l_lum (snd s i) = l_lum (ls i).
Proof.
  intros d ls dts dur i RE K NN B CO. cbv zeta. destruct (phase dts d ls dur K NN B) as (P1 & P2 & P3).
  split; [exact P1|]. split; [exact P2|].
  destruct (reached_inv d ls RE) as (ND & IX & LS & _).
  destruct (reached_inv _ _ (reached_steps d ls dts RE)) as (ND2 & IX2 & LS2 & _).
  specialize (IX2 i CO). apply in_map_iff in IX2. destruct IX2 as (w & <- & IW).
  assert (IN : In (v_idx w, v_lum w) (map (fun v => (v_idx v, v_lum v)) (d_vs d))).
  { rewrite <- P3. apply in_map_iff. exists w. split; [reflexivity|exact IW]. }
  apply in_map_iff in IN. destruct IN as (v & EV & IV). injection EV as E1 E2.
  destruct (LS2 w IW) as [l2 ->]. rewrite <- E1. destruct (LS v IV) as [l ->]. rewrite E2. reflexivity.
Qed.

(** The end of a phase. *)
Lemma turn_off : forall d ls dt i, reached d ls -> d_flash d = F_ON -> c_on c - SMALL_NUMBER <= d_ftimer d -> controlled (c_type c) i ->
  let r := Step c d ls dt in d_flash (fst (fst r)) = F_OFF /\ d_ftimer (fst (fst r)) = dt /\ l_lum (snd (fst r) i) = 0 /\ l_emit (snd (fst r) i) = false.
Proof.
  intros d ls dt i RE FO B CO. cbv zeta. destruct (flash_step d ls dt (c_on c) ltac:(left; split; [exact FO|reflexivity])) as [_ A].
  destruct (A B) as (A1 & A2 & _). destruct (A2 FO) as [A3 _]. split; [exact A3|]. split; [exact A1|].
  pose proof (reached_steps d ls [dt] RE) as R2.
  destruct (flash_dark _ _ i R2 A3 CO) as (X & _ & Y). split; [exact X|exact Y].
Qed.
Lemma turn_on : forall d ls dt, d_flash d = F_OFF -> c_off c - SMALL_NUMBER <= d_ftimer d ->
  let r := Step c d ls dt in d_flash (fst (fst r)) = F_ON /\ d_ftimer (fst (fst r)) = dt.
Proof.
  intros d ls dt FO B. cbv zeta. destruct (flash_step d ls dt (c_off c) ltac:(right; split; [exact FO|reflexivity])) as [_ A].
  destruct (A B) as (A1 & _ & A2). split; [apply (A2 FO)|exact A1].
Qed.
Lemma flash_first : forall d0 ls0 d1 ls1 dt, Start c d0 ls0 = Some (d1, ls1) ->
  let r := Step c d1 ls1 dt in d_flash (fst (fst r)) = F_ON /\ d_ftimer (fst (fst r)) = dt.
Proof.
  intros d0 ls0 d1 ls1 dt ST. destruct (start_spec _ _ _ _ _ ST) as (_ & _ & _ & _ & _ & _ & _ & F & _). destruct (F FL) as [F1 F2].
  apply turn_on; [exact F1|]. rewrite F2. pose proof small_gt. lra.
Qed.
Lemma flash_forever : forall d ls dt, snd (Step c d ls dt) = false.
Proof. intros d ls dt. rewrite step_ended, FL. cbn [mode_eqb negb]. rewrite !andb_false_r. reflexivity. Qed.

(** Without a transition time, the lights shine with what was asked for. *)
Lemma flash_lit : forall d0 ls0 d1 ls1 dts i, c_T c = 0 -> Start c d0 ls0 = Some (d1, ls1) -> dts <> [] -> Forall (Rle 0) dts ->
  d_flash (fst (Steps c (d1, ls1) dts)) = F_ON -> controlled (c_type c) i ->
  l_lum (snd (Steps c (d1, ls1) dts) i) = CLAMP (target c d0) 0 MAX_INTENSITY_LUM.
Proof.
  intros d0 ls0 d1 ls1 dts i T0 ST NE NN FO CO. pose proof small_gt as SG.
  assert (X : forall dts, Forall (Rle 0) dts -> let d := fst (Steps c (d1, ls1) dts) in
     target c d = target c d0 /\ (inside c d = true \/ dts <> []) /\
     (dts <> [] -> (forall v, In v (d_vs d) -> v_trans v = target c d0) /\ (d_flash d = F_ON \/ d_flash d = F_OFF) /\ (d_flash d = F_ON -> forall v, In v (d_vs d) -> v_lum v = target c d0))).
  { clear dts NE NN FO. intro dts. induction dts as [|x dts IH] using rev_ind; intro NN; cbv zeta.
    - destruct (start_spec _ _ _ _ _ ST) as (_ & _ & _ & A & _ & B & C & _). cbn [Steps fold_left fst]. split; [unfold target; rewrite B, C; reflexivity|].
      split; [left; apply inside_true; lra|]. intro H. exfalso. apply H. reflexivity.
    - apply Forall_app in NN. destruct NN as [NN _]. destruct (IH NN) as (I1 & I2 & I3). clear IH. rewrite steps_last, step_vs.
      set (d := fst (Steps c (d1, ls1) dts)) in *. set (ls := snd (Steps c (d1, ls1) dts)).
      split; [rewrite step_target; exact I1|]. split; [right; destruct dts; discriminate|]. intros _.
      assert (MT : forall v, In v (d_vs d) -> v_trans (moved c d v) = target c d0).
      { intros v IN. destruct (inside c d) eqn:ID.
        - rewrite moved_trans by (try exact ID; rewrite FL; discriminate). rewrite I1. unfold way, factor. destruct (Req_EM_T (c_T c) 0); [ring|lra].
        - destruct I2 as [I2|I2]; [discriminate|]. unfold moved. rewrite ID. apply (proj1 (I3 I2)). exact IN. }
      split.
      { intros v IN. apply in_map_iff in IN. destruct IN as (w & <- & IW). rewrite (proj2 (proj2 (proj2 (proj2 (proj2 (next_keep c d w)))))). apply MT. exact IW. }
      assert (FS : dts = [] /\ d_flash d = F_OFF /\ c_off c - SMALL_NUMBER <= d_ftimer d \/ dts <> []).
      { destruct dts as [|y dts]; [left|right; discriminate]. split; [reflexivity|].
        destruct (start_spec _ _ _ _ _ ST) as (_ & _ & _ & _ & _ & _ & _ & F & _). destruct (F FL) as [F1 F2]. split; [exact F1|]. unfold d. cbn [Steps fold_left fst]. lra. }
      destruct FS as [(_ & F1 & F2)|NE].
      + destruct (flash_step d ls x (c_off c) ltac:(right; split; [exact F1|reflexivity])) as [_ A]. destruct (A F2) as (_ & _ & B). destruct (B F1) as [B1 B2].
        split; [left; exact B1|]. intros _ v IN. apply in_map_iff in IN. destruct IN as (w & <- & IW). rewrite B2. apply MT. exact IW.
      + destruct (I3 NE) as (J1 & J2 & J3). destruct J2 as [F1|F1].
        * destruct (flash_step d ls x (c_on c) ltac:(left; split; [exact F1|reflexivity])) as [A B].
          destruct (Rlt_dec (d_ftimer d) (c_on c - SMALL_NUMBER)) as [L|L].
          -- destruct (A L) as (A1 & _ & A3). split; [left; rewrite A1; exact F1|]. intros _ v IN. apply in_map_iff in IN. destruct IN as (w & <- & IW). rewrite A3. apply (J3 F1). exact IW.
          -- destruct (B ltac:(lra)) as (_ & C & _). destruct (C F1) as [C1 _]. split; [right; exact C1|]. intro H. congruence.
        * destruct (flash_step d ls x (c_off c) ltac:(right; split; [exact F1|reflexivity])) as [A B].
          destruct (Rlt_dec (d_ftimer d) (c_off c - SMALL_NUMBER)) as [L|L].
          -- destruct (A L) as (A1 & _ & A3). split; [right; rewrite A1; exact F1|]. intro H. congruence.
          -- destruct (B ltac:(lra)) as (_ & _ & C). destruct (C F1) as [C1 C2]. split; [left; exact C1|].
             intros _ v IN. apply in_map_iff in IN. destruct IN as (w & <- & IW). rewrite C2. apply MT. exact IW. }
  assert (RE : reached (fst (Steps c (d1, ls1) dts)) (snd (Steps c (d1, ls1) dts))).
  { exists d0, ls0, d1, ls1, dts. split; [exact ST|]. split; [exact NE|]. apply surjective_pairing. }
  destruct (reached_inv _ _ RE) as (_ & IX & LS & _). specialize (IX i CO). apply in_map_iff in IX. destruct IX as (v & <- & IN).
  destruct (X dts NN) as (_ & _ & Y). destruct (Y NE) as (_ & _ & Z). destruct (LS v IN) as [l ->]. rewrite (Z FO v IN). reflexivity.
Qed.
End Flash.

(** ** Conflicts *)
Ltac types := unfold CheckConflictingLights, HandleConflictingLights, controlled, FOG_LIGHTS, WARNING_LIGHTS, FOG_LIGHTS_FRONT, FOG_LIGHTS_REAR, INDICATOR_LEFT, INDICATOR_RIGHT, VEHICLE_LIGHT_SIZE in *.

Lemma conflict_sym : forall a b, CheckConflictingLights a b = CheckConflictingLights b a.
Proof.
  intros a b. unfold CheckConflictingLights. rewrite (Z.eqb_sym a b). cbv zeta.
  destruct (b =? a)%Z; [reflexivity|]. cbn [orb].
  rewrite (andb_comm ((a =? WARNING_LIGHTS) || _ || _)%Z). f_equal. apply orb_comm.
Qed.
Lemma conflict_shared : forall a b i, controlled a i -> controlled b i -> CheckConflictingLights a b = true.
Proof.
  intros a b i A B. types. cbv zeta. rewrite ?orb_true_iff, ?andb_true_iff, ?orb_true_iff, ?Z.eqb_eq. lia.
Qed.

(** Handling of conflicts is no business of lights of actions not in conflict. *)
Lemma handle_out : forall a b i ls, CheckConflictingLights a b = false -> controlled b i -> HandleConflictingLights a ls i = ls i.
Proof.
  intros a b i ls C B. unfold HandleConflictingLights. cbv zeta.
  assert (U : forall ls f j, i <> j -> upd ls j f i = ls i).
  { intros ls' f j N. unfold upd. rewrite (proj2 (Z.eqb_neq _ _) N). reflexivity. }
  destruct (_ || _)%bool eqn:E1.
  { apply U. intros ->. apply orb_prop in E1. rewrite !Z.eqb_eq in E1.
    assert (b = FOG_LIGHTS) by (types; lia). subst b. destruct E1 as [-> | ->]; discriminate C. }
  assert (X : a = INDICATOR_LEFT \/ a = INDICATOR_RIGHT -> i <> WARNING_LIGHTS /\ i <> INDICATOR_LEFT /\ i <> INDICATOR_RIGHT).
  { intro A. assert (i = WARNING_LIGHTS \/ i = INDICATOR_LEFT \/ i = INDICATOR_RIGHT -> False); [|lia].
    intro I. assert (b = WARNING_LIGHTS \/ b = INDICATOR_LEFT \/ b = INDICATOR_RIGHT) as D by (types; lia).
    destruct A as [-> | ->]; destruct D as [-> | [-> | ->]]; discriminate C. }
  destruct (Z.eqb_spec a INDICATOR_LEFT) as [A|NA]; [|destruct (Z.eqb_spec a INDICATOR_RIGHT) as [A|NA2]; [|reflexivity]].
  - destruct (X (or_introl A)) as (X1 & X2 & X3). destruct (mode_eqb _ _); rewrite ?U by assumption; reflexivity.
  - destruct (X (or_intror A)) as (X1 & X2 & X3). destruct (mode_eqb _ _); rewrite ?U by assumption; reflexivity.
Qed.

Lemma start_out : forall c d0 ls0 d ls b i, Start c d0 ls0 = Some (d, ls) -> CheckConflictingLights (c_type c) b = false -> controlled b i ->
  l_type (ls0 (c_type c)) <> UNDEFINED -> ls i = ls0 i.
Proof.
  intros c d0 ls0 d ls b i H C B TY. unfold Start in H. destruct (SetVehicleLights (c_type c)) as [is|] eqn:SV; [|discriminate]. cbv zeta in H.
  rewrite (proj2 (Z.eqb_neq _ _) TY) in H.
  destruct (start_lights c (d_rgb d0) (HandleConflictingLights (c_type c) ls0) is) as [[col ls2] vs] eqn:S2. injection H as <- <-.
  destruct (start_lights_spec _ _ _ _ _ _ _ (set_nodup _ _ SV) S2) as (_ & _ & B3 & _).
  rewrite B3, (handle_out _ b) by (try assumption; rewrite (set_spec _ _ SV); intro A; rewrite (conflict_shared _ _ _ A B) in C; discriminate).
  reflexivity.
Qed.

Lemma steps_out : forall c d0 ls0 d ls dts i, Start c d0 ls0 = Some (d, ls) -> ~ controlled (c_type c) i -> snd (Steps c (d, ls) dts) i = ls i.
Proof.
  intros c d0 ls0 d ls dts i ST NC. induction dts as [|x dts IH] using rev_ind; [reflexivity|].
  rewrite steps_last, step_out; [exact IH|]. rewrite (run_idx c d ls). intro H. apply NC. apply (start_spec _ _ _ _ _ ST). exact H.
Qed.

(** All lights have their type once one action has started. *)
Lemma init_types : forall ls i, (0 <= i < VEHICLE_LIGHT_SIZE)%Z -> l_type (InitializeLights ls i) <> UNDEFINED.
Proof.
  intros ls i [B1 B2]. unfold InitializeLights. cbv zeta. rewrite (proj2 (Z.leb_le _ _) B1), (proj2 (Z.ltb_lt _ _) B2). cbn [andb].
  destruct (Z.eqb_spec (l_type (ls i)) UNDEFINED) as [E|N]; [|exact N].
  destruct (GetRgbMinMaxColor _ _) as [mn mx]. cbn [l_type]. unfold UNDEFINED. lia.
Qed.

(** The colour after a step without a transition time. *)
Lemma colour : forall c d0 ls0 d1 ls1 dt i, Start c d0 ls0 = Some (d1, ls1) -> c_T c = 0 -> c_colorSet c = true -> controlled (c_type c) i ->
  let l := snd (fst (Step c d1 ls1 dt)) i in (l_rgb l, l_max l) = GetRgbMinMaxColor (d_rgb d0) minus_one.
Proof.
  intros c d0 ls0 d1 ls1 dt i ST TT CS CO. cbv zeta. pose proof small_gt as SG.
  destruct (run_has c d0 ls0 d1 ls1 ST [] i CO) as (v & INV & <-). cbn [Steps fold_left fst] in INV.
  destruct (start_spec _ _ _ _ _ ST) as (ND & _ & _ & A & _).
  assert (IN : inside c d1 = true) by (apply inside_true; lra).
  assert (F : factor c d1 = 1) by (unfold factor; destruct (Req_EM_T (c_T c) 0); lra).
  assert (G : (v_min v, v_max v) = GetRgbMinMaxColor (d_rgb d0) minus_one).
  { clear - ST CS INV. unfold Start in ST. destruct (SetVehicleLights (c_type c)) as [is|] eqn:SV; [|discriminate]. cbv zeta in ST.
    destruct (start_lights c (d_rgb d0) _ is) as [[col ls2] vs] eqn:S2 in ST. injection ST as <- <-.
    destruct (start_lights_spec _ _ _ _ _ _ _ (set_nodup _ _ SV) S2) as (_ & B2 & _).
    destruct (B2 v INV) as (_ & _ & _ & _ & _ & ->). rewrite CS. reflexivity. }
  rewrite (step_in c d1 ls1 dt v ND INV). cbv zeta. rewrite IN, F, <- G.
  assert (W : forall a b, each2 (fun x y => x + (y - x) * 1) a b = b).
  { intros [a1 a2 a3] [b1 b2 b3]. unfold each2. cbn [ch_r ch_g ch_b]. f_equal; ring. }
  unfold SetVehicleLightState, write_rgb. cbv zeta. cbn [l_rgb l_max]. rewrite !W. reflexivity.
Qed.
