(** * C71: Lights go from what they were to what was asked for, and flash in time *)
From Coq Require Import Reals Bool List ZArith Lra Lia.
From Verif Require Import AngModel AngProofs BoxModel AccModel AccProofs LgtModel LgtProofs.
Import ListNotations.
Open Scope R_scope.

(** An action controls the light of its type; with the fog or warning lights the two lights they consist of as well. *)
Theorem C71_lights : forall t is, SetVehicleLights t = Some is -> NoDup is /\ forall i, In i is <->
  (i = t \/ t = FOG_LIGHTS /\ (i = FOG_LIGHTS_FRONT \/ i = FOG_LIGHTS_REAR) \/ t = WARNING_LIGHTS /\ (i = INDICATOR_LEFT \/ i = INDICATOR_RIGHT)).
Proof.
  intros t is H. split; [exact (set_nodup _ _ H)|]. intro i. rewrite (set_spec _ _ H). unfold controlled.
  assert (B : (0 <= t < VEHICLE_LIGHT_SIZE)%Z).
  { destruct (Z_le_dec 0 t) as [A|A]; [destruct (Z_lt_dec t VEHICLE_LIGHT_SIZE) as [D|D]; [lia|]|]; exfalso;
    assert (E : SetVehicleLights t = None) by (apply set_none; lia); rewrite E in H; discriminate. }
  tauto.
Qed.
Example C71_lights_ex : SetVehicleLights WARNING_LIGHTS = Some [WARNING_LIGHTS; INDICATOR_LEFT; INDICATOR_RIGHT] /\ SetVehicleLights BRAKE_LIGHTS = Some [BRAKE_LIGHTS].
Proof. split; reflexivity. Qed.

(** It starts with every type there is ... *)
Theorem C71_starts : forall c d ls, (0 <= c_type c < VEHICLE_LIGHT_SIZE)%Z -> exists d' ls', Start c d ls = Some (d', ls').
Proof.
  intros c d ls B. unfold Start. destruct (set_some _ B) as [is ->]. cbv zeta. destruct (start_lights _ _ _ is) as [[col ls2] vs]. eexists. eexists. reflexivity.
Qed.
(** ... but without one, as read from a LightType with no VehicleLight inside, it writes outside of the lights of the vehicle. *)
Theorem C71_type_refuted : forall c d ls, c_type c = UNDEFINED -> Start c d ls = None.
Proof. intros c d ls E. unfold Start. rewrite E. reflexivity. Qed.

(** A transition: after the time [sum dts] the luminosity is that part of the way from what it was to what was asked for;
    the action ends once the transition time has passed, and not before, and then sets mode and colour. *)
Theorem C71_linear : forall c d0 ls0 d1 ls1 dts dt i, Start c d0 ls0 = Some (d1, ls1) -> c_mode c = M_ON \/ c_mode c = M_OFF ->
  SMALL_NUMBER <= c_T c -> Forall (Rle 0) dts -> sum (removelast dts) <= c_T c - SMALL_NUMBER -> sum dts <= c_T c + SMALL_NUMBER -> controlled (c_type c) i ->
  let s := Steps c (d1, ls1) dts in let r := Step c (fst s) (snd s) dt in
  l_lum (snd (fst r) i) = CLAMP (l_lum (ls0 i) + (target c d0 - l_lum (ls0 i)) * (sum dts / c_T c)) 0 MAX_INTENSITY_LUM /\
  (snd r = true <-> c_T c - SMALL_NUMBER < sum dts) /\
  (snd r = true -> l_mode (snd (fst r) i) = c_mode c /\ l_color (snd (fst r) i) = c_color c).
Proof. intros c d0 ls0 d1 ls1 dts dt i ST MO. exact (linear c d0 ls0 d1 ls1 ST MO dts dt i). Qed.

(** When a step falls on the end of the transition, the luminosity is exactly what was asked for. *)
Theorem C71_reached : forall c d0 ls0 d1 ls1 dts dt i, Start c d0 ls0 = Some (d1, ls1) -> c_mode c = M_ON \/ c_mode c = M_OFF ->
  SMALL_NUMBER <= c_T c -> Forall (Rle 0) dts -> sum (removelast dts) <= c_T c - SMALL_NUMBER -> sum dts = c_T c -> controlled (c_type c) i ->
  0 <= target c d0 <= MAX_INTENSITY_LUM ->
  let s := Steps c (d1, ls1) dts in let r := Step c (fst s) (snd s) dt in
  l_lum (snd (fst r) i) = target c d0 /\ snd r = true /\ l_mode (snd (fst r) i) = c_mode c.
Proof.
  intros c d0 ls0 d1 ls1 dts dt i ST MO TT NN SU EQ CO TA. cbv zeta. pose proof small_gt as SG.
  destruct (linear c d0 ls0 d1 ls1 ST MO dts dt i TT NN SU ltac:(lra) CO) as (A & B & C). cbv zeta in *.
  assert (E : snd (Step c (fst (Steps c (d1, ls1) dts)) (snd (Steps c (d1, ls1) dts)) dt) = true) by (apply B; lra).
  split; [|split; [exact E|apply (C E)]]. rewrite A, EQ. unfold way. replace (_ + _) with (target c d0) by (field; lra). apply clamp_in. exact TA.
Qed.

(** When none does, the action ends with the luminosity of the last step before the end; it misses by at most the part of the last step. *)
Theorem C71_late : forall c d0 ls0 d1 ls1 dts dt i, Start c d0 ls0 = Some (d1, ls1) -> c_mode c = M_ON \/ c_mode c = M_OFF ->
  SMALL_NUMBER <= c_T c -> Forall (Rle 0) dts -> sum (removelast dts) <= c_T c - SMALL_NUMBER -> c_T c + SMALL_NUMBER < sum dts -> controlled (c_type c) i ->
  0 <= l_lum (ls0 i) <= MAX_INTENSITY_LUM -> 0 <= target c d0 <= MAX_INTENSITY_LUM ->
  let s := Steps c (d1, ls1) dts in let r := Step c (fst s) (snd s) dt in
  l_lum (snd (fst r) i) = l_lum (ls0 i) + (target c d0 - l_lum (ls0 i)) * (sum (removelast dts) / c_T c) /\
  Rabs (target c d0 - l_lum (snd (fst r) i)) <= Rabs (target c d0 - l_lum (ls0 i)) * ((sum dts - sum (removelast dts)) / c_T c) /\
  snd r = true /\ l_mode (snd (fst r) i) = c_mode c.
Proof.
  intros c d0 ls0 d1 ls1 dts dt i ST MO TT NN SU IE CO LA TA. cbv zeta. pose proof small_gt as SG.
  destruct (late c d0 ls0 d1 ls1 ST MO dts dt i TT NN SU IE CO) as (A & B & C & _). cbv zeta in *.
  pose proof (butlast_nonneg dts NN) as BN.
  assert (P : 0 < / c_T c) by (apply Rinv_0_lt_compat; lra). assert (P1 : c_T c * / c_T c = 1) by (apply Rinv_r; lra).
  assert (F : 0 <= sum (removelast dts) / c_T c <= 1) by (unfold Rdiv; split; nra).
  rewrite clamp_in in A by (apply way_in; assumption).
  split; [exact A|]. split; [|split; [exact B|exact C]].
  rewrite A. unfold way. set (p := l_lum (ls0 i)). set (t := target c d0).
  replace (t - (p + (t - p) * (sum (removelast dts) / c_T c))) with ((t - p) * ((c_T c - sum (removelast dts)) / c_T c)) by (field; lra).
  rewrite Rabs_mult. apply Rmult_le_compat_l; [apply Rabs_pos|]. rewrite Rabs_right by (unfold Rdiv; nra). unfold Rdiv. nra.
Qed.

(** A light switched off in 1 s with steps of 0.3 s keeps a tenth of its luminosity, still emits - and is off. *)
Theorem C71_off_refuted : exists c d0 ls0 d1 ls1 dts dt, Start c d0 ls0 = Some (d1, ls1) /\ c_mode c = M_OFF /\ Forall (Rle 0) dts /\ c_T c < sum dts /\
  let r := Step c (fst (Steps c (d1, ls1) dts)) (snd (Steps c (d1, ls1) dts)) dt in
  let l := snd (fst r) BRAKE_LIGHTS in snd r = true /\ l_mode l = M_OFF /\ l_lum l = l_lum (ls0 BRAKE_LIGHTS) / 10 /\ 0 < l_lum l.
Proof.
  set (c := Cfg 1 (5 / 10) (5 / 10) BRAKE_LIGHTS M_OFF 0 false).
  set (d0 := Dyn 0 0 false 0 (Rgb 0 0 0) F_UNDEFINED [] false).
  set (ls0 := fun _ : Z => Light BRAKE_LIGHTS M_ON 0 6000 (Rgb 1 1 1) (Rgb 0 0 0) (Rgb 0 0 0) (Rgb 1 1 1) true).
  destruct (C71_starts c d0 ls0) as (d1 & ls1 & ST); [unfold c; cbn; unfold BRAKE_LIGHTS, VEHICLE_LIGHT_SIZE; lia|].
  exists c, d0, ls0, d1, ls1, [3 / 10; 3 / 10; 3 / 10; 3 / 10], (3 / 10).
  assert (NN : Forall (Rle 0) [3 / 10; 3 / 10; 3 / 10; 3 / 10]) by (repeat constructor; lra).
  split; [exact ST|]. split; [reflexivity|]. split; [exact NN|]. split; [cbn; lra|].
  destruct (C71_late c d0 ls0 d1 ls1 [3 / 10; 3 / 10; 3 / 10; 3 / 10] (3 / 10) BRAKE_LIGHTS ST (or_intror eq_refl)) as (A & _ & B & C).
  - unfold SMALL_NUMBER, c. cbn. lra.
  - exact NN.
  - unfold SMALL_NUMBER, c. cbn. lra.
  - unfold SMALL_NUMBER, c. cbn. lra.
  - unfold controlled, c, BRAKE_LIGHTS, VEHICLE_LIGHT_SIZE. cbn. lia.
  - unfold ls0, MAX_INTENSITY_LUM. cbn. lra.
  - unfold target, c, MAX_INTENSITY_LUM. cbn. lra.
  - cbv zeta in *. split; [exact B|]. split; [exact C|]. rewrite A. unfold target, ls0, c. cbn. split; lra.
Qed.

(** Without a transition time the first step does it all. *)
Theorem C71_instant : forall c d0 ls0 d1 ls1 dt i, Start c d0 ls0 = Some (d1, ls1) -> c_mode c = M_ON \/ c_mode c = M_OFF -> c_T c = 0 -> controlled (c_type c) i ->
  let r := Step c d1 ls1 dt in
  l_lum (snd (fst r) i) = CLAMP (target c d0) 0 MAX_INTENSITY_LUM /\ snd r = true /\ l_mode (snd (fst r) i) = c_mode c /\ l_color (snd (fst r) i) = c_color c.
Proof. intros c d0 ls0 d1 ls1 dt i ST MO. exact (instant c d0 ls0 d1 ls1 ST MO dt i). Qed.
Example C71_instant_ex : exists c d0 ls0 d1 ls1, Start c d0 ls0 = Some (d1, ls1) /\ c_T c = 0 /\ c_mode c = M_ON /\ target c d0 = 9000 /\ controlled (c_type c) (c_type c) /\
  l_lum (snd (fst (Step c d1 ls1 1)) (c_type c)) = 9000.
Proof.
  set (c := Cfg 0 (5 / 10) (5 / 10) BRAKE_LIGHTS M_ON 0 false).
  set (d0 := Dyn 0 0 true 9000 (Rgb 0 0 0) F_UNDEFINED [] false).
  set (ls0 := fun _ : Z => Light BRAKE_LIGHTS M_OFF 0 0 (Rgb 1 1 1) (Rgb 0 0 0) (Rgb 0 0 0) (Rgb 1 1 1) true).
  destruct (C71_starts c d0 ls0) as (d1 & ls1 & ST); [unfold c; cbn; unfold BRAKE_LIGHTS, VEHICLE_LIGHT_SIZE; lia|].
  assert (CO : controlled (c_type c) (c_type c)) by (unfold controlled, c, BRAKE_LIGHTS, VEHICLE_LIGHT_SIZE; cbn; lia).
  exists c, d0, ls0, d1, ls1. split; [exact ST|]. split; [reflexivity|]. split; [reflexivity|]. split; [reflexivity|]. split; [exact CO|].
  destruct (C71_instant c d0 ls0 d1 ls1 1 (c_type c) ST (or_introl eq_refl) eq_refl CO) as (A & _). cbv zeta in A. rewrite A. unfold target. cbn [c c_mode d0 d_lumSet d_lum].
  apply clamp_in. unfold MAX_INTENSITY_LUM. lra.
Qed.

(** With one that is not 0 but below 1e-6 the action ends at once and changes no luminosity. *)
Theorem C71_tiny_refuted : forall c d0 ls0 d1 ls1 dt i, Start c d0 ls0 = Some (d1, ls1) -> c_mode c = M_ON \/ c_mode c = M_OFF -> 0 < c_T c < SMALL_NUMBER -> controlled (c_type c) i ->
  0 <= l_lum (ls0 i) <= MAX_INTENSITY_LUM ->
  let r := Step c d1 ls1 dt in l_lum (snd (fst r) i) = l_lum (ls0 i) /\ snd r = true /\ l_mode (snd (fst r) i) = c_mode c.
Proof.
  intros c d0 ls0 d1 ls1 dt i ST MO TT CO LA. cbv zeta. pose proof small_gt as SG. destruct (mode_known c MO) as [K1 K2]. destruct (mode_flags c MO) as [F1 F2].
  destruct (start_spec _ _ _ _ _ ST) as (ND & IX & VS & A & B & _).
  destruct (run_has c d0 ls0 d1 ls1 ST [] i CO) as (v & INV & <-). cbn [Steps fold_left fst] in INV. destruct (VS v INV) as (PV & _ & _).
  assert (IN : inside c d1 = true) by (apply inside_true; lra). assert (FI : fin c d1 = true) by (apply fin_true; [exact B|lra]).
  rewrite step_ended, F1, F2, IN, FI, (step_in c d1 ls1 dt v ND INV). cbv zeta. rewrite IN, FI. split; [|split; reflexivity].
  cbn [SetVehicleLightState l_lum]. rewrite (next_lum c d1 v K2), (moved_trans c d1 v IN K1), factor_eq, A by lra. unfold way.
  replace (0 / c_T c) with 0 by (field; lra). rewrite Rmult_0_r, Rplus_0_r, PV. apply clamp_in. exact LA.
Qed.

(** A mode that is not known is no reason to leave the light alone: it goes dark. *)
Theorem C71_unknown_refuted : forall c d0 ls0 d1 ls1 dt i, Start c d0 ls0 = Some (d1, ls1) -> c_mode c = M_UNKNOWN -> 0 <= c_T c -> controlled (c_type c) i ->
  let r := Step c d1 ls1 dt in l_lum (snd (fst r) i) = 0 /\ l_emit (snd (fst r) i) = false /\ snd r = true.
Proof.
  intros c d0 ls0 d1 ls1 dt i ST MO TT CO. cbv zeta. pose proof small_gt as SG.
  destruct (start_spec _ _ _ _ _ ST) as (ND & IX & VS & A & B & _).
  destruct (run_has c d0 ls0 d1 ls1 ST [] i CO) as (v & INV & <-). cbn [Steps fold_left fst] in INV. destruct (VS v INV) as (_ & TR & _).
  assert (IN : inside c d1 = true) by (apply inside_true; lra).
  rewrite step_ended, (step_in c d1 ls1 dt v ND INV), IN, MO. cbn [mode_eqb negb andb]. rewrite andb_true_r, orb_true_r.
  assert (L : v_lum (next c d1 v) = 0).
  { rewrite next_lum by (rewrite MO; discriminate). unfold moved. rewrite IN, MO. exact TR. }
  rewrite L. match goal with |- context [SetVehicleLightState ?l 0] => destruct (dark l) as (D1 & _ & D2); cbv zeta in D1, D2 end.
  split; [exact D1|]. split; [exact D2|reflexivity].
Qed.

(** Flashing never ends, is on after the first step, and dark whenever it is in its off phase. *)
Theorem C71_flash_forever : forall c d ls dt, c_mode c = M_FLASHING -> snd (Step c d ls dt) = false.
Proof. intros c d ls dt FL. exact (flash_forever c FL d ls dt). Qed.
Theorem C71_flash_first : forall c d0 ls0 d1 ls1 dt, c_mode c = M_FLASHING -> Start c d0 ls0 = Some (d1, ls1) ->
  let d := fst (fst (Step c d1 ls1 dt)) in d_flash d = F_ON /\ d_ftimer d = dt.
Proof. intros c d0 ls0 d1 ls1 dt FL ST. exact (flash_first c FL d0 ls0 d1 ls1 dt ST). Qed.
Theorem C71_flash_dark : forall c d ls i, c_mode c = M_FLASHING -> reached c d ls -> d_flash d = F_OFF -> controlled (c_type c) i ->
  l_lum (ls i) = 0 /\ l_em (ls i) = Rgb 0 0 0 /\ l_emit (ls i) = false.
Proof. intros c d ls i FL. exact (flash_dark c FL d ls i). Qed.
(** Both phases keep all lights as they are while less than their duration has passed ... *)
Theorem C71_flash_phase : forall c d ls dts dur i, c_mode c = M_FLASHING -> reached c d ls ->
  d_flash d = F_ON /\ dur = c_on c \/ d_flash d = F_OFF /\ dur = c_off c -> Forall (Rle 0) dts ->
  dts = [] \/ d_ftimer d + sum (removelast dts) < dur - SMALL_NUMBER -> controlled (c_type c) i ->
  let s := Steps c (d, ls) dts in d_flash (fst s) = d_flash d /\ d_ftimer (fst s) = d_ftimer d + sum dts /\ l_lum (snd s i) = l_lum (ls i).
Proof. intros c d ls dts dur i FL. exact (phase_lights c FL d ls dts dur i). Qed.
(** ... and end with the first step after it. *)
Theorem C71_flash_off : forall c d ls dt i, c_mode c = M_FLASHING -> reached c d ls -> d_flash d = F_ON -> c_on c - SMALL_NUMBER <= d_ftimer d -> controlled (c_type c) i ->
  let r := Step c d ls dt in d_flash (fst (fst r)) = F_OFF /\ d_ftimer (fst (fst r)) = dt /\ l_lum (snd (fst r) i) = 0 /\ l_emit (snd (fst r) i) = false.
Proof. intros c d ls dt i FL. exact (turn_off c FL d ls dt i). Qed.
Theorem C71_flash_on : forall c d ls dt, c_mode c = M_FLASHING -> d_flash d = F_OFF -> c_off c - SMALL_NUMBER <= d_ftimer d ->
  let r := Step c d ls dt in d_flash (fst (fst r)) = F_ON /\ d_ftimer (fst (fst r)) = dt.
Proof. intros c d ls dt FL. exact (turn_on c FL d ls dt). Qed.
(** In the on phase without a transition time all lights of the action have what was asked for. *)
Theorem C71_flash_lit : forall c d0 ls0 d1 ls1 dts i, c_mode c = M_FLASHING -> c_T c = 0 -> Start c d0 ls0 = Some (d1, ls1) -> dts <> [] -> Forall (Rle 0) dts ->
  d_flash (fst (Steps c (d1, ls1) dts)) = F_ON -> controlled (c_type c) i ->
  l_lum (snd (Steps c (d1, ls1) dts) i) = CLAMP (target c d0) 0 MAX_INTENSITY_LUM.
Proof. intros c d0 ls0 d1 ls1 dts i FL. exact (flash_lit c FL d0 ls0 d1 ls1 dts i). Qed.
Example C71_flash_ex : exists c d ls, c_mode c = M_FLASHING /\ reached c d ls /\ d_flash d = F_ON /\ l_lum (ls INDICATOR_LEFT) = 6000 /\ l_lum (ls INDICATOR_RIGHT) = 6000 /\
  exists dts, d_flash (fst (Steps c (d, ls) dts)) = F_OFF.
Proof.
  set (c := Cfg 0 (5 / 10) (5 / 10) WARNING_LIGHTS M_FLASHING 0 false).
  set (d0 := Dyn 0 0 false 0 (Rgb 0 0 0) F_UNDEFINED [] false).
  set (ls0 := fun i : Z => Light i M_OFF 0 0 (Rgb 1 1 1) (Rgb 0 0 0) (Rgb 0 0 0) (Rgb 1 1 1) false).
  destruct (C71_starts c d0 ls0) as (d1 & ls1 & ST); [unfold c; cbn; unfold WARNING_LIGHTS, VEHICLE_LIGHT_SIZE; lia|].
  exists c, (fst (Steps c (d1, ls1) [5 / 10])), (snd (Steps c (d1, ls1) [5 / 10])).
  destruct (C71_flash_first c d0 ls0 d1 ls1 (5 / 10) eq_refl ST) as [F1 F2]. cbv zeta in F1, F2.
  assert (NN : Forall (Rle 0) [5 / 10]) by (repeat constructor; lra).
  assert (CL : controlled (c_type c) INDICATOR_LEFT) by (unfold controlled, c, INDICATOR_LEFT, INDICATOR_RIGHT, WARNING_LIGHTS, VEHICLE_LIGHT_SIZE; cbn; lia).
  assert (CR : controlled (c_type c) INDICATOR_RIGHT) by (unfold controlled, c, INDICATOR_LEFT, INDICATOR_RIGHT, WARNING_LIGHTS, VEHICLE_LIGHT_SIZE; cbn; lia).
  assert (RE : reached c (fst (Steps c (d1, ls1) [5 / 10])) (snd (Steps c (d1, ls1) [5 / 10]))).
  { exists d0, ls0, d1, ls1, [5 / 10]. split; [exact ST|]. split; [discriminate|apply surjective_pairing]. }
  assert (V : CLAMP (target c d0) 0 MAX_INTENSITY_LUM = 6000).
  { unfold target. cbn [c c_mode d0 d_lumSet]. unfold DEFAULT_LUMINOUS_INTENSITY. apply clamp_in. unfold MAX_INTENSITY_LUM. lra. }
  split; [reflexivity|]. split; [exact RE|]. split; [exact F1|].
  split; [rewrite <- V; apply (C71_flash_lit c d0 ls0 d1 ls1 [5 / 10]); try reflexivity; try assumption; discriminate|].
  split; [rewrite <- V; apply (C71_flash_lit c d0 ls0 d1 ls1 [5 / 10]); try reflexivity; try assumption; discriminate|].
  exists [1]. destruct (C71_flash_off c _ _ 1 INDICATOR_LEFT eq_refl RE F1) as (A & _); [|exact CL|exact A].
  change (d_ftimer (fst (Steps c (d1, ls1) [5 / 10]))) with (d_ftimer (fst (fst (Step c d1 ls1 (5 / 10))))). rewrite F2. unfold SMALL_NUMBER, c. cbn. lra.
Qed.

(** Of two actions not in conflict, one leaves the lights of the other alone; conflicts are mutual, and lights in common are one. *)
Theorem C71_conflict : forall a b, CheckConflictingLights a b = CheckConflictingLights b a /\ CheckConflictingLights a a = true /\
  forall i, controlled a i -> controlled b i -> CheckConflictingLights a b = true.
Proof.
  intros a b. split; [apply conflict_sym|]. split; [unfold CheckConflictingLights; rewrite Z.eqb_refl; reflexivity|]. intro i. apply conflict_shared.
Qed.
Theorem C71_isolated : forall c d0 ls0 d1 ls1 dts b i, Start c d0 ls0 = Some (d1, ls1) -> CheckConflictingLights (c_type c) b = false -> controlled b i ->
  l_type (ls0 (c_type c)) <> UNDEFINED -> snd (Steps c (d1, ls1) dts) i = ls0 i.
Proof.
  intros c d0 ls0 d1 ls1 dts b i ST C B TY. rewrite (steps_out c d0 ls0 d1 ls1 dts i ST).
  - exact (start_out c d0 ls0 d1 ls1 b i ST C B TY).
  - intro A. rewrite (conflict_shared _ _ _ A B) in C. discriminate.
Qed.
Example C71_isolated_ex : CheckConflictingLights BRAKE_LIGHTS INDICATOR_LEFT = false /\ CheckConflictingLights INDICATOR_RIGHT INDICATOR_LEFT = true /\ CheckConflictingLights FOG_LIGHTS FOG_LIGHTS_REAR = true.
Proof. repeat split; reflexivity. Qed.
(** Types are given to all lights by the first action that finds its own without. *)
Theorem C71_types : forall ls i, (0 <= i < VEHICLE_LIGHT_SIZE)%Z -> l_type (InitializeLights ls i) <> UNDEFINED.
Proof. exact init_types. Qed.

(** One indicator switches the other off - which then is off and has no emission, but is still said to emit light. *)
Theorem C71_stale_refuted : forall ls, l_mode (ls INDICATOR_RIGHT) = M_ON -> l_emit (ls INDICATOR_RIGHT) = true ->
  let ls' := HandleConflictingLights INDICATOR_LEFT ls in
  l_em (ls' INDICATOR_RIGHT) = Rgb 0 0 0 /\ GetObjectLightState ls' INDICATOR_RIGHT = Some (M_OFF, true) /\ l_lum (ls' INDICATOR_RIGHT) = l_lum (ls INDICATOR_RIGHT).
Proof.
  intros ls M E. cbv zeta. unfold GetObjectLightState, HandleConflictingLights, upd, ResetLight. cbv zeta. cbn. rewrite M. cbn. rewrite E. repeat split; reflexivity.
Qed.

(** Emission grows with the luminosity, from none with 0 to the maximum of the colour with 12000; a light with a bright enough blue
    channel - which is every light with a colour that is not itself bright, see C71_max - is said to emit with 1e-6 and more. *)
Theorem C71_emission : forall l a b, 0 <= a < b -> b <= MAX_INTENSITY_LUM -> 0 < ch_r (l_max l) -> ch_r (l_em (SetVehicleLightState l a)) < ch_r (l_em (SetVehicleLightState l b)).
Proof.
  intros l a b [A B] C M. rewrite !emission_eq by lra. unfold each. cbn [ch_r]. apply Rmult_lt_compat_l; [exact M|]. apply pow_mono; [lra|].
  unfold MAX_INTENSITY_LUM in *. lra.
Qed.
Theorem C71_full : forall l, l_em (SetVehicleLightState l MAX_INTENSITY_LUM) = l_max l /\ l_em (SetVehicleLightState l 0) = Rgb 0 0 0 /\ l_emit (SetVehicleLightState l 0) = false.
Proof.
  intro l. split; [|apply dark]. rewrite emission_eq by (unfold MAX_INTENSITY_LUM; lra). replace (MAX_INTENSITY_LUM / MAX_INTENSITY_LUM) with 1 by (unfold MAX_INTENSITY_LUM; lra).
  rewrite pow_1. destruct (l_max l) as [r g b]. unfold each. cbn [ch_r ch_g ch_b]. rewrite !Rmult_1_r. reflexivity.
Qed.
Theorem C71_emits : forall l lum, 6 / 10 <= ch_b (l_max l) -> SMALL_NUMBER <= lum -> l_emit (SetVehicleLightState l lum) = true.
Proof. exact lit_emits. Qed.
Theorem C71_clamped : forall l lum, 0 <= l_lum (SetVehicleLightState l lum) <= MAX_INTENSITY_LUM /\ (0 <= lum <= MAX_INTENSITY_LUM -> l_lum (SetVehicleLightState l lum) = lum).
Proof.
  intros l lum. unfold SetVehicleLightState. cbv zeta. cbn [l_lum]. split; [apply clamp_range; unfold MAX_INTENSITY_LUM; lra|]. apply clamp_in.
Qed.

(** Only the last of the three channels decides about that, not any of them. *)
Theorem C71_any_refuted : exists l lum, let l' := SetVehicleLightState l lum in ch_r (l_em l') = 1 /\ l_emit l' = false.
Proof.
  exists (Light BRAKE_LIGHTS M_ON 0 0 (Rgb 0 0 0) (Rgb 0 0 0) (Rgb 0 0 0) (Rgb 1 0 0) false), MAX_INTENSITY_LUM. cbv zeta.
  pose proof (C71_full (Light BRAKE_LIGHTS M_ON 0 0 (Rgb 0 0 0) (Rgb 0 0 0) (Rgb 0 0 0) (Rgb 1 0 0) false)) as (E & _).
  rewrite E. split; [reflexivity|]. destruct (l_emit _) eqn:X; [|reflexivity]. apply emit_spec in X. rewrite E in X. cbn in X. lra.
Qed.

(** The dim colour is the given one, scaled down to at most 0.25; the full one has channels from 0.6 to 1. *)
Theorem C71_min : forall base old, unit_rgb base ->
  exists s, 0 < s <= 1 /\ fst (GetRgbMinMaxColor base old) = each (fun c => c * s) base /\
    (ch_r base <= 25 / 100 -> ch_g base <= 25 / 100 -> ch_b base <= 25 / 100 -> s = 1) /\
    ch_r base * s <= 25 / 100 /\ ch_g base * s <= 25 / 100 /\ ch_b base * s <= 25 / 100.
Proof. exact min_spec. Qed.
Theorem C71_max : forall base old, unit_rgb base -> ~ bright base -> let m := snd (GetRgbMinMaxColor base old) in
  6 / 10 <= ch_r m <= 1 /\ 6 / 10 <= ch_g m <= 1 /\ 6 / 10 <= ch_b m <= 1.
Proof. exact max_spec. Qed.
Example C71_max_ex : unit_rgb (Rgb (5 / 10) 0 0) /\ ~ bright (Rgb (5 / 10) 0 0).
Proof. unfold unit_rgb, bright. cbn. split; [|intros (A & _)]; lra. Qed.
Theorem C71_cmyk : forall c m y k, 0 <= c <= 1 -> 0 <= m <= 1 -> 0 <= y <= 1 -> 0 <= k <= 1 -> unit_rgb (CmykToRgb c m y k) /\ CmykToRgb c m y 1 = Rgb 0 0 0 /\ CmykToRgb 0 0 0 0 = Rgb 1 1 1.
Proof. intros c m y k C M Y K. unfold unit_rgb, CmykToRgb. cbn [ch_r ch_g ch_b]. split; [repeat split; nra|]. split; f_equal; ring. Qed.
Theorem C71_colour : forall c d0 ls0 d1 ls1 dt i, Start c d0 ls0 = Some (d1, ls1) -> c_T c = 0 -> c_colorSet c = true -> controlled (c_type c) i ->
  let l := snd (fst (Step c d1 ls1 dt)) i in (l_rgb l, l_max l) = GetRgbMinMaxColor (d_rgb d0) minus_one.
Proof. exact colour. Qed.

(** With a colour all channels of which are bright, but not equal, the maximum is never written: the light shines negatively and is said not to emit. *)
Theorem C71_bright_refuted : forall c d0 ls0 d1 ls1 dt i, Start c d0 ls0 = Some (d1, ls1) -> c_T c = 0 -> c_colorSet c = true -> c_mode c = M_ON -> controlled (c_type c) i ->
  bright (d_rgb d0) -> target c d0 = MAX_INTENSITY_LUM ->
  let l := snd (fst (Step c d1 ls1 dt)) i in l_lum l = MAX_INTENSITY_LUM /\ l_em l = Rgb (-1) (-1) (-1) /\ l_emit l = false.
Proof.
  intros c d0 ls0 d1 ls1 dt i ST TT CS MO CO BR TA. cbv zeta.
  pose proof (colour c d0 ls0 d1 ls1 dt i ST TT CS CO) as CL. cbv zeta in CL. apply (f_equal snd) in CL. cbn [snd] in CL. rewrite (max_bright _ _ BR) in CL.
  destruct (instant c d0 ls0 d1 ls1 ST (or_introl MO) dt i TT CO) as (A & _). cbv zeta in A. rewrite TA in A.
  rewrite clamp_in in A by (unfold MAX_INTENSITY_LUM; lra). split; [exact A|].
  destruct (run_has c d0 ls0 d1 ls1 ST [] i CO) as (v & INV & <-). cbn [Steps fold_left fst] in INV.
  destruct (start_spec _ _ _ _ _ ST) as (ND & _).
  rewrite (step_in c d1 ls1 dt v ND INV) in *. cbv zeta in *.
  match type of CL with l_max (SetVehicleLightState ?l0 ?x0) = _ => set (l := l0) in *; set (x := x0) in * end.
  assert (M : l_max l = minus_one) by exact CL.
  assert (E : l_em (SetVehicleLightState l x) = Rgb (-1) (-1) (-1)).
  { unfold SetVehicleLightState in A |- *. cbv zeta in *. cbn [l_lum l_em] in *. rewrite A. replace (MAX_INTENSITY_LUM / MAX_INTENSITY_LUM) with 1 by (unfold MAX_INTENSITY_LUM; lra).
    rewrite pow_1, M. unfold each, minus_one. cbn [ch_r ch_g ch_b]. f_equal; ring. }
  split; [exact E|]. destruct (l_emit (SetVehicleLightState l x)) eqn:X; [|reflexivity]. apply emit_spec in X. rewrite E in X. cbn [ch_b] in X. lra.
Qed.
Example C71_bright_ex : bright (Rgb (7 / 10) (8 / 10) (9 / 10)).
Proof. unfold bright. cbn. repeat split; try lra. Qed.

(** What else a start resets: a part of the fog lights the light for all of them, an indicator the warning lights and, unless its mode is unknown, the other one. *)
Theorem C71_resets : forall t ls i,
  let ls' := HandleConflictingLights t ls in
  ((t = FOG_LIGHTS_FRONT \/ t = FOG_LIGHTS_REAR) /\ i = FOG_LIGHTS \/ (t = INDICATOR_LEFT \/ t = INDICATOR_RIGHT) /\ i = WARNING_LIGHTS -> l_mode (ls' i) = M_UNKNOWN /\ l_em (ls' i) = Rgb 0 0 0) /\
  (t = INDICATOR_LEFT /\ i = INDICATOR_RIGHT \/ t = INDICATOR_RIGHT /\ i = INDICATOR_LEFT ->
     (l_mode (ls i) = M_UNKNOWN -> ls' i = ls i) /\ (l_mode (ls i) <> M_UNKNOWN -> l_mode (ls' i) = M_OFF /\ l_em (ls' i) = Rgb 0 0 0)).
Proof.
  intros t ls i. cbv zeta. split.
  - intros [[[-> | ->] ->]|[[-> | ->] ->]]; unfold HandleConflictingLights; cbv zeta; cbn; try (split; reflexivity);
    match goal with |- context [mode_eqb ?a ?b] => destruct (mode_eqb a b) end; split; reflexivity.
  - intros [[-> ->]|[-> ->]]; unfold HandleConflictingLights; cbv zeta; cbn; (split; intro H; [rewrite H; reflexivity|]);
    match goal with |- context [mode_eqb ?a ?b] => destruct a eqn:M end; cbn; try (split; reflexivity); contradiction.
Qed.
Example C71_resets_ex : forall ls, l_mode (ls INDICATOR_LEFT) = M_FLASHING -> l_mode (HandleConflictingLights INDICATOR_RIGHT ls INDICATOR_LEFT) = M_OFF.
Proof. intros ls H. apply C71_resets; [right; split; reflexivity|]. rewrite H. discriminate. Qed.

(** What the user is told: the mode, and that light is emitted - with fog and warning lights if both of their lights do. *)
Theorem C71_state : forall ls t, (0 <= t < VEHICLE_LIGHT_SIZE)%Z -> exists e, GetObjectLightState ls t = Some (l_mode (ls t), e) /\
  (t = FOG_LIGHTS -> (e = true <-> l_emit (ls FOG_LIGHTS_FRONT) = true /\ l_emit (ls FOG_LIGHTS_REAR) = true)) /\
  (t = WARNING_LIGHTS -> (e = true <-> l_emit (ls INDICATOR_LEFT) = true /\ l_emit (ls INDICATOR_RIGHT) = true)) /\
  (t <> FOG_LIGHTS -> t <> WARNING_LIGHTS -> e = l_emit (ls t)).
Proof.
  intros ls t [B1 B2]. unfold GetObjectLightState. rewrite (proj2 (Z.leb_le _ _) B1), (proj2 (Z.ltb_lt _ _) B2). cbn [andb].
  eexists. split; [reflexivity|]. split; [intros ->; apply andb_true_iff|]. split; [intros ->; apply andb_true_iff|].
  intros N1 N2. rewrite (proj2 (Z.eqb_neq _ _) N1), (proj2 (Z.eqb_neq _ _) N2). reflexivity.
Qed.
Example C71_state_ex : forall ls, l_emit (ls INDICATOR_LEFT) = true -> l_emit (ls INDICATOR_RIGHT) = false -> GetObjectLightState ls WARNING_LIGHTS = Some (l_mode (ls WARNING_LIGHTS), false).
Proof. intros ls A B. unfold GetObjectLightState. cbn. unfold INDICATOR_LEFT, INDICATOR_RIGHT in *. rewrite A, B. reflexivity. Qed.

(** A light without a type gets that of its place, no emission, and colours by its type. *)
Theorem C71_init : forall ls i, (0 <= i < VEHICLE_LIGHT_SIZE)%Z -> let l := InitializeLights ls i in
  (l_type (ls i) <> UNDEFINED -> l = ls i) /\
  (l_type (ls i) = UNDEFINED -> l_type l = i /\ l_mode l = M_UNKNOWN /\ l_em l = Rgb 0 0 0 /\ l_base l = SetRgbFromTypeEnum i (l_base (ls i)) /\ (l_rgb l, l_max l) = GetRgbMinMaxColor (l_base l) (l_max (ls i))).
Proof.
  intros ls i [B1 B2]. cbv zeta. unfold InitializeLights. cbv zeta. rewrite (proj2 (Z.leb_le _ _) B1), (proj2 (Z.ltb_lt _ _) B2). cbn [andb]. split; intro H.
  - rewrite (proj2 (Z.eqb_neq _ _) H). reflexivity.
  - rewrite H, Z.eqb_refl. destruct (GetRgbMinMaxColor _ _) as [mn mx] eqn:G. cbn [l_type l_mode l_em l_base l_rgb l_max]. rewrite G. repeat split; reflexivity.
Qed.
(** The colours by type: red at the back, amber for the indicators, else white or blue; never a bright one. *)
Theorem C71_type_colour : forall i, (0 <= i < VEHICLE_LIGHT_SIZE)%Z -> let x := SetRgbFromTypeEnum i (Rgb 0 0 0) in unit_rgb x /\ ~ bright x /\
  (i = BRAKE_LIGHTS \/ i = FOG_LIGHTS_REAR -> 0 < ch_r x /\ ch_g x = 0 /\ ch_b x = 0) /\ (i = INDICATOR_LEFT \/ i = INDICATOR_RIGHT -> ch_b x < ch_g x < ch_r x) /\
  (i = FOG_LIGHTS_FRONT \/ (0 <= i <= 2)%Z -> 0 < ch_r x /\ ch_r x = ch_g x /\ ch_g x = ch_b x).
Proof.
  intros i B. cbv zeta. unfold SetRgbFromTypeEnum, BRAKE_LIGHTS, FOG_LIGHTS_REAR, FOG_LIGHTS_FRONT, INDICATOR_LEFT, INDICATOR_RIGHT, SPECIAL_PURPOSE_LIGHTS, VEHICLE_LIGHT_SIZE in *.
  assert (D : (i = 0 \/ i = 1 \/ i = 2 \/ i = 3 \/ i = 4 \/ i = 5 \/ i = 6 \/ i = 7 \/ i = 8 \/ i = 9 \/ i = 10 \/ i = 11 \/ i = 12 \/ i = 13)%Z) by lia.
  repeat (destruct D as [-> | D]); [..|subst i]; cbn -[Rdiv]; unfold unit_rgb, bright; cbn [ch_r ch_g ch_b];
  (split; [repeat split; lra|]; split; [intros (X1 & X2 & X3 & X4); try lra; apply X4; lra|]; split; [intros [X|X]; try discriminate X; repeat split; lra|];
   split; [intros [X|X]; try discriminate X; lra|]; intros [X|X]; try discriminate X; try lia; repeat split; lra).
Qed.

Print Assumptions C71_lights.
Print Assumptions C71_starts.
Print Assumptions C71_type_refuted.
Print Assumptions C71_linear.
Print Assumptions C71_reached.
Print Assumptions C71_late.
Print Assumptions C71_off_refuted.
Print Assumptions C71_instant.
Print Assumptions C71_tiny_refuted.
Print Assumptions C71_unknown_refuted.
Print Assumptions C71_flash_forever.
Print Assumptions C71_flash_first.
Print Assumptions C71_flash_dark.
Print Assumptions C71_flash_phase.
Print Assumptions C71_flash_off.
Print Assumptions C71_flash_on.
Print Assumptions C71_flash_lit.
Print Assumptions C71_conflict.
Print Assumptions C71_isolated.
Print Assumptions C71_types.
Print Assumptions C71_stale_refuted.
Print Assumptions C71_emission.
Print Assumptions C71_full.
Print Assumptions C71_emits.
Print Assumptions C71_clamped.
Print Assumptions C71_any_refuted.
Print Assumptions C71_min.
Print Assumptions C71_max.
Print Assumptions C71_cmyk.
Print Assumptions C71_colour.
Print Assumptions C71_bright_refuted.
Print Assumptions C71_resets.
Print Assumptions C71_state.
Print Assumptions C71_init.
Print Assumptions C71_type_colour.
