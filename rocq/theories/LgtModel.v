(** * The lights of a vehicle and the action that sets them (LightStateAction)

    [double] is idealised as [R]. OT = EnvironmentSimulator/Modules/ScenarioEngine/OSCTypeDefs,
    SE = EnvironmentSimulator/Modules/ScenarioEngine/SourceFiles, CM = EnvironmentSimulator/Modules/CommonMini,
    LI = EnvironmentSimulator/Libraries/esminiLib. *)
From Coq Require Import Reals Bool List ZArith.
From Verif Require Import AngModel BoxModel AccModel.
Import ListNotations.
Open Scope R_scope.

(** Three channels of a colour, an array of double[3], SE/Entities.hpp:190-193. *)
Record rgb := Rgb { ch_r : R; ch_g : R; ch_b : R }.
(** A loop over the three channels of one colour, e.g. OT/OSCPrivateAction.cpp:3130-3136, or of two, e.g. 3281-3287. *)
Definition each (f : R -> R) (x : rgb) : rgb := Rgb (f (ch_r x)) (f (ch_g x)) (f (ch_b x)).
Definition each2 (f : R -> R -> R) (x y : rgb) : rgb :=
  Rgb (f (ch_r x) (ch_r y)) (f (ch_g x) (ch_g y)) (f (ch_b x) (ch_b y)).

(** pow of <cmath> as called in OT/OSCPrivateAction.cpp:3136 and CM/CommonMini.cpp:1382: bases of at least 0 and an exponent above 0
    (a base below 0 gives NaN, which is not modelled). *)
Definition pow_ (x k : R) : R := if Req_EM_T x 0 then 0 else Rpower x k.

(** VehicleLightType, SE/Entities.hpp:140-158: the numbers used below. *)
Definition UNDEFINED : Z := -1.
Definition FOG_LIGHTS : Z := 3.
Definition FOG_LIGHTS_FRONT : Z := 4.
Definition FOG_LIGHTS_REAR : Z := 5.
Definition BRAKE_LIGHTS : Z := 6.
Definition WARNING_LIGHTS : Z := 7.
Definition INDICATOR_LEFT : Z := 8.
Definition INDICATOR_RIGHT : Z := 9.
Definition SPECIAL_PURPOSE_LIGHTS : Z := 13.
Definition VEHICLE_LIGHT_SIZE : Z := 14.

(** VehicleLightMode, SE/Entities.hpp:160-166. *)
Inductive lmode := M_OFF | M_ON | M_FLASHING | M_UNKNOWN.
(** The comparison of two of them by == in C++, e.g. OT/OSCPrivateAction.cpp:3173. *)
Definition mode_eqb (a b : lmode) : bool :=
  match a, b with
  | M_OFF, M_OFF | M_ON, M_ON | M_FLASHING, M_FLASHING | M_UNKNOWN, M_UNKNOWN => true
  | _, _ => false
  end.

(** VehicleLightStatus, SE/Entities.hpp:184-197; the colour by its number. *)
Record light := Light { l_type : Z; l_mode : lmode; l_color : nat; l_lum : R; l_em : rgb; l_rgb : rgb; l_base : rgb; l_max : rgb; l_emit : bool }.

(** vehLghtStsList, SE/Entities.hpp:199: indices from 0 below VEHICLE_LIGHT_SIZE; and a write to it. *)
Definition lights := Z -> light.
Definition upd (ls : lights) (i : Z) (f : light -> light) : lights := fun j => if (j =? i)%Z then f (ls j) else ls j.

(** VehicleLightState, OT/OSCPrivateAction.hpp:1638-1649: [v_idx] is the index vehicleLight_ points to; previousMode_ is not used. *)
Record vstate := VState { v_idx : Z; v_min : rgb; v_max : rgb; v_pmin : rgb; v_pmax : rgb; v_lum : R; v_prev : R; v_trans : R }.
(** The same as constructed, OT/OSCPrivateAction.hpp:1640-1648. *)
Definition minus_one : rgb := Rgb (-1) (-1) (-1).
Definition new_vstate (i : Z) : vstate := VState i minus_one minus_one minus_one minus_one 0 0 0.

(** FlashingStatus, OT/OSCPrivateAction.hpp:1490-1495. *)
Inductive flash := F_OFF | F_ON | F_UNDEFINED.

(** The members of LightStateAction which an execution does not change, OT/OSCPrivateAction.hpp:1651-1667:
    transitionTime_, flashingOffDuration_, flashingOnDuration_, colorSet_ and type, mode, color of actionVehicleLightStatus_. *)
Record cfg := Cfg { c_T : R; c_off : R; c_on : R; c_type : Z; c_mode : lmode; c_color : nat; c_colorSet : bool }.
(** Those it changes, OT/OSCPrivateAction.hpp:1651-1667: transitionTimer_, flashingTimer_, luminousitySet_, flashStatus_, vehicleLights_,
    transitioned_, and luminousIntensity, rgb of actionVehicleLightStatus_. *)
Record dyn := Dyn { d_timer : R; d_ftimer : R; d_lumSet : bool; d_lum : R; d_rgb : rgb; d_flash : flash; d_vs : list vstate; d_done : bool }.

(** DEFAULT_LUMINOUS_INTENSITY_, OT/OSCPrivateAction.hpp:1478; MAX_INTENSITY_LUM, CM/CommonMini.hpp:76. *)
Definition DEFAULT_LUMINOUS_INTENSITY : R := 6000.
Definition MAX_INTENSITY_LUM : R := 12000.

(** SetVehicleLightState, OT/OSCPrivateAction.cpp:3126-3152; emitting is written once per channel, 3138-3146. *)
Definition SetVehicleLightState (l : light) (lum : R) : light :=
  let lum := CLAMP lum 0 MAX_INTENSITY_LUM in
  let x := lum / MAX_INTENSITY_LUM in
  let em := each (fun m => m * pow_ x (1 / 4)) (l_max l) in
  let emit := fold_left (fun _ e => Rltb (1 / 1000) e) [ch_r em; ch_g em; ch_b em] (l_emit l) in
  Light (l_type l) (l_mode l) (l_color l) lum em (l_rgb l) (l_base l) (l_max l) emit.

(** GetRgbMinMaxColor, CM/CommonMini.cpp:1299-1387, with what maxRgb held before; max_element and min_element always find an element. *)
Definition GetRgbMinMaxColor (base maxOld : rgb) : rgb * rgb :=
  let MAX_RGB := 6 / 10 in
  let MIN_RGB := 25 / 100 in
  let '(Rgb r g b) := base in
  match Req_EM_T r g, Req_EM_T g b with
  | left _, left _ =>
      (if Rltb MIN_RGB r then Rgb MIN_RGB MIN_RGB MIN_RGB else Rgb r g b,
       if Rltb r MAX_RGB then Rgb 1 1 1 else Rgb r g b)
  | _, _ =>
      let max_val := MAX (MAX r g) b in
      let min_val := MIN (MIN r g) b in
      let down := if Rltb MIN_RGB max_val then MIN_RGB / max_val else 1 in
      (each (fun c => c * down) base,
       if Rltb min_val MAX_RGB then each (fun c => CLAMP (pow_ (c / max_val) (15 / 100)) MAX_RGB 1) base else maxOld)
  end.

(** CmykToRgb, OT/OSCPrivateAction.cpp:3467-3472. *)
Definition CmykToRgb (c m y k : R) : rgb := Rgb ((1 - c) * (1 - k)) ((1 - m) * (1 - k)) ((1 - y) * (1 - k)).

(** SetRgbFromTypeEnum, OT/OSCPrivateAction.cpp:3512-3555. *)
Definition SetRgbFromTypeEnum (t : Z) (arr : rgb) : rgb :=
  if (t =? 0)%Z || (t =? 1)%Z || (t =? 2)%Z || (t =? 10)%Z || (t =? 11)%Z || (t =? 12)%Z then Rgb (5 / 10) (5 / 10) (5 / 10)
  else if (t =? FOG_LIGHTS_FRONT)%Z then Rgb (8 / 10) (8 / 10) (8 / 10)
  else if (t =? FOG_LIGHTS_REAR)%Z then Rgb (6 / 10) 0 0
  else if (t =? BRAKE_LIGHTS)%Z then Rgb (5 / 10) 0 0
  else if (t =? INDICATOR_LEFT)%Z || (t =? INDICATOR_RIGHT)%Z then Rgb (5 / 10) (375 / 1000) 0
  else if (t =? SPECIAL_PURPOSE_LIGHTS)%Z then Rgb (3 / 10) (3 / 10) (5 / 10)
  else arr.

(** ResetLight, OT/OSCPrivateAction.cpp:3374-3380. *)
Definition ResetLight (m : lmode) (l : light) : light :=
  Light (l_type l) m (l_color l) (l_lum l) (Rgb 0 0 0) (l_rgb l) (l_base l) (l_max l) (l_emit l).

(** InitializeLights, OT/OSCPrivateAction.cpp:3411-3429. *)
Definition InitializeLights (ls : lights) : lights := fun i =>
  let l := ls i in
  if ((0 <=? i) && (i <? VEHICLE_LIGHT_SIZE))%Z && (l_type l =? UNDEFINED)%Z then
    let base := SetRgbFromTypeEnum i (l_base l) in
    let '(mn, mx) := GetRgbMinMaxColor base (l_max l) in
    Light i M_UNKNOWN (l_color l) (l_lum l) (Rgb 0 0 0) mn base mx (l_emit l)
  else l.

(** SetVehicleLights, OT/OSCPrivateAction.cpp:3557-3591: the lights of the action by their indices; [None]: outside of vehLghtStsList. *)
Definition SetVehicleLights (t : Z) : option (list Z) :=
  if ((0 <=? t) && (t <? VEHICLE_LIGHT_SIZE))%Z then
    if (t =? FOG_LIGHTS)%Z then Some [t; (t + 1)%Z; (t + 2)%Z]
    else if (t =? WARNING_LIGHTS)%Z then Some [t; (t + 1)%Z; (t + 2)%Z]
    else Some [t]
  else None.

(** HandleConflictingLights, OT/OSCPrivateAction.cpp:3345-3372. *)
Definition HandleConflictingLights (t : Z) (ls : lights) : lights :=
  let off j ls := if mode_eqb (l_mode (ls j)) M_UNKNOWN then ls else upd ls j (ResetLight M_OFF) in
  if (t =? FOG_LIGHTS_FRONT)%Z || (t =? FOG_LIGHTS_REAR)%Z then upd ls FOG_LIGHTS (ResetLight M_UNKNOWN)
  else if (t =? INDICATOR_LEFT)%Z then off INDICATOR_RIGHT (upd ls WARNING_LIGHTS (ResetLight M_UNKNOWN))
  else if (t =? INDICATOR_RIGHT)%Z then off INDICATOR_LEFT (upd ls WARNING_LIGHTS (ResetLight M_UNKNOWN))
  else ls.

(** CheckConflictingLights, OT/OSCPrivateAction.cpp:3390-3409. *)
Definition CheckConflictingLights (mine t : Z) : bool :=
  let flashing t := (t =? WARNING_LIGHTS)%Z || (t =? INDICATOR_LEFT)%Z || (t =? INDICATOR_RIGHT)%Z in
  let fog t := (t =? FOG_LIGHTS)%Z in
  let fog_part t := (t =? FOG_LIGHTS_FRONT)%Z || (t =? FOG_LIGHTS_REAR)%Z in
  (mine =? t)%Z || (flashing mine && flashing t) || ((fog mine && fog_part t) || (fog t && fog_part mine)).

(** The body of the loop over the lights in Start, OT/OSCPrivateAction.cpp:3169-3202: rgb of the action, lights, state of the light. *)
Definition start_light (c : cfg) (col : rgb) (ls : lights) (i : Z) : rgb * lights * vstate :=
  let ls := if mode_eqb (c_mode c) M_FLASHING && mode_eqb (l_mode (ls i)) M_ON then upd ls i (ResetLight M_UNKNOWN) else ls in
  let l := ls i in
  let col := if c_colorSet c then col else l_base l in
  let '(mn, mx) := GetRgbMinMaxColor col minus_one in
  (col,
   upd ls i (fun l => Light (l_type l) (l_mode l) (l_color l) (l_lum l) (l_em l) mn (l_base l) mx (l_emit l)),
   VState i mn mx (l_rgb l) (l_max l) 0 (l_lum l) 0).

(** The loop, OT/OSCPrivateAction.cpp:3169-3202. *)
Fixpoint start_lights (c : cfg) (col : rgb) (ls : lights) (is : list Z) : rgb * lights * list vstate :=
  match is with
  | [] => (col, ls, [])
  | i :: is =>
      let '(col, ls, v) := start_light c col ls i in
      let '(col, ls, vs) := start_lights c col ls is in
      (col, ls, v :: vs)
  end.

(** Start, OT/OSCPrivateAction.cpp:3154-3205, with SetInitState, 3382-3388. *)
Definition Start (c : cfg) (d : dyn) (ls : lights) : option (dyn * lights) :=
  match SetVehicleLights (c_type c) with
  | None => None
  | Some is =>
      let ls := if (l_type (ls (c_type c)) =? UNDEFINED)%Z then InitializeLights ls else ls in
      let ls := HandleConflictingLights (c_type c) ls in
      let '(col, ls, vs) := start_lights c (d_rgb d) ls is in
      let fl := mode_eqb (c_mode c) M_FLASHING in
      Some (Dyn 0 (if fl then c_off c else 0) (d_lumSet d) (d_lum d) col (if fl then F_OFF else d_flash d) vs false, ls)
  end.

(** The luminosity between before and after, OT/OSCPrivateAction.cpp:3243-3276 (nothing is written with an unknown mode). *)
Definition transition (m : lmode) (lum factor : R) (v : vstate) : vstate :=
  let set x := VState (v_idx v) (v_min v) (v_max v) (v_pmin v) (v_pmax v) (v_lum v) (v_prev v) x in
  match m with
  | M_ON | M_FLASHING => set (v_prev v + (lum - v_prev v) * factor)
  | M_OFF => set (v_prev v - v_prev v * factor)
  | M_UNKNOWN => v
  end.
(** A write to luminousIntensity_, OT/OSCPrivateAction.cpp:3299, 3309 and 3321. *)
Definition set_lum (f : vstate -> R) (v : vstate) : vstate :=
  VState (v_idx v) (v_min v) (v_max v) (v_pmin v) (v_pmax v) (f v) (v_prev v) (v_trans v).

(** Step, OT/OSCPrivateAction.cpp:3207-3338, with whether the action ends. NEAR_NUMBERS, CM/CommonMini.hpp:65, is of doubles.
    The first round of the loop sets the missing luminosity, 3247-3251, 3262-3266; there is always a first round. *)
Definition Step (c : cfg) (d : dyn) (ls : lights) (dt : R) : dyn * lights * bool :=
  let instant := Rltb (Rabs (c_T c - 0)) SMALL_NUMBER in
  let fin := (instant || Rltb (c_T c - SMALL_NUMBER) (d_timer d)) && negb (d_done d) in
  let ended := fin && negb (mode_eqb (c_mode c) M_FLASHING) in
  let ls := if fin
            then fold_left (fun ls v => upd ls (v_idx v) (fun l =>
                   Light (l_type l) (c_mode c) (c_color c) (l_lum l) (l_em l) (l_rgb l) (l_base l) (l_max l) (l_emit l))) (d_vs d) ls
            else ls in
  let inside := negb (Rltb (c_T c + SMALL_NUMBER) (d_timer d)) in
  let factor := if Req_EM_T (c_T c) 0 then 1 else d_timer d / c_T c in
  let missing := inside && (mode_eqb (c_mode c) M_ON || mode_eqb (c_mode c) M_FLASHING) && negb (d_lumSet d) in
  let lum := if missing then DEFAULT_LUMINOUS_INTENSITY else d_lum d in
  let vs := if inside then map (transition (c_mode c) lum factor) (d_vs d) else d_vs d in
  let ended := ended || (inside && mode_eqb (c_mode c) M_UNKNOWN) in
  let between a b := a + (b - a) * factor in
  let ls := if inside
            then fold_left (fun ls v => upd ls (v_idx v) (fun l =>
                   Light (l_type l) (l_mode l) (l_color l) (l_lum l) (l_em l) (each2 between (v_pmin v) (v_min v)) (l_base l)
                         (each2 between (v_pmax v) (v_max v)) (l_emit l))) vs ls
            else ls in
  let timer := if inside then d_timer d + dt else d_timer d in
  let '(vs, ftimer, fl) :=
    if mode_eqb (c_mode c) M_FLASHING then
      let '(vs, ftimer, fl) :=
        match d_flash d with
        | F_OFF => if negb (Rltb (d_ftimer d) (c_off c - SMALL_NUMBER)) then (map (set_lum v_trans) vs, 0, F_ON) else (vs, d_ftimer d, F_OFF)
        | F_ON => if negb (Rltb (d_ftimer d) (c_on c - SMALL_NUMBER)) then (map (set_lum (fun _ => 0)) vs, 0, F_OFF) else (vs, d_ftimer d, F_ON)
        | F_UNDEFINED => (vs, d_ftimer d, F_UNDEFINED)
        end in
      (vs, ftimer + dt, fl)
    else (map (set_lum v_trans) vs, d_ftimer d, d_flash d) in
  let ls := fold_left (fun ls v => upd ls (v_idx v) (fun l => SetVehicleLightState l (v_lum v))) vs ls in
  (Dyn timer ftimer (d_lumSet d || missing) lum (d_rgb d) fl vs (d_done d || fin), ls, ended).

(** Steps one after the other, with time steps [dts]: the calls of Step by the storyboard, SE/Storyboard.cpp (C01). *)
Definition Steps (c : cfg) (s : dyn * lights) (dts : list R) : dyn * lights :=
  fold_left (fun s dt => fst (Step c (fst s) (snd s) dt)) dts s.

(** SE_GetObjectLightState, LI/esminiLib.cpp:1468-1497, of an existing object: emitting; [None]: outside of vehLghtStsList. *)
Definition GetObjectLightState (ls : lights) (t : Z) : option (lmode * bool) :=
  if ((0 <=? t) && (t <? VEHICLE_LIGHT_SIZE))%Z then
    Some (l_mode (ls t), if (t =? FOG_LIGHTS)%Z || (t =? WARNING_LIGHTS)%Z then l_emit (ls (t + 1)%Z) && l_emit (ls (t + 2)%Z) else l_emit (ls t))
  else None.
