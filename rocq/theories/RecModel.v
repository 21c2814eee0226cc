(** Model of the delta compressing recorder (DatWriter) and of the part of the
    replayer that rebuilds the time lines from the packets.

    Source: EnvironmentSimulator/Modules/ScenarioEngine/SourceFiles/
    PacketHandler.hpp (PH.hpp), PacketHandler.cpp (PH.cpp), Entities.hpp,
    EnvironmentSimulator/Modules/PlayerBase/playerbase.cpp,
    EnvironmentSimulator/Applications/replayer/Replay.hpp (R.hpp), Replay.cpp
    (R.cpp).

    Values are the bytes that go into the file (see DatModel).  Comparisons of
    doubles are arbitrary functions on their 8 bytes ([dops]). *)

From Coq Require Import ZArith QArith List Bool Ascii Lia.
From Verif Require Import QAux DatModel.
Import ListNotations.
Open Scope Z_scope.

(** Operations on doubles, as functions of their representation:
    [near] is NEAR_NUMBERS (CM/CommonMini.hpp:65), [deq] is ==, [tq] the
    numeric value of a (finite) time stamp; [nan8] the bytes of std::nan("");
    [ord] the iteration order of an unordered_set (PH.cpp:379). *)
Record dops := mkOps {
  near : bytes -> bytes -> bool; deq : bytes -> bytes -> bool;
  tq : bytes -> Q; nan8 : bytes; ord : list Z -> list Z }.

(** ** Fields of an object *)

(** How a field is compared, PH.cpp:151-363, and stored. *)
Inductive kind :=
| KNear                  (* double, NEAR_NUMBERS *)
| KExact                 (* six doubles, == (IsPoseEqual, IsBoundingBoxEqual) *)
| KInt (init : Z)        (* 32 bit integer, != *)
| KName                  (* string, c_str() compared, PH.cpp:263 *)
| KStr                   (* string, != *)
| KOnceVec               (* vector, written only once, PH.cpp:321-327 *)
| KOnceStr               (* string, written only once, PH.cpp:329-335 *)
| KLight.                (* Dat::LightState, PH.cpp:337-356, IsLightStateEqual *)

(** A field: packet id and, for lights, the light number. *)
Definition fid := (Z * nat)%type.
Definition fid_eqb (a b : fid) : bool := (fst a =? fst b) && Nat.eqb (snd a) (snd b).

(** Packet ids, PH.hpp:21-56. *)
Definition OBJ_ID := 0.
Definition TIMESTAMP := 5.
Definition OBJ_DELETED := 19.
Definition DT := 21.
Definition END_OF_SCENARIO := 22.
Definition TRAFFIC_LIGHT := 23.
Definition ELEM_STATE_CHANGE := 27.
Definition ENVIRONMENT := 29.
Definition LIGHT_STATE := 31.

(** The kind of each object field packet; initial values PH.hpp:138-166
    (-LARGE_NUMBER_INT is -2147483647, ID_UNDEFINED is 4294967295). *)
Definition kind_of (pid : Z) : option kind :=
  match pid with
  | 7 => Some KNear           (* SPEED *)
  | 13 => Some KExact         (* POSE *)
  | 32 => Some (KInt 4294967295)  (* OBJ_GID *)
  | 1 => Some (KInt (-1))     (* MODEL_ID *)
  | 2 => Some (KInt (-1))     (* OBJ_TYPE *)
  | 3 => Some (KInt (-1))     (* OBJ_CATEGORY *)
  | 4 => Some (KInt (-1))     (* CTRL_TYPE *)
  | 8 => Some KNear           (* WHEEL_ANGLE *)
  | 9 => Some KNear           (* WHEEL_ROT *)
  | 10 => Some KExact         (* BOUNDING_BOX *)
  | 11 => Some (KInt (-1))    (* SCALE_MODE *)
  | 12 => Some (KInt (-1))    (* VISIBILITY_MASK *)
  | 6 => Some KName           (* NAME *)
  | 14 => Some (KInt 4294967295)  (* ROAD_ID *)
  | 15 => Some (KInt (-2147483647)) (* LANE_ID *)
  | 16 => Some KNear          (* POS_OFFSET *)
  | 17 => Some KNear          (* POS_T *)
  | 18 => Some KNear          (* POS_S *)
  | 24 => Some KNear          (* REFPOINT_X_OFFSET *)
  | 25 => Some KNear          (* MODEL_X_OFFSET *)
  | 26 => Some KStr           (* OBJ_MODEL3D *)
  | 28 => Some KOnceVec       (* SHAPE_2D_OUTLINE *)
  | 30 => Some KOnceStr       (* BB_COLOR *)
  | 31 => Some KLight         (* LIGHT_STATE *)
  | _ => None
  end.

(** Number of lights, Entities.hpp:141-158 (VEHICLE_LIGHT_SIZE). *)
Definition n_lights : nat := 14.

(** The fields in the order they are visited, PH.cpp:151-356. *)
Definition fields : list fid :=
  map (fun z => (z, O)) [7; 13; 32; 1; 2; 3; 4; 8; 9; 10; 11; 12; 6; 14; 15; 16; 17; 18; 24; 25; 26; 28; 30]
  ++ map (fun i => (LIGHT_STATE, i)) (seq 0 n_lights).

(** -1.0 as a double (initial colour components, PH.hpp:113-124). *)
Definition minus_one8 : bytes := map z2b [0; 0; 0; 0; 0; 0; 240; 191].
(** LightState{}, PH.hpp:113-124. *)
Definition light_init : bytes :=
  enc32 (-1) ++ enc32 (-1) ++ concat (repeat minus_one8 6).

(** Initial cached value, PH.hpp:138-166. *)
Definition init_val (D : dops) (k : kind) : bytes :=
  match k with
  | KNear => nan8 D
  | KExact => concat (repeat (nan8 D) 6)
  | KInt z => enc32 z
  | KName | KStr | KOnceVec | KOnceStr => []
  | KLight => light_init
  end.

(** Equality of byte strings (integer !=, std::string !=). *)
Fixpoint bytes_eqb (a b : bytes) : bool :=
  match a, b with
  | [], [] => true
  | x :: a', y :: b' => Ascii.eqb x y && bytes_eqb a' b'
  | _, _ => false
  end.

(** c_str(): up to the first zero byte. *)
Fixpoint c_str (a : bytes) : bytes :=
  match a with
  | [] => []
  | x :: r => if Ascii.eqb x zero_byte then [] else x :: c_str r
  end.

(** Component-wise == of doubles. *)
Definition all_deq (D : dops) (a b : list bytes) : bool :=
  forallb (fun p => deq D (fst p) (snd p)) (combine a b).

(** Whether a cached value [c] is to be replaced by the current value [v]. *)
Definition changed (D : dops) (k : kind) (c v : bytes) : bool :=
  match k with
  | KNear => negb (near D c v)
  | KExact => negb (all_deq D (chunks 6 8 c) (chunks 6 8 v))
  | KInt _ => negb (bytes_eqb c v)
  | KName => negb (bytes_eqb (c_str c) v)
  | KStr => negb (bytes_eqb c v)
  | KOnceVec | KOnceStr => match c, v with [], _ :: _ => true | _, _ => false end
  | KLight => negb (bytes_eqb (firstn 4 (skipn 4 c)) (firstn 4 (skipn 4 v))
                    && all_deq D (chunks 6 8 (skipn 8 c)) (chunks 6 8 (skipn 8 v)))
  end.

(** The payload of a field packet: scalars as they are (PH.hpp:295-300), strings with their size (PH.hpp:280-287),
    vectors as they are (PH.hpp:289-293); see [C15_arguments] for the general serialisation. *)
Definition payload (k : kind) (v : bytes) : bytes :=
  match k with
  | KName | KStr | KOnceStr => enc32 (u32 (zlen v)) ++ v
  | _ => v
  end.

(** ** Writer *)

(** What the recorder reads of an object in one step. *)
Record obj := mkO { o_id : Z; o_val : fid -> bytes; o_dirty : bool }.

(** State of a DatWriter: packets written so far, object_state_cache_.state_, current_object_id_, timestamp_written_,
    object_id_written_, simulation_time_, previous_ids_, current_ids_. *)
Record wst := mkW {
  w_out : list packet; w_cache : Z -> option (fid -> bytes); w_cur : Z;
  w_ts : bool; w_oid : bool; w_time : bytes; w_prev : list Z; w_ids : list Z }.

Definition w_emit (s : wst) (p : packet) : wst :=
  mkW (w_out s ++ [p]) (w_cache s) (w_cur s) (w_ts s) (w_oid s) (w_time s) (w_prev s) (w_ids s).
Definition w_set_ts (s : wst) (b : bool) : wst :=
  mkW (w_out s) (w_cache s) (w_cur s) b (w_oid s) (w_time s) (w_prev s) (w_ids s).
Definition w_set_oid (s : wst) (b : bool) : wst :=
  mkW (w_out s) (w_cache s) (w_cur s) (w_ts s) b (w_time s) (w_prev s) (w_ids s).
Definition w_set_cur (s : wst) (i : Z) : wst :=
  mkW (w_out s) (w_cache s) i (w_ts s) (w_oid s) (w_time s) (w_prev s) (w_ids s).
Definition w_set_cache (s : wst) (c : Z -> option (fid -> bytes)) : wst :=
  mkW (w_out s) c (w_cur s) (w_ts s) (w_oid s) (w_time s) (w_prev s) (w_ids s).
Definition w_set_time (s : wst) (t : bytes) : wst :=
  mkW (w_out s) (w_cache s) (w_cur s) (w_ts s) (w_oid s) t (w_prev s) (w_ids s).
Definition w_set_ids (s : wst) (p i : list Z) : wst :=
  mkW (w_out s) (w_cache s) (w_cur s) (w_ts s) (w_oid s) (w_time s) p i.

(** ShouldWriteObjId, PH.cpp:492-503. *)
Definition should_write_obj_id (pid : Z) : bool :=
  negb (existsb (Z.eqb pid) [END_OF_SCENARIO; DT; TIMESTAMP; TRAFFIC_LIGHT; ELEM_STATE_CHANGE; ENVIRONMENT]).

(** DatWriter::Write, PH.hpp:213-253, recursion by fuel ([None] when it runs out). *)
Fixpoint write (fuel : nat) (s : wst) (pid : Z) (data : bytes) : option wst :=
  match fuel with
  | O => None
  | S f =>
      match (if negb (w_oid s) && should_write_obj_id pid
             then write f (w_set_oid s true) OBJ_ID (enc32 (w_cur s)) else Some s) with
      | None => None
      | Some s1 =>
          match (if negb (w_ts s1) && negb (pid =? END_OF_SCENARIO)
                 then write f (w_set_ts s1 true) TIMESTAMP (w_time s1) else Some s1) with
          | None => None
          | Some s2 => Some (w_emit s2 (mkP pid data))
          end
      end
  end.
(** The recursion is at most three deep (packet, OBJ_ID, TIMESTAMP). *)
Definition dwrite := write 3.

(** Update of a cached field. *)
Definition upd (c : fid -> bytes) (f : fid) (v : bytes) : fid -> bytes :=
  fun g => if fid_eqb g f then v else c g.
(** Update of the cache map. *)
Definition updz {A} (m : Z -> A) (i : Z) (v : A) : Z -> A := fun j => if j =? i then v else m j.

(** Whether the field is looked at: lights only when the dirty bit is set, PH.cpp:337. *)
Definition considered (o : obj) (f : fid) : bool := if fst f =? LIGHT_STATE then o_dirty o else true.

(** One field of the current object, PH.cpp:151-356. *)
Definition write_field (D : dops) (o : obj) (s : option wst) (f : fid) : option wst :=
  match s with
  | None => None
  | Some s =>
      match kind_of (fst f), w_cache s (w_cur s) with
      | Some k, Some c =>
          if considered o f && changed D k (c f) (o_val o f)
          then dwrite (w_set_cache s (updz (w_cache s) (w_cur s) (Some (upd c f (o_val o f)))))
                      (fst f) (payload k (o_val o f))
          else Some s
      | _, _ => None
      end
  end.

(** A fresh ObjState, PH.hpp:136-168. *)
Definition fresh (D : dops) : fid -> bytes :=
  fun f => match kind_of (fst f) with Some k => init_val D k | None => [] end.

(** std::unordered_set::insert. *)
Definition set_insert (i : Z) (l : list Z) : list Z := if existsb (Z.eqb i) l then l else l ++ [i].

(** One object, PH.cpp:133-359. *)
Definition write_object (D : dops) (s : option wst) (o : obj) : option wst :=
  match s with
  | None => None
  | Some s =>
      let s1 := w_set_ids (w_set_cur s (o_id o)) (w_prev s) (set_insert (o_id o) (w_ids s)) in
      let s2 := match w_cache s1 (o_id o) with
                | Some _ => s1
                | None => w_set_cache s1 (updz (w_cache s1) (o_id o) (Some (fresh D)))
                end in
      match fold_left (write_field D o) fields (Some s2) with
      | Some s3 => Some (w_set_oid s3 false)
      | None => None
      end
  end.

(** One candidate of CheckDeletedObjects, PH.cpp:379-389. *)
Definition check_deleted (s : option wst) (i : Z) : option wst :=
  match s with
  | None => None
  | Some s =>
      if existsb (Z.eqb i) (w_ids s) then Some s
      else match dwrite (w_set_cur s i) OBJ_DELETED [] with
           | Some s1 => Some (w_set_oid (w_set_cache s1 (updz (w_cache s1) i None)) false)
           | None => None
           end
  end.

(** DatWriter::WriteObjectStatesToDat, PH.cpp:129-371, and CheckDeletedObjects, PH.cpp:373-393. *)
Definition write_objects (D : dops) (s : wst) (objs : list obj) : option wst :=
  match fold_left (write_object D) objs (Some (w_set_ids s (w_prev s) [])) with
  | None => None
  | Some s1 =>
      match fold_left check_deleted (ord D (w_prev s1)) (Some s1) with
      | None => None
      | Some s2 => Some (w_set_ids s2 (w_ids s2) [])
      end
  end.

(** Packets not belonging to an object, PH.cpp:52-127: DT, environment, lamp, storyboard changes.  Which of them are
    written in a step is arbitrary here; an empty change text is never written (PH.cpp:120). *)
Inductive gpk := GDt (b : bytes) | GEnv (b : bytes) | GLamp (b : bytes) | GEsc (c : byte) (s : bytes).
Definition gpk_packet (g : gpk) : packet :=
  match g with
  | GDt b => mkP DT b
  | GEnv b => mkP ENVIRONMENT b
  | GLamp b => mkP TRAFFIC_LIGHT b
  | GEsc c s => mkP ELEM_STATE_CHANGE (enc32 (u32 (zlen (c :: s))) ++ (c :: s))
  end.
Definition write_global (s : option wst) (g : gpk) : option wst :=
  match s with None => None | Some s => dwrite s (p_id (gpk_packet g)) (p_data (gpk_packet g)) end.

(** One call of ScenarioPlayer::WriteStatesToFile, playerbase.cpp:316-328. *)
Record step := mkStep { s_time : bytes; s_glob : list gpk; s_objs : list obj }.
Definition write_step (D : dops) (s : option wst) (st : step) : option wst :=
  match s with
  | None => None
  | Some s =>
      match fold_left write_global (s_glob st) (Some (w_set_time s (s_time st))) with
      | None => None
      | Some s1 =>
          match write_objects D s1 (s_objs st) with
          | None => None
          | Some s2 => Some (w_set_ts s2 false)
          end
      end
  end.

(** A new DatWriter, PH.hpp:170-262 (simulation_time_ starts at zero). *)
Definition wst0 : wst := mkW [] (fun _ => None) (-1) false false (repeat zero_byte 8) [] [].

(** A whole recording: all steps, then the destructor, PH.cpp:3-12. *)
Definition record (D : dops) (h : list step) : option (list packet) :=
  match fold_left (write_step D) h (Some wst0) with
  | None => None
  | Some s => match dwrite s END_OF_SCENARIO (w_time s) with Some s1 => Some (w_out s1) | None => None end
  end.

(** ** Reader *)

(** Reading fixed size fields with defaults, DatReader::ReadPacket, PH.hpp:351-391. *)
Definition read_scalars (sizes : list nat) (d : bytes) : bytes :=
  concat (map (fun p => match snd p with Some b => b | None => repeat zero_byte (fst p) end)
              (combine sizes (read_fields sizes d))).

(** int32 from its four bytes. *)
Definition int_of (b : bytes) : Z := let u := dec32 b in if u <? 2147483648 then u else u - 4294967296.

(** R.hpp:295-325 PropertyTimeline: active flag and the recorded fields. *)
Record otl := mkT { t_active : list (Q * bool); t_field : fid -> list (Q * bytes) }.

(** Members of Replay changed by ParsePackets: timestamp_, current_object_timeline_ ([None]: never set),
    objects_timeline_, environment_timeline_, traffic_lights_timeline_, element_state_changes_. *)
Record rst := mkR {
  r_time : bytes; r_cur : option Z; r_obj : Z -> option otl;
  r_env : list (Q * bytes); r_lamp : Z -> list (Q * bytes); r_esc : list (Q * bytes) }.
(** Before ParsePackets. *)
Definition rst0 : rst := mkR (repeat zero_byte 8) None (fun _ => None) [] (fun _ => []) [].

Inductive pres := POk (s : rst) | PErr | PUB.

(** Appending to a time line of the current object; without a current object the pointer is uninitialised (R.hpp:499). *)
Definition r_append (D : dops) (s : rst) (f : fid) (v : bytes) : pres :=
  match r_cur s with
  | None => PUB
  | Some i =>
      match r_obj s i with
      | None => PUB
      | Some t =>
          POk (mkR (r_time s) (r_cur s)
                   (updz (r_obj s) i (Some (mkT (t_active t)
                      (fun g => if fid_eqb g f then t_field t g ++ [(tq D (r_time s), v)] else t_field t g))))
                   (r_env s) (r_lamp s) (r_esc s))
      end
  end.

(** Environment{} as bytes is not needed: [env_default] is arbitrary. *)
Definition r_set_time (s : rst) (t : bytes) : rst :=
  mkR t (r_cur s) (r_obj s) (r_env s) (r_lamp s) (r_esc s).

(** Last activity flag. *)
Definition last_active (l : list (Q * bool)) : bool := last (map snd l) false.

(** OBJ_ID packet, R.cpp:396-432 (i = 0, no ghost restart).  [active_.values.back()] is defined: the list is never empty. *)
Definition r_obj_id (D : dops) (s : rst) (i : Z) : rst :=
  let now := tq D (r_time s) in
  let t := match r_obj s i with
           | None => mkT (if Qltb 0 now then [(0%Q, false); (now, true)] else [(now, true)]) (fun _ => [])
           | Some t => if last_active (t_active t) then t else mkT (t_active t ++ [(now, true)]) (t_field t)
           end in
  mkR (r_time s) (Some i) (updz (r_obj s) i (Some t)) (r_env s) (r_lamp s) (r_esc s).

(** OBJ_DELETED, R.cpp:626-630. *)
Definition r_deleted (D : dops) (s : rst) : pres :=
  match r_cur s with
  | None => PUB
  | Some i =>
      match r_obj s i with
      | None => PUB
      | Some t => POk (mkR (r_time s) (r_cur s)
                        (updz (r_obj s) i (Some (mkT (t_active t ++ [(tq D (r_time s), false)]) (t_field t))))
                        (r_env s) (r_lamp s) (r_esc s))
      end
  end.

(** A field packet of the given kind, R.cpp:433-765. *)
Definition r_field (D : dops) (s : rst) (pid : Z) (k : kind) (d : bytes) : pres :=
  match k with
  | KNear => r_append D s (pid, O) (read_scalars [8%nat] d)
  | KExact => r_append D s (pid, O) (read_scalars (repeat 8%nat 6) d)
  | KInt _ => r_append D s (pid, O) (read_scalars [4%nat] d)
  | KName | KStr | KOnceStr =>
      match read_string d with
      | None => PUB
      | Some [] => PErr
      | Some v => r_append D s (pid, O) v
      end
  | KOnceVec =>
      match read_vector 16 d with
      | None => PErr
      | Some l => r_append D s (pid, O) (concat l)
      end
  | KLight =>
      (* LightState{} when too short, light_type unchecked as index, R.cpp:746-763;
         a negative object id makes the size computation wrap *)
      let v := match read_fields [56%nat] d with [Some b] => b | _ => light_init end in
      let ty := int_of (firstn 4 v) in
      if (ty <? 0) || (Z.of_nat n_lights <=? ty) then PUB
      else match r_cur s with
           | Some i => if i <? 0 then PUB else r_append D s (pid, Z.to_nat ty) v
           | None => PUB
           end
  end.

(** One packet, the switch of ParsePackets, R.cpp:387-780; [front] is timestamps_.front(), [env0] Environment{}. *)
Definition parse_packet (D : dops) (front : Q) (env0 : bytes) (s : rst) (p : packet) : pres :=
  let now := tq D (r_time s) in
  if p_id p =? TIMESTAMP then POk (r_set_time s (read_scalars [8%nat] (p_data p)))
  else if p_id p =? OBJ_ID then POk (r_obj_id D s (int_of (read_scalars [4%nat] (p_data p))))
  else if p_id p =? OBJ_DELETED then r_deleted D s
  else if p_id p =? TRAFFIC_LIGHT then
    let v := read_scalars [16%nat] (p_data p) in
    let id := dec32 (firstn 4 (skipn 4 v)) in
    POk (mkR (r_time s) (r_cur s) (r_obj s) (r_env s) (updz (r_lamp s) id (r_lamp s id ++ [(now, v)])) (r_esc s))
  else if p_id p =? ELEM_STATE_CHANGE then
    match read_string (p_data p) with
    | None => PUB
    | Some [] => PErr
    | Some v => POk (mkR (r_time s) (r_cur s) (r_obj s) (r_env s) (r_lamp s) (r_esc s ++ [(now, v)]))
    end
  else if p_id p =? ENVIRONMENT then
    let first := match r_env s with
                 | [] => if Qltb (Qabs (now - front)) SMALL then [] else [(front, env0)]
                 | _ => []
                 end in
    POk (mkR (r_time s) (r_cur s) (r_obj s) (r_env s ++ first ++ [(now, read_scalars [40%nat] (p_data p))]) (r_lamp s) (r_esc s))
  else match kind_of (p_id p) with
       | Some k => r_field D s (p_id p) k (p_data p)
       | None => POk s
       end.

(** All packets, R.cpp:383-787 for the main list (no ghost restart lists). *)
Fixpoint parse (D : dops) (front : Q) (env0 : bytes) (s : rst) (ps : list packet) : pres :=
  match ps with
  | [] => POk s
  | p :: r => match parse_packet D front env0 s p with POk s' => parse D front env0 s' r | PErr => PErr | PUB => PUB end
  end.

(** State of ExtractPacketsAsSlices, R.cpp:281-378: packets kept (the slices flattened, R.cpp:789-797), time stamp of the
    current slice ([None]: no slice yet), timestamps_, dts_, prev_timestamp, first_timestamp, has_restart, stopTime_. *)
Record xst := mkX {
  x_out : list packet; x_slice : option Q; x_ts : list Q; x_dts : list (Q * bytes);
  x_prev : Q; x_first : bool; x_restart : bool; x_stop : Q }.
Definition xst0 : xst := mkX [] None [] [] 0 true false 0.

(** One packet of the loop, R.cpp:290-375 with dt_in_slice = true, scenario_idx = 0. [None] is undefined behaviour. *)
Definition extract_one (D : dops) (s : option xst) (p : packet) : option xst :=
  match s with
  | None => None
  | Some s =>
      if p_id p =? TIMESTAMP then
        let t := tq D (read_scalars [8%nat] (p_data p)) in
        let ts := match x_ts s with [] => [t] | _ => if Qltb (last (x_ts s) 0%Q) t then x_ts s ++ [t] else x_ts s end in
        Some (mkX (x_out s ++ [p]) (Some t) ts (x_dts s) t false
                  (x_restart s || (negb (x_first s) && Qltb t (x_prev s))) (x_stop s))
      else if p_id p =? DT then
        let d := read_scalars [8%nat] (p_data p) in
        if near D d (repeat zero_byte 8) then Some s
        else match x_slice s with
             | None => None
             | Some t => Some (mkX (x_out s ++ [p]) (x_slice s) (x_ts s) (x_dts s ++ [(t, d)])
                                   (x_prev s) (x_first s) (x_restart s) (x_stop s))
             end
      else if p_id p =? END_OF_SCENARIO then
        let t := tq D (read_scalars [8%nat] (p_data p)) in
        let stop := if Qltb (x_stop s) t then t else x_stop s in
        match x_ts s with
        | [] => None
        | _ => Some (mkX (x_out s) (x_slice s)
                         (if Qltb (last (x_ts s) 0%Q + SMALL) stop then x_ts s ++ [stop] else x_ts s)
                         (x_dts s) (x_prev s) (x_first s) (x_restart s) stop)
        end
      else match x_slice s with
           | None => None
           | Some _ => Some (mkX (x_out s ++ [p]) (x_slice s) (x_ts s) (x_dts s)
                                 (x_prev s) (x_first s) (x_restart s) (x_stop s))
           end
  end.
Definition extract (D : dops) (ps : list packet) : option xst := fold_left (extract_one D) ps (Some xst0).

(** The Replay constructor, R.cpp:20-66: undefined behaviour, failure, a recording with ghost restart (not modelled
    further), or the rebuilt time lines. *)
Inductive load := LUB | LFail | LGhost | LOk (ts : list Q) (s : rst).
Definition load_replay (D : dops) (env0 : bytes) (ps : list packet) : load :=
  match extract D ps with
  | None => LUB
  | Some x =>
      if x_restart x then LGhost
      else match x_ts x, x_dts x with
           | [], _ => LFail
           | _, [] => LFail
           | front :: _, _ =>
               match parse D front env0 rst0 (x_out x) with
               | POk s => LOk (x_ts x) s
               | PErr => LFail
               | PUB => LUB
               end
           end
  end.
