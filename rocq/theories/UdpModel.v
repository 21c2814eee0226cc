(** * Driving by messages from the network (ControllerUDPDriver)

    CT = EnvironmentSimulator/Modules/Controllers, CM = EnvironmentSimulator/Modules/CommonMini, SE = EnvironmentSimulator/Modules/ScenarioEngine/SourceFiles.
    A message is its bytes as they lie in memory on a little-endian machine with 8-byte aligned doubles; what 8 bytes are as a number is left to an argument [dbl].
    [double] is idealised as [R]. z, pitch, roll and position modes are left out: SetInertiaPos puts an object at the coordinates and heading given. Between the
    first and the last call of recvfrom of a step no datagram arrives. *)
From Coq Require Import Reals Bool List NArith ZArith.
From Verif Require Import AngModel VehModel.
Import ListNotations.
Open Scope R_scope.

(** Size of DMMessage and offset of its union, CT/ControllerUDPDriver.hpp:48-104. *)
Definition SIZE : nat := 88.
Definition BODY : nat := 16.
(** UDP_DRIVER_MESSAGE_VERSION, CT/ControllerUDPDriver.hpp:23. *)
Definition VERSION : N := 1.
(** InputMode, CT/ControllerUDPDriver.hpp:33-40. *)
Definition DRIVER_INPUT : N := 1.
Definition STATE_XYZHPR : N := 2.
Definition STATE_XYH : N := 3.
Definition STATE_H : N := 4.

(** A byte, an unsigned int and a double of a message. *)
Definition byte (m : list N) (i : nat) : N := nth i m 0%N.
Definition u32 (m : list N) (i : nat) : N := (byte m i + 256 * (byte m (i + 1) + 256 * (byte m (i + 2) + 256 * byte m (i + 3))))%N.
Definition slot (dbl : list N -> R) (m : list N) (k : nat) : R := dbl (firstn 8 (skipn (BODY + 8 * k) m)).

(** DMHeader, CT/ControllerUDPDriver.hpp:48-54. *)
Definition version (m : list N) : N := u32 m 0.
Definition inputMode (m : list N) : N := u32 m 4.
Definition objectId (m : list N) : N := u32 m 8.
(** static_cast<int> of an unsigned int, CT/ControllerUDPDriver.cpp:226. *)
Definition to_int (n : N) : Z := if (n <? 2147483648)%N then Z.of_N n else (Z.of_N n - 4294967296)%Z.

(** deadReckon of DMMSGVehicleStateH and of DMMSGVehicleStateXYH, CT/ControllerUDPDriver.hpp:56-72: after 3 and after 5 doubles. *)
Definition reckonH (m : list N) : bool := negb (byte m (BODY + 24) =? 0)%N.
Definition reckonXYH (m : list N) : bool := negb (byte m (BODY + 40) =? 0)%N.

(** What is kept of an object; the objects by id (Entities::GetObjectById, SE/Entities.cpp:1964-1985). *)
Record st := St { s_x : R; s_y : R; s_h : R; s_speed : R; s_wheel : R }.
Definition world := Z -> option st.
Definition put (w : world) (i : Z) (o : st) : world := fun j => if (j =? i)%Z then Some o else w j.

(** msg, lastMsg and vehicle_, CT/ControllerUDPDriver.hpp:127-136. *)
Record ctl := Ctl { c_msg : list N; c_last : list N; c_veh : veh }.

(** Vehicle::SetPos, CT/vehicle.hpp:65-71. *)
Definition SetPos (v : veh) (x y h : R) : veh :=
  Veh x y h (vx_ v) (vy_ v) (vang_ v) (vrel_ v) (speed_ v) (wheel_ v) (rot_ v) (hdot_ v) (hand_ v) (len_ v) (max_speed_ v) (max_acc_ v) (max_dec_ v) (rate_ v) (ret_ v)
    (scale_ v) (drag_ v) (no_throttle_ v) (no_steer_ v).

(** UDPServer::Receive of one datagram, CM/UDP.cpp:118-124: the number of bytes and the buffer; the rest of the buffer stays, the rest of the datagram is lost. *)
Definition recv (p buf : list N) : nat * list N := (Nat.min (length p) SIZE, firstn SIZE p ++ skipn (length p) buf).

(** The loop of the asynchronous mode, CT/ControllerUDPDriver.cpp:184-191, until recvfrom fails for lack of datagrams. *)
Fixpoint drain (q : list (list N)) (n : nat) (buf : list N) : nat * list N :=
  match q with
  | [] => (n, buf)
  | p :: q => let '(k, buf) := recv p buf in drain q (if (0 <? k)%nat then k else n) buf
  end.
(** Receiving in a step, CT/ControllerUDPDriver.cpp:178-200: bytes received, buffer, datagrams left. *)
Definition receive (sync : bool) (q : list (list N)) (buf : list N) : nat * list N * list (list N) :=
  if sync then match q with [] => (0%nat, buf, []) | p :: q => (recv p buf, q) end
  else (drain q 0 buf, []).

(** Handling a message, CT/ControllerUDPDriver.cpp:205-298; [None]: Step is left by return. *)
Definition handle (dbl : list N -> R) (m : list N) (v : veh) (w : world) : option (veh * world) :=
  let d := slot dbl m in
  if negb (version m =? VERSION)%N then None
  else
    let i := to_int (objectId m) in
    match w i with
    | None => None
    | Some o =>
      if (inputMode m =? STATE_XYZHPR)%N then
        Some (SetPos v (d 0%nat) (d 1%nat) (d 3%nat), put w i (St (d 0%nat) (d 1%nat) (d 3%nat) (d 6%nat) (d 7%nat)))
      else if (inputMode m =? STATE_XYH)%N then
        Some (SetPos v (d 0%nat) (d 1%nat) (d 2%nat), put w i (St (d 0%nat) (d 1%nat) (d 2%nat) (d 3%nat) (d 4%nat)))
      else if (inputMode m =? STATE_H)%N then
        Some (SetPos v (s_x o) (s_y o) (d 0%nat), put w i (St (s_x o) (s_y o) (d 0%nat) (d 1%nat) (d 2%nat)))
      else Some (v, w)
    end.

(** Whether to dead reckon, CT/ControllerUDPDriver.cpp:303-308. *)
Definition reckons (n : nat) (m : list N) : bool :=
  ((inputMode m =? STATE_H)%N && reckonH m) ||
  ((n =? 0)%nat && (((inputMode m =? STATE_XYH)%N && reckonXYH m) || ((inputMode m =? STATE_XYZHPR)%N && reckonXYH m))).
(** Speed and heading to dead reckon with, CT/ControllerUDPDriver.cpp:311-332. *)
Definition course (dbl : list N -> R) (m : list N) : R * R :=
  let d := slot dbl m in
  if (inputMode m =? STATE_H)%N then (d 1%nat, d 0%nat)
  else if (inputMode m =? STATE_XYH)%N then (d 3%nat, d 2%nat)
  else (d 6%nat, d 3%nat).
(** Moving the object of the controller, CT/ControllerUDPDriver.cpp:300-356. *)
Definition move (dbl : list N -> R) (dt : R) (own : Z) (n : nat) (m : list N) (v : veh) (w : world) : veh * world :=
  match w own with
  | None => (v, w)
  | Some o =>
    if Rltb SMALL_NUMBER dt then
      if reckons n m then
        let (speed, h) := course dbl m in
        let ds := speed * dt in
        (v, put w own (St (s_x o + ds * cos h) (s_y o + ds * sin h) (h_ v) (s_speed o) (s_wheel o)))
      else if (inputMode m =? DRIVER_INPUT)%N then
        let v := DrivingControlAnalog v dt (slot dbl m 0 - slot dbl m 1) (slot dbl m 2) in
        (v, put w own (St (x_ v) (y_ v) (h_ v) (speed_ v) (wheel_ v)))
      else (v, w)
    else (v, w)
  end.

(** ControllerUDPDriver::Step, CT/ControllerUDPDriver.cpp:176-359; object_ is that with id [own]. *)
Definition Step (dbl : list N -> R) (sync : bool) (own : Z) (dt : R) (q : list (list N)) (c : ctl) (w : world) : list (list N) * ctl * world :=
  let '(n, buf, q) := receive sync q (c_msg c) in
  let last := if (0 <? n)%nat then buf else c_last c in
  match (if (0 <? n)%nat then handle dbl buf (c_veh c) w else Some (c_veh c, w)) with
  | None => (q, Ctl buf last (c_veh c), w)
  | Some (v, w) => let (v, w) := move dbl dt own n last v w in (q, Ctl buf last v, w)
  end.

(** memset of the messages in the constructor, CT/ControllerUDPDriver.cpp:118-119. *)
Definition zeros : list N := repeat 0%N SIZE.
(** ControllerUDPDriver::Activate with an object, CT/ControllerUDPDriver.cpp:389-394: the vehicle model. *)
Definition ActivateVeh (len : R) (o : st) : veh :=
  let v := reset_veh in
  Veh (s_x o) (s_y o) (s_h o) (vx_ v) (vy_ v) (vang_ v) (vrel_ v) (s_speed o) (wheel_ v) (rot_ v) (hdot_ v) (hand_ v) len 30 20 (max_dec_ v) (rate_ v) (ret_ v)
    (scale_ v) (drag_ v) (no_throttle_ v) (no_steer_ v).

(** The port of the constructor, CT/ControllerUDPDriver.cpp:65-76: [None]: LOG_ERROR_AND_QUIT; 0 when not given. *)
Definition read_port (p : option Z) : option Z :=
  match p with None => Some 0%Z | Some p => if ((p <? 0) || (65535 <? p))%Z then None else Some p end.
(** The ports of Activate, CT/ControllerUDPDriver.cpp:365-387: port_, the port of the socket (an unsigned short) and whether the socket is a new one. *)
Definition ActivatePort (base id port : Z) (server : option Z) : Z * Z * bool :=
  let port := if (port =? 0)%Z then (base + id)%Z else port in
  match server with
  | Some s => if (s =? port)%Z then (port, s, false) else (port, (port mod 65536)%Z, true)
  | None => (port, (port mod 65536)%Z, true)
  end.
