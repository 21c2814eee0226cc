(** Model of the replayer's time lines and of its navigation.

    Source: EnvironmentSimulator/Applications/replayer/Replay.hpp (R.hpp) and
    Replay.cpp (R.cpp).  Times are exact rationals (no rounding, no NaN).
    [None] means undefined behaviour (index outside a vector). *)

From Coq Require Import PeanoNat.
From Verif Require Import QAux.
Open Scope Q_scope.

(** NEAR_NUMBERS, CommonMini.hpp:65. *)
Definition near_q (x y : Q) : bool := Qltb (Qabs (x - y)) SMALL.

(** std::upper_bound / std::lower_bound on a partitioned range: the index of
    the first element for which [stop] holds.  The standard only requires the
    range to be partitioned; on others the result of the real functions is
    unspecified, the theorems only use partitioned ranges. *)
Fixpoint first_index {A} (stop : A -> bool) (l : list A) : nat :=
  match l with
  | [] => O
  | x :: r => if stop x then O else S (first_index stop r)
  end.

Section Timeline.
Context {T : Type}.

(** R.hpp:34 [values]. *)
Definition tl := list (Q * T).

(** R.hpp:35-36 [last_index], [last_time]. *)
Record cursor := mkCur { c_index : nat; c_time : Q }.
(** Initial values, R.hpp:35-36. *)
Definition cursor0 : cursor := mkCur 0 LARGE.

(** Moving forward, R.hpp:61-64. *)
Fixpoint scan_fwd (l : tl) (fuel idx : nat) (time : Q) : nat :=
  match fuel with
  | O => idx
  | S f =>
      match nth_error l (S idx) with
      | Some (t, _) => if Qleb t (time + SMALL) then scan_fwd l f (S idx) time else idx
      | None => idx
      end
  end.

(** Moving backward, R.hpp:68-71; reading outside the vector cannot happen for idx < size. *)
Fixpoint scan_bwd (l : tl) (idx : nat) (time : Q) : nat :=
  match idx with
  | O => O
  | S i =>
      match nth_error l idx with
      | Some (t, _) => if Qltb (time + SMALL) t then scan_bwd l i time else idx
      | None => idx
      end
  end.

(** Timeline::get_value_incremental, R.hpp:38-81: result (nullopt = [None] of
    the inner option) and new cursor; outer [None] is an access outside. *)
Definition get_value_incremental (l : tl) (c : cursor) (time : Q) : option (option T * cursor) :=
  match l with
  | [] => Some (None, c)
  | [(t0, v0)] => Some (Some v0, mkCur 0 t0)
  | _ =>
      let idx := c_index c in
      match nth_error l idx with
      | None => None
      | Some (ti, vi) =>
          if near_q (c_time c) time then Some (Some vi, c)
          else
            let j := if Qleb ti time then scan_fwd l (length l) idx time
                     else scan_bwd l idx time in
            match nth_error l j with
            | None => None
            | Some (tj, vj) =>
                let c' := if negb (Nat.eqb j idx) || Nat.eqb j 0 then mkCur j tj else c in
                Some (Some vj, c')
            end
      end
  end.

(** Timeline::get_value_binary, R.hpp:83-118. *)
Definition get_value_binary (l : tl) (time : Q) (upper : bool) : option (option T) :=
  match l with
  | [] => Some None
  | [(_, v)] => Some (Some v)
  | _ =>
      let it := first_index (fun e : Q * T => Qltb (time + SMALL) (fst e)) l in
      match it with
      | O => match nth_error l 0 with Some (_, v) => Some (Some v) | None => None end
      | S _ =>
          let it1 := if Nat.eqb it (length l) then pred it else it in
          let it2 := if upper then it1 else pred it1 in
          match nth_error l it2 with Some (_, v) => Some (Some v) | None => None end
      end
  end.

(** Timeline::get_index_binary, R.hpp:120-145. *)
Definition get_index_binary (l : tl) (time : Q) : option nat :=
  match l with
  | [] => None
  | [_] => Some 1%nat
  | _ => Some (first_index (fun e : Q * T => Qltb time (fst e - SMALL)) l)
  end.

(** The erase loop of clean_duplicate_timestamps, R.hpp:280-294: the first of
    two near neighbours is erased.  For an empty vector [it + 1] is undefined;
    the only caller checks the size (R.hpp:273). *)
Fixpoint clean_duplicates (l : tl) : tl :=
  match l with
  | a :: ((b :: _) as r) => if near_q (fst a) (fst b) then clean_duplicates r else a :: clean_duplicates r
  | _ => l
  end.

(** Timeline::replace_data_between_times, R.hpp:249-279. *)
Definition replace_between (l : tl) (t0 t1 : Q) (input : tl) (clean : bool) : tl :=
  match input, l with
  | [], _ => l
  | _, [] => l
  | _, _ =>
      let first := first_index (fun e : Q * T => negb (Qltb (fst e) (t0 - SMALL))) l in
      let last := first_index (fun e : Q * T => Qltb t1 (fst e - SMALL)) l in
      let l' := firstn first l ++ input ++ skipn last l in
      if clean && Nat.ltb 1 (length l') then clean_duplicates l' else l'
  end.

End Timeline.
Arguments tl : clear implicits.

(** ** Navigation (R.cpp) *)

(** R.hpp:480-487, private members used for navigation. *)
Record nav := mkNav {
  n_time : Q; n_index : nat;
  n_start : Q; n_stop : Q; n_starti : nat; n_stopi : nat;
  n_repeat : bool }.

(** Assignment of index_ and time_. *)
Definition goto (n : nav) (i : nat) (t : Q) : nav :=
  mkNav t i (n_start n) (n_stop n) (n_starti n) (n_stopi n) (n_repeat n).

(** Replay::GoToStart, R.cpp:1120-1132. *)
Definition go_to_start (n : nav) (ignore_repeat : bool) : nav :=
  if n_repeat n && negb ignore_repeat then goto n (n_stopi n) (n_stop n)
  else goto n (n_starti n) (n_start n).

(** Replay::GoToEnd, R.cpp:1134-1146. *)
Definition go_to_end (n : nav) (ignore_repeat : bool) : nav :=
  if n_repeat n && negb ignore_repeat then goto n (n_starti n) (n_start n)
  else goto n (n_stopi n) (n_stop n).

(** Replay::FindIndexAtTimestamp, R.cpp:1280-1295.  [None]: iterator beyond
    the end ([start += index_], [begin + index_ + 1]). *)
Definition find_index (ts : list Q) (n : nav) (t : Q) : option nat :=
  let stop := fun x => negb (Qltb x (t - SMALL)) in
  if Qleb (n_time n - SMALL) t then
    if Nat.leb (n_index n) (length ts)
    then Some (n_index n + first_index stop (skipn (n_index n) ts))%nat else None
  else
    if Nat.leb (n_index n + 1) (length ts)
    then Some (first_index stop (firstn (n_index n + 1) ts)) else None.

(** Final check of GoToTime, R.cpp:1212-1219. *)
Definition clamp_window (n : nav) : nav :=
  if Qltb (n_stop n) (n_time n) then go_to_end n false
  else if Qltb (n_time n) (n_start n) then go_to_start n false
  else n.

(** Replay::GoToTime, R.cpp:1148-1220. *)
Definition go_to_time (ts : list Q) (n : nav) (target : Q) (stop_at_next : bool) : option nav :=
  if negb stop_at_next then
    if Qleb (n_stop n) target then Some (go_to_end n false)
    else if Qleb target (n_start n) then Some (go_to_start n false)
    else match find_index ts n target with
         | Some i => Some (clamp_window (goto n i target))
         | None => None
         end
  else if Qltb (n_time n) target then
    let next := S (n_index n) in
    match nth_error ts next with
    | Some tn =>
        if Qleb (tn - SMALL) target then Some (clamp_window (goto n next tn))
        else if Qltb (n_stop n) target then Some (clamp_window (go_to_end n false))
        else Some (clamp_window (goto n (n_index n) target))
    | None =>
        if Qltb (n_stop n) target then Some (clamp_window (go_to_end n false))
        else Some (clamp_window (goto n (n_index n) target))
    end
  else if Qltb target (n_time n) then
    let otherwise :=
      if Qltb target (n_start n) then Some (clamp_window (go_to_start n false))
      else Some (clamp_window (goto n (n_index n) target)) in
    match n_index n with
    | O => otherwise
    | S i =>
        match nth_error ts i with
        | None => None
        | Some tp => if Qleb target tp then Some (clamp_window (goto n i tp)) else otherwise
        end
    end
  else Some (clamp_window n).

(** Replay::GoToDeltaTime, R.cpp:1222-1225. *)
Definition go_to_delta (ts : list Q) (n : nav) (dt : Q) (stop_at_next : bool) : option nav :=
  go_to_time ts n (n_time n + dt) stop_at_next.

(** Replay::GoToNextFrame, R.cpp:1227-1252 (the return value is not used by the application). *)
Definition go_to_next (ts : list Q) (n : nav) : nav :=
  match ts with
  | [] => n
  | _ =>
      let i := first_index (fun x => Qltb (n_time n + SMALL) x) ts in
      match nth_error ts i with
      | None => go_to_end n false
      | Some t => if Qleb t (n_stop n + SMALL) then goto n i t else go_to_end n false
      end
  end.

(** Replay::GoToPreviousFrame, R.cpp:1254-1278. *)
Definition go_to_previous (ts : list Q) (n : nav) : nav :=
  match ts with
  | [] => n
  | _ =>
      match first_index (fun x => negb (Qltb x (n_time n - SMALL))) ts with
      | O => go_to_start n false
      | S i =>
          match nth_error ts i with
          | None => n
          | Some t => let n' := goto n i t in
                      if Qltb t (n_start n) then go_to_start n' false else n'
          end
      end
  end.

(** Replay::SetTimeToNearestTimestamp, R.cpp:1344-1365. *)
Definition set_nearest (ts : list Q) (n : nav) : nav :=
  match ts with
  | [] => n
  | t0 :: _ =>
      match first_index (fun x => negb (Qltb x (n_time n - SMALL))) ts with
      | O => goto n (n_index n) t0
      | S i =>
          match nth_error ts (S i) with
          | Some t => goto n (n_index n) t
          | None => goto n (n_index n) (last ts t0)
          end
      end
  end.

(** Replay::SetStartTime, R.cpp:1321-1331. *)
Definition set_start (ts : list Q) (n : nav) (t : Q) : option nav :=
  let time := if Qltb (n_time n) t then t else n_time n in
  let n1 := mkNav time (n_index n) t (n_stop n) (n_starti n) (n_stopi n) (n_repeat n) in
  match find_index ts n1 t with
  | Some i => Some (mkNav time i t (n_stop n) i (n_stopi n) (n_repeat n))
  | None => None
  end.

(** Replay::SetStopTime, R.cpp:1333-1342. *)
Definition set_stop (ts : list Q) (n : nav) (t : Q) : option nav :=
  let time := if Qltb t (n_time n) then t else n_time n in
  let n1 := mkNav time (n_index n) (n_start n) t (n_starti n) (n_stopi n) (n_repeat n) in
  match find_index ts n1 t with
  | Some i => Some (mkNav time (n_index n) (n_start n) t (n_starti n) i (n_repeat n))
  | None => None
  end.

(** State after loading, R.cpp:56-66: window is the whole recording, stop time
    the last time stamp (or the end-of-scenario time, appended to the time
    stamps when later, R.cpp:320-334). *)
Definition nav0 (ts : list Q) (stop : Q) : nav :=
  let t0 := match ts with [] => 0 | t :: _ => t end in
  mkNav t0 0 t0 stop 0 (pred (length ts)) false.

(** Requests of the application, Applications/replayer/main.cpp:135-290,
    1150-1188, 1224-1277. *)
Inductive req :=
| RTime (t : Q) (stop_at_next : bool) | RDelta (dt : Q) (stop_at_next : bool)
| RNext | RPrev | RStart (ignore : bool) | REnd (ignore : bool) | RNearest
| RSetStart (t : Q) | RSetStop (t : Q) | RRepeat (b : bool).

(** Clamping of the requested window limits, main.cpp:1157-1185. *)
Definition clamp_range (ts : list Q) (t : Q) : Q :=
  match ts with
  | [] => t
  | f :: _ => if Qltb t f then f else if Qltb (last ts f) t then last ts f else t
  end.

(** One request; start and stop options as main.cpp:1154-1188 (followed by GoToTime for the start). *)
Definition do_req (ts : list Q) (n : nav) (r : req) : option nav :=
  match r with
  | RTime t s => go_to_time ts n t s
  | RDelta d s => go_to_delta ts n d s
  | RNext => Some (go_to_next ts n)
  | RPrev => Some (go_to_previous ts n)
  | RStart i => Some (go_to_start n i)
  | REnd i => Some (go_to_end n i)
  | RNearest => Some (set_nearest ts n)
  | RSetStart t =>
      match set_start ts n (clamp_range ts t) with
      | Some n1 => go_to_time ts n1 (clamp_range ts t) false
      | None => None
      end
  | RSetStop t => set_stop ts n (clamp_range ts t)
  | RRepeat b => Some (mkNav (n_time n) (n_index n) (n_start n) (n_stop n) (n_starti n) (n_stopi n) b)
  end.

(** A sequence of requests. *)
Fixpoint do_reqs (ts : list Q) (n : nav) (rs : list req) : option nav :=
  match rs with
  | [] => Some n
  | r :: rest => match do_req ts n r with Some n' => do_reqs ts n' rest | None => None end
  end.
