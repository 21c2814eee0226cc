(** * Internal numeric ids of roads and junctions: RoadManager.cpp, CommonMini.cpp

    [id_t] is uint32_t (CM/CommonMini.hpp:45); its values are [N] below 2^32 and its increment wraps.
    RM = EnvironmentSimulator/Modules/RoadManager, CM = EnvironmentSimulator/Modules/CommonMini. *)
From Coq Require Import List Ascii NArith Bool.
From Verif Require Import StrModel.
Import ListNotations.
Local Open Scope N_scope.

(** ID_UNDEFINED and ID_MAX, CM/CommonMini.hpp:48-49. *)
Definition ID_UNDEFINED : N := 4294967295.
Definition ID_MAX : N := 4294967294.

(** The increment of an [id_t] (CM/CommonMini.hpp:45), as in [id_next++] at RM/RoadManager.cpp:6917 and 6936. *)
Definition incr (x : N) : N := (x + 1) mod 4294967296.

(** isdigit, called at CM/CommonMini.cpp:853, in the C locale. *)
Definition isdigit (c : ascii) : bool := (48 <=? N_of_ascii c) && (N_of_ascii c <=? 57).

(** The loop of IsNumber, CM/CommonMini.cpp:850-857; a negative [max_digits] means no limit. *)
Fixpoint number_loop (s : str) (max_digits : option N) (counter : N) : bool :=
  match s with
  | [] => true
  | c :: r =>
      let counter := counter + 1 in
      if negb (isdigit c) || match max_digits with Some m => m <? counter | None => false end then false
      else number_loop r max_digits counter
  end.

(** IsNumber, CM/CommonMini.cpp:842-860. *)
Definition IsNumber (s : str) (max_digits : option N) : bool :=
  match s with [] => false | _ => number_loop s max_digits 0 end.

(** pugi::xml_attribute::as_ullong, called at RM/RoadManager.cpp:6905.  It is modelled for strings of at most ten digits,
    the only ones whose value is used besides a log message (6907, 6929): no prefix, sign or overflow can then occur. *)
Definition as_ullong (s : str) : N := fold_left (fun v c => v * 10 + (N_of_ascii c - 48)) s 0.

(** std::vector<std::pair<id_t, std::string>>, the type of road_ids_ and junction_ids_, RM/RoadManager.hpp:3748-3749. *)
Definition ids := list (N * str).

(** The loop that renumbers the former owners of an id, RM/RoadManager.cpp:6911-6919. *)
Fixpoint resolve (l : ids) (current next : N) : ids * N :=
  match l with
  | [] => ([], next)
  | (i, s) :: r =>
      if i =? current then let (r', n') := resolve r current (incr next) in ((next, s) :: r', n')
      else let (r', n') := resolve r current next in ((i, s) :: r', n')
  end.

(** One round of the loop of EstablishUniqueIds, RM/RoadManager.cpp:6901-6944; [None] is LOG_ERROR_AND_QUIT. *)
Definition establish_step (st : ids * N) (id_str : str) : option (ids * N) :=
  let (l, id_next) := st in
  let id_long := as_ullong id_str in
  let '(l, id_current, id_next) :=
    if IsNumber id_str (Some 10) && (id_long <=? ID_MAX) then
      let (l, id_next) := resolve l id_long id_next in
      (l, id_long, if id_next <=? id_long then incr id_long else id_next)
    else (l, id_next, incr id_next) in
  if ID_MAX <? id_current then None else Some (l ++ [(id_current, id_str)], id_next).

(** The loop of EstablishUniqueIds over the id strings of the children, RM/RoadManager.cpp:6901-6944. *)
Fixpoint establish_loop (st : ids * N) (strs : list str) : option (ids * N) :=
  match strs with
  | [] => Some st
  | s :: r => match establish_step st s with Some st' => establish_loop st' r | None => None end
  end.

(** OpenDrive::EstablishUniqueIds, RM/RoadManager.cpp:6895-6945; [l] is the list passed by reference, which is empty unless
    a file is loaded on top of another one (5515-5520). *)
Definition EstablishUniqueIds (l : ids) (strs : list str) : option ids :=
  option_map fst (establish_loop (l, 0) strs).

(** OpenDrive::LookupIdFromStr, RM/RoadManager.cpp:6947-6956. *)
Definition LookupIdFromStr (l : ids) (id_str : str) : N :=
  match find (fun p => str_eqb (snd p) id_str) l with Some p => fst p | None => ID_UNDEFINED end.

(** OpenDrive::LookupRoadIdFromStr, RM/RoadManager.cpp:6958-6963. *)
Definition LookupRoadIdFromStr (road_ids : ids) (id_str : str) : N := LookupIdFromStr road_ids id_str.

(** OpenDrive::LookupJunctionIdFromStr, RM/RoadManager.cpp:6965-6980. *)
Definition LookupJunctionIdFromStr (junction_ids : ids) (id_str : str) : N :=
  if str_eqb id_str ["-"; "1"]%char then ID_UNDEFINED else LookupIdFromStr junction_ids id_str.

(** OpenDrive::GenerateRoadId, RM/RoadManager.cpp:7065-7075, on the ids of the roads. *)
Definition GenerateRoadId (road : list N) : N := incr (fold_left N.max road 0).

(** OpenDrive::GetRoadById, RM/RoadManager.cpp:3518-3528, as the index of the road found. *)
Fixpoint GetRoadById (road : list N) (id : N) : option nat :=
  match road with
  | [] => None
  | a :: r => if a =? id then Some O else option_map S (GetRoadById r id)
  end.

(** OpenDrive::GetTrackIdByIdx, RM/RoadManager.cpp:6421-6429. *)
Definition GetTrackIdByIdx (road : list N) (idx : nat) : N :=
  match nth_error road idx with Some i => i | None => ID_UNDEFINED end.
