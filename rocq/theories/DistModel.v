(** Parameter distributions (OSCParameterDistribution.cpp) and the permutation loop of the application.

    Simplifications: the XML document is given as the list of distributions it contains, in order; the outcome of file
    access is not modelled.  [unsigned int] arithmetic of the permutation count wraps modulo 2^32, as does the conversion
    to [int]; vector sizes are assumed to be below 2^32, parameter counters do not wrap.  Division by zero is [None]. *)
From Coq Require Import List String ZArith Bool.
From Verif Require Import QAux.
Import ListNotations.
Open Scope Z_scope.

(** OSCParameterDistribution.hpp:23-27 (ParameterValueEntry: name, value). *)
Definition entry : Type := (string * string)%type.
(** OSCParameterDistribution.hpp:29: one distribution: alternatives, each a set of entries. *)
Definition dist : Type := list (list entry).
(** OSCParameterDistribution.hpp:29-33. *)
Record dstate := mkD { plist : list dist; index : Z; requested : Z }.

(** static_cast<unsigned int>, static_cast<int> (two's complement). *)
Definition u32 (z : Z) : Z := z mod 4294967296.
Definition i32 (z : Z) : Z := let u := u32 z in if u <? 2147483648 then u else u - 4294967296.
(** size() of a vector as a number. *)
Definition zlen {A} (l : list A) : Z := Z.of_nat (length l).

(** OSCParameterDistribution.cpp:261-276 (GetNumPermutations). *)
Definition num_permutations (s : dstate) : Z :=
  match plist s with
  | [] => 0
  | l => fold_left (fun n d => u32 (n * zlen d)) l 1
  end.

(** OSCParameterDistribution.cpp:287-299: the loop from the last distribution to the first: [rl] is the reversed list.
    Result: the selected alternatives, last distribution first; [None]: division by zero. *)
Fixpoint select (rl : list dist) (n : Z) : option (list (list entry)) :=
  match rl with
  | [] => Some []
  | d :: rl' =>
    if zlen d =? 0 then None
    else match nth_error d (Z.to_nat (n mod zlen d)), select rl' (n / zlen d) with
         | Some e, Some r => Some (e :: r)
         | _, _ => None
         end
  end.

(** OSCParameterDistribution.cpp:278-301 (GetNumParameters). *)
Definition num_parameters (s : dstate) : option nat :=
  if index s <? 0 then Some 0%nat
  else match select (rev (plist s)) (index s) with
       | None => None
       | Some cs => Some (fold_left (fun a c => (a + length c)%nat) cs 0%nat)
       end.

(** OSCParameterDistribution.cpp:325-339: the search loop of GetParameterEntry; [cs] the selected alternatives, last
    distribution first, [counter] = param_counter. *)
Fixpoint find_param (cs : list (list entry)) (p_idx counter : nat) : entry :=
  match cs with
  | [] => (EmptyString, EmptyString)
  | c :: cs' =>
    let counter := (counter + length c)%nat in
    if (p_idx <? counter)%nat then nth (counter - p_idx - 1) c (EmptyString, EmptyString)
    else find_param cs' p_idx counter
  end.

(** OSCParameterDistribution.cpp:303-342 (GetParameterEntry). *)
Definition get_parameter_entry (s : dstate) (param_index : nat) : option entry :=
  match num_parameters s with
  | None => None
  | Some np =>
    if (np <=? param_index)%nat then Some (EmptyString, EmptyString)
    else if i32 (num_permutations s) <=? index s then Some (EmptyString, EmptyString)
    else if (num_permutations s =? 0) || (index s <? 0) then Some (EmptyString, EmptyString)
    else match select (rev (plist s)) (index s) with
         | None => None
         | Some cs => Some (find_param cs (np - param_index - 1) 0)
         end
  end.

(** OSCParameterDistribution.cpp:394-409 (Reset); also the initial state (hpp:37-40). *)
Definition reset : dstate := mkD [] (-1) 0.

(** OSCParameterDistribution.cpp:42-259 (Load): the distributions of the file are appended; indices unchanged. *)
Definition load (ds : list dist) (s : dstate) : dstate := mkD (plist s ++ ds) (index s) (requested s).

(** OSCParameterDistribution.cpp:416-428 (SetIndex). *)
Definition set_index (i : Z) (s : dstate) : Z * dstate :=
  if num_permutations s <=? i then (-1, s) else (0, mkD (plist s) (i32 i) (-1)).

(** OSCParameterDistribution.cpp:430-442 (IncrementIndex). *)
Definition increment_index (s : dstate) : Z * dstate :=
  if (index s <? -1) || (i32 (u32 (num_permutations s - 1)) <=? index s) then (-1, s)
  else (index s + 1, mkD (plist s) (index s + 1) (-1)).

(** OSCParameterDistribution.cpp:444-455 (SetRequestedIndex). *)
Definition set_requested (i : Z) (s : dstate) : Z * dstate :=
  if num_permutations s <=? i then (-1, s) else (0, mkD (plist s) (index s) (i32 i)).

(** Calls on the object (OSCParameterDistribution.hpp:44-66); arguments are unsigned. *)
Inductive dop := DLoad (ds : list dist) | DReset | DSet (i : Z) | DInc | DRequest (i : Z).
Definition dapply (o : dop) (s : dstate) : dstate :=
  match o with
  | DLoad ds => load ds s | DReset => reset | DSet i => snd (set_index i s) | DInc => snd (increment_index s)
  | DRequest i => snd (set_requested i s)
  end.
Definition drun (os : list dop) (s : dstate) : dstate := fold_left (fun s o => dapply o s) os s.

(** OSCParameterDistribution.cpp:219-225: the values of a DistributionRange; [None]: not finished within [fuel] steps. *)
Fixpoint range_values (fuel : nat) (v upper step : Q) : option (list Q) :=
  if Qltb v (upper + SMALL) then
    match fuel with
    | O => None
    | S n => match range_values n (v + step) upper step with Some l => Some (v :: l) | None => None end
    end
  else Some [].

(** playerbase.cpp:1633-1712 (ScenarioPlayer::Init, no --param_permutation): load the distributions of the file unless
    some are loaded; then the requested index or the next one. *)
Definition player_init (file : list dist) (s : dstate) : dstate :=
  let s := if 0 <? num_permutations s then s else load file s in
  if 0 <? num_permutations s then
    if -1 <? requested s then snd (set_index (u32 (requested s)) s) else snd (increment_index s)
  else s.

(** Applications/esmini/main.cpp:41-135 (main, execute_scenario): run scenarios until the last permutation; the list of
    permutation indices used, in order.  Every run is assumed to succeed; [None]: not finished within [fuel] runs. *)
Fixpoint main_loop (fuel : nat) (file : list dist) (s : dstate) : option (list Z) :=
  match fuel with
  | O => None
  | S n =>
    let s := player_init file s in
    if (0 <=? index s) && (index s <? i32 (u32 (num_permutations s - 1)))
    then match main_loop n file s with Some l => Some (index s :: l) | None => None end
    else Some [index s]
  end.
