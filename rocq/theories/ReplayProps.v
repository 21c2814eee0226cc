(** Properties C19, C20, C39: lookup in recorded time lines, navigation in a recording, stitching of ghost restarts. *)
From Coq Require Import PeanoNat.
From Verif Require Import QAux ReplayModel ReplayProofs.
Open Scope Q_scope.
Open Scope nat_scope.

(** ** C19 *)

(** Any sequence of lookups on a time line whose times are at least twice the tolerance apart: each returns the latest
    value not later than the time asked for (the first one if all are later), whatever was asked before. *)
Theorem C19_history_independent : forall T (l : tl T), separated l -> l <> [] -> forall ts,
  Forall (fun q => (q <= LARGE - SMALL)%Q) ts ->
  exists vs, queries l cursor0 ts = Some (map Some vs) /\ Forall2 (fun q v => is_latest l q v) ts vs.
Proof. intros T l Hs Hne ts H. apply queries_ok; auto. apply cursor0_ok. Qed.
Example C19_history_independent_ex :
  let l := [(0, 1); ((1#2), 2); (1, 3)]%Q in
  separated l /\ queries l cursor0 [(3#4); 0; 2; -(1); (1#2)]%Q = Some [Some 2; Some 1; Some 3; Some 1; Some 2]%Q.
Proof.
  split; [apply separated_check; reflexivity|vm_compute; reflexivity].
Qed.

(** The value described is unique, so the theorem determines every result. *)
Theorem C19_value_unique : forall T (l : tl T) t v w, ordered l -> is_latest l t v -> is_latest l t w -> v = w.
Proof. intros T. exact latest_unique. Qed.
Example C19_value_unique_ex : is_latest [(0, true); (1, false)]%Q (1#2) true.
Proof.
  exists 0, 0%Q. repeat split; auto. intros [|[|[|j]]] tj w Hj H; simpl in H; try lia; inversion H; subst; reflexivity.
Qed.

(** Nothing recorded: every lookup says so. *)
Theorem C19_empty : forall T ts (c : cursor), queries (@nil (Q * T)) c ts = Some (map (fun _ => None) ts).
Proof. intros. apply empty_queries. Qed.
Example C19_empty_ex : queries (@nil (Q * nat)) cursor0 [0; 1]%Q = Some [None; None].
Proof. reflexivity. Qed.

(** Without the distance the result depends on the history: after a lookup at 0, a lookup at 0.9e-6 differs. *)
Theorem C19_close_times_refuted :
  ~ (forall (l : tl Q), ordered l -> l <> [] -> forall t u c r1 r2,
      get_value_incremental l cursor0 t = Some (r1, c) ->
      option_map fst (get_value_incremental l c u) = Some r2 ->
      option_map fst (get_value_incremental l cursor0 u) = Some r2).
Proof.
  intros H.
  assert (Ho : ordered [(0, 1); ((3#2000000), 2)]%Q).
  { apply ordered_check. reflexivity. }
  specialize (H [(0, 1); ((3#2000000), 2)]%Q ltac:(exact Ho) ltac:(discriminate) 0%Q (9#10000000)%Q _ _ _ eq_refl eq_refl).
  vm_compute in H. discriminate.
Qed.

(** Binary search agrees when something later is recorded or there is a single value; missing: times at or after the
    last entry, see the refutation. *)
Theorem C19_binary_partial : forall T (l : tl T) time, ordered l -> l <> [] ->
  (length l = 1 \/ exists i ti w, nth_error l i = Some (ti, w) /\ (time + SMALL < ti)%Q) ->
  exists v, get_value_binary l time false = Some (Some v) /\ is_latest l time v.
Proof. intros T. exact binary_ok. Qed.
Example C19_binary_partial_ex : get_value_binary [(0, 1); (1, 2); (2, 3)]%Q (3#2)%Q false = Some (Some 2%Q).
Proof. reflexivity. Qed.

(** At or after the last entry the binary search returns the last but one value. *)
Theorem C19_binary_past_end : forall T (l : tl T) a b time,
  ordered (l ++ [a; b]) -> (fst b <= time + SMALL)%Q ->
  get_value_binary (l ++ [a; b]) time false = Some (Some (snd a)).
Proof. intros T. exact binary_past_end. Qed.
Example C19_binary_past_end_ex : get_value_binary [(0, 1); (1, 2)]%Q 5%Q false = Some (Some 1%Q).
Proof. reflexivity. Qed.

Theorem C19_binary_refuted :
  ~ (forall (l : tl Q) time, ordered l -> l <> [] ->
       exists v, get_value_binary l time false = Some (Some v) /\ is_latest l time v).
Proof.
  intros H.
  assert (Ho : ordered [(0, 1); (1, 2)]%Q).
  { apply ordered_check. reflexivity. }
  destruct (H [(0, 1); (1, 2)]%Q 5%Q Ho ltac:(discriminate)) as (v & E & (i & ti & Hi & _ & Hl)).
  vm_compute in E. inversion E; subst. clear E.
  assert (Hi0 : i = 0) by (destruct i as [|[|[|i]]]; simpl in Hi; congruence). subst.
  specialize (Hl 1 1%Q 2%Q ltac:(auto) eq_refl). vm_compute in Hl. discriminate.
Qed.

(** ** C20 *)

(** Any sequence of requests on a loaded recording: no access outside, and the frame index always names a frame. *)
Theorem C20_index_valid : forall ts stop, frames_ok ts -> (stop <= last_time ts + SMALL)%Q -> forall rs,
  exists n, do_reqs ts (nav0 ts stop) rs = Some n /\ n_index n < length ts.
Proof.
  intros ts stop Hf Hs rs. destruct (do_reqs_ok ts Hf rs (nav0 ts stop)) as (n & E & H); [apply nav0_ok; auto|].
  exists n. split; auto. apply H.
Qed.
Example C20_index_valid_ex :
  frames_ok [0; 1; 2; 3]%Q /\
  option_map n_index (do_reqs [0; 1; 2; 3]%Q (nav0 [0; 1; 2; 3]%Q 3%Q)
    [RTime (5#2) false; RDelta (-(1)) true; RSetStop 2; RNext; RRepeat true; RNext; RNext]) = Some 1.
Proof. split; [apply frames_check; [discriminate|reflexivity]|reflexivity]. Qed.

(** Requests that do not move the window keep the current time in it, up to the tolerance. *)
Theorem C20_time_in_window : forall ts, ts <> [] -> forall rs n n', forallb keeps_window rs = true ->
  (n_start n <= n_stop n)%Q -> in_window n -> do_reqs ts n rs = Some n' ->
  in_window n' /\ n_start n' = n_start n /\ n_stop n' = n_stop n.
Proof. exact do_reqs_win. Qed.
Example C20_time_in_window_ex :
  option_map n_time (do_reqs [0; 1; 2; 3]%Q (mkNav 1 1 1 2 1 2 false) [RDelta 5 true; RNext; RNext; RTime (-(4)) false]) = Some 1%Q
  /\ option_map n_time (do_reqs [0; 1; 2; 3]%Q (mkNav 1 1 1 2 1 2 false) [RDelta 5 false]) = Some 2%Q.
Proof. split; reflexivity. Qed.

(** Moving the window moves the current time into it. *)
Theorem C20_window_change : forall ts n r n', frames_ok ts -> nav_ok ts n -> in_window n ->
  do_req ts n r = Some n' -> (exists t, r = RSetStart t \/ r = RSetStop t) ->
  (n_start n' <= n_stop n')%Q -> in_window n'.
Proof. exact set_window_in. Qed.
Example C20_window_change_ex :
  option_map n_time (do_req [0; 1; 2; 3]%Q (nav0 [0; 1; 2; 3]%Q 3%Q) (RSetStart (3#2))) = Some (3#2)%Q.
Proof. reflexivity. Qed.

(** From a frame strictly inside the window, next moves to the next frame and previous comes back. *)
Theorem C20_next_previous : forall ts n i a b, frames_ok ts ->
  nth_error ts i = Some a -> nth_error ts (S i) = Some b ->
  (n_time n == a)%Q -> (n_start n <= a)%Q -> (b <= n_stop n)%Q ->
  go_to_next ts n = goto n (S i) b /\ go_to_previous ts (go_to_next ts n) = goto n i a.
Proof. exact next_prev. Qed.
Example C20_next_previous_ex :
  go_to_previous [0; 1; 2; 3]%Q (go_to_next [0; 1; 2; 3]%Q (mkNav 1 1 0 3 0 3 false)) = mkNav 1 1 0 3 0 3 false.
Proof. reflexivity. Qed.

(** Playing forward in steps, stopping at frames, from a state whose index matches its time: no frame is jumped over. *)
Theorem C20_play_visits_frames : forall ts n dt n', frames_ok ts -> whole_window ts n -> synced ts n -> (0 < dt)%Q ->
  go_to_delta ts n dt true = Some n' ->
  synced ts n' /\ whole_window ts n' /\ (n_time n' <= n_time n + dt + SMALL)%Q /\
  (forall t, In t ts -> (n_time n < t)%Q -> (n_time n' <= t)%Q).
Proof. exact play_no_skip. Qed.
Example C20_play_visits_frames_ex :
  option_map n_time (go_to_delta [0; 1; 2; 3]%Q (nav0 [0; 1; 2; 3]%Q 3%Q) (5#2) true) = Some 1%Q.
Proof. reflexivity. Qed.

(** After a jump between two frames the index is the next frame, and playing on from there jumps over that frame. *)
Theorem C20_play_after_jump_refuted :
  ~ (forall ts n n1 n2 t dt, frames_ok ts -> whole_window ts n -> synced ts n -> (0 < dt)%Q ->
       go_to_time ts n t false = Some n1 -> go_to_delta ts n1 dt true = Some n2 ->
       forall f, In f ts -> (n_time n1 < f)%Q -> (n_time n2 <= f)%Q).
Proof.
  intros H.
  assert (Hf : frames_ok [0; 1; 2; 3]%Q).
  { apply frames_check; [discriminate|reflexivity]. }
  specialize (H [0; 1; 2; 3]%Q (mkNav 0 0 0 3 0 3 false) _ _ (3#2)%Q (6#10)%Q Hf
                ltac:(repeat split) ltac:(split; [exists 0%Q; split; [reflexivity|vm_compute; congruence]|
                  intros b E; simpl in E; inversion E; vm_compute; congruence])
                ltac:(reflexivity) eq_refl eq_refl 2%Q ltac:(simpl; auto) ltac:(reflexivity)).
  vm_compute in H. apply H. reflexivity.
Qed.

(** Going to the nearest frame can leave the window, and does not move the index. *)
Theorem C20_nearest_refuted :
  ~ (forall ts n n', frames_ok ts -> nav_ok ts n -> (n_start n <= n_stop n)%Q -> in_window n ->
       do_req ts n RNearest = Some n' -> in_window n' /\ nth_error ts (n_index n') = Some (n_time n')).
Proof.
  intros H.
  assert (Hf : frames_ok [0; 1]%Q).
  { apply frames_check; [discriminate|reflexivity]. }
  destruct (H [0; 1]%Q (mkNav (1#4) 1 0 (1#2) 0 1 false) _ Hf
     ltac:(constructor; simpl; try lia; vm_compute; congruence) ltac:(vm_compute; congruence)
     ltac:(split; vm_compute; congruence) eq_refl) as [[_ H2] _].
  vm_compute in H2. apply H2. reflexivity.
Qed.

(** ** C39 *)

(** Data replaced between two times: everything strictly before and strictly after is kept, everything in between is
    replaced by the given data. *)
Theorem C39_replace : forall T (l : tl T) t0 t1 input,
  ordered l -> input <> [] -> l <> [] -> (t0 <= t1)%Q ->
  exists pre mid post, l = pre ++ mid ++ post /\
    replace_between l t0 t1 input false = pre ++ input ++ post /\
    Forall (fun e => (fst e < t0 - SMALL)%Q) pre /\
    Forall (fun e => (t0 - SMALL <= fst e /\ fst e <= t1 + SMALL)%Q) mid /\
    Forall (fun e => (t1 + SMALL < fst e)%Q) post.
Proof. intros T. exact replace_structure. Qed.
Example C39_replace_ex :
  replace_between [(0, 1); (1, 2); (2, 3); (3, 4)]%Q 1%Q 2%Q [((3#2), 9)]%Q false = [(0, 1); ((3#2), 9); (3, 4)]%Q.
Proof. reflexivity. Qed.

(** Removing duplicates keeps only recorded entries, keeps the last one, and leaves no two neighbours within the tolerance. *)
Theorem C39_clean_subset : forall T (l : tl T) x, In x (clean_duplicates l) -> In x l.
Proof. intros T. exact clean_in. Qed.
Example C39_clean_subset_ex : clean_duplicates [(0, 1); (0, 2); (1, 3)]%Q = [(0, 2); (1, 3)]%Q.
Proof. reflexivity. Qed.
Theorem C39_clean_last : forall T (l : tl T) d, last (clean_duplicates l) d = last l d.
Proof. intros T. exact clean_last. Qed.
Example C39_clean_last_ex : last (clean_duplicates [(0, 1); (1, 2); (1, 3)]%Q) (0, 0)%Q = (1, 3)%Q.
Proof. reflexivity. Qed.
Theorem C39_clean_separates : forall T (l : tl T), ordered l -> no_near_neighbours (clean_duplicates l).
Proof. intros T. exact clean_separates. Qed.
Example C39_clean_separates_ex :
  clean_duplicates [(0, 1); ((1#2000000), 2); ((3#2000000), 3); ((5#2000000), 4)]%Q = [((1#2000000), 2); ((3#2000000), 3); ((5#2000000), 4)]%Q.
Proof. vm_compute. reflexivity. Qed.

Print Assumptions C19_history_independent.
Print Assumptions C20_index_valid.
Print Assumptions C20_play_visits_frames.
Print Assumptions C39_clean_separates.
