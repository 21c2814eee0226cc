(** Properties of lane ids, records along a road, lane sections, lane boundaries and lane tracing. *)
From Coq Require Import PeanoNat Sorted Permutation.
From Verif Require Import QAux LaneModel LaneProofs LaneSecProofs Lane2Proofs Lane3Proofs.
Open Scope Q_scope.

(** ** C27: lane id arithmetic *)

(** Lanes counted from right to left without the centre lane: -2, -1, 1, 2 have the ranks -1, 0, 1, 2.  Moving adds to the
    rank, the distance is the difference of the ranks. *)
Theorem C27_move : forall id off, id <> 0%Z -> GetRelativeLaneId id off <> 0%Z /\ rank (GetRelativeLaneId id off) = (rank id + off)%Z.
Proof. exact relative_rank. Qed.
Theorem C27_distance : forall a b, a <> 0%Z -> b <> 0%Z -> GetLaneIdDelta a b = (rank b - rank a)%Z.
Proof. exact delta_rank. Qed.
Theorem C27_rank : forall a b, a <> 0%Z -> b <> 0%Z -> rank a = rank b -> a = b.
Proof. exact rank_inj. Qed.
Theorem C27_inverse : forall a, a <> 0%Z ->
  (forall b, b <> 0%Z -> GetRelativeLaneId a (GetLaneIdDelta a b) = b) /\ (forall off, GetLaneIdDelta a (GetRelativeLaneId a off) = off).
Proof. intros a N. split; [intros b; now apply relative_delta|intros off; now apply delta_relative]. Qed.
Theorem C27_antisymmetric : forall a b, GetLaneIdDelta b a = (- GetLaneIdDelta a b)%Z.
Proof. exact delta_antisym. Qed.
Theorem C27_additive : forall a m n b c, a <> 0%Z -> b <> 0%Z -> c <> 0%Z ->
  GetRelativeLaneId (GetRelativeLaneId a m) n = GetRelativeLaneId a (m + n) /\
  GetLaneIdDelta a c = (GetLaneIdDelta a b + GetLaneIdDelta b c)%Z.
Proof. intros. split; [now apply relative_add|now apply delta_add]. Qed.
(** The results fit an int whenever the operands are below 2^29 in size. *)
Theorem C27_range : forall a b, (Z.abs a < 2 ^ 29)%Z -> (Z.abs b < 2 ^ 29)%Z ->
  (Z.abs (GetRelativeLaneId a b) < 2 ^ 31)%Z /\ (Z.abs (GetLaneIdDelta a b) < 2 ^ 31)%Z.
Proof. intros a b A B. pose proof (relative_bound a b). pose proof (delta_bound a b). lia. Qed.
(** From the centre lane the two are not inverse: the distance to lane 1 is 0, moving by it stays on the centre lane. *)
Theorem C27_centre_refuted : exists b, GetRelativeLaneId 0 (GetLaneIdDelta 0 b) <> b /\ GetLaneIdDelta 0 (GetRelativeLaneId 0 b) <> b.
Proof. exists 1%Z. split; discriminate. Qed.
Example C27_ex : GetRelativeLaneId (-1) 1 = 1%Z /\ GetRelativeLaneId (-1) 2 = 2%Z /\ GetRelativeLaneId 2 (-3) = (-2)%Z /\ GetLaneIdDelta (-1) 1 = 1%Z
  /\ GetLaneIdDelta 2 (-2) = (-3)%Z.
Proof. repeat split. Qed.

(** ** C28: records by s *)

Theorem C28_width : forall (l : list lane_width) s, l <> [] ->
  exists r, GetRecordByS fst (fold_left (AddRecord fst) l []) s = Some r /\ governs fst s l r.
Proof. intros l s. apply store_governs. Qed.
(** for any record type stored this way, and the start of the record is determined *)
Theorem C28_records : forall (A : Type) (key : A -> Q) (l : list A) s, l <> [] ->
  exists r, GetRecordByS key (fold_left (AddRecord key) l []) s = Some r /\ governs key s l r /\ forall r', governs key s l r' -> key r' == key r.
Proof.
  intros A key l s N. destruct (store_governs key s l N) as (r & R & G). exists r. repeat split; auto.
  intros r' G'. eapply governs_key_unique; eauto.
Qed.
(** the order of declaration does not matter if the starts differ *)
Theorem C28_order : forall (A : Type) (key : A -> Q) (l l' : list A) s, Permutation l l' ->
  (forall x y, In x l -> In y l -> key x == key y -> x = y) ->
  GetRecordByS key (fold_left (AddRecord key) l []) s = GetRecordByS key (fold_left (AddRecord key) l' []) s.
Proof.
  intros A key l l' s P U. destruct l as [|x q] eqn:E.
  - apply Permutation_nil in P. now subst.
  - rewrite <- E in *. assert (NE : l <> []) by (rewrite E; discriminate).
    assert (NE' : l' <> []) by (intros Z; rewrite Z in P; apply Permutation_sym, Permutation_nil in P; congruence).
    destruct (store_governs key s l NE) as (r & R & G), (store_governs key s l' NE') as (r' & R' & G'). rewrite R, R'. f_equal.
    pose proof (governs_in _ _ _ _ G) as I. pose proof (governs_in _ _ _ _ G') as I'. apply (Permutation_in _ (Permutation_sym P)) in I'.
    apply U; auto. destruct (Qlt_le_dec s (key r)) as [H|H].
    + pose proof (governs_min _ _ _ _ G H) as M. destruct (M _ I') as [M1 M2].
      pose proof (governs_min _ _ _ _ G' M1 r (Permutation_in _ P I)) as [_ M3]. lra.
    + pose proof (governs_max _ _ _ _ G H) as M. destruct (Qlt_le_dec s (key r')) as [H'|H'].
      * pose proof (governs_min _ _ _ _ G' H' r (Permutation_in _ P I)) as [M3 _]. lra.
      * pose proof (M _ I' H'). pose proof (governs_max _ _ _ _ G' H' r (Permutation_in _ P I) H). lra.
Qed.
Theorem C28_road_type : forall (T : Type) (l : list (Q * T)) s, l <> [] ->
  exists r, GetRoadTypeEntryByS (fold_left AddRoadType l []) s = Some (snd r) /\ governs_last fst s l r.
Proof. intros T l s. apply road_type_governs. Qed.
Theorem C28_material : forall (A : Type) (key : A -> Q) (l : list A) s, l <> [] -> separated key l ->
  exists r, GetRecordByS key (fold_left (AddLaneMaterial key) l []) s = Some r /\ governs_last key s l r.
Proof. intros A key l s. apply material_governs. Qed.
(** Materials that start closer together than 1e-6 end up in the wrong order: at 2e-6 the material of 1.4e-6 governs, the one of
    1e-6 is used. *)
Theorem C28_material_refuted : exists (l : list Q) s r,
  GetRecordByS (fun x => x) (fold_left (AddLaneMaterial (fun x => x)) l []) s = Some r /\ ~ governs_last (fun x => x) s l r.
Proof.
  exists [0; 1 # 1000000; 5 # 10000000; 14 # 10000000], (2 # 1000000), (1 # 1000000). split; [reflexivity|].
  intros (l1 & l2 & E & [(A & B & C)|(A & _)]).
  - assert (I : In (14 # 10000000) (l1 ++ (1 # 1000000) :: l2)) by (rewrite <- E; cbn; auto). rewrite in_app_iff in I. cbn [In] in I.
    destruct I as [I|[I|I]]; [specialize (B _ I ltac:(lra)); lra|discriminate|specialize (C _ I ltac:(lra)); lra].
  - specialize (A 0 ltac:(cbn; auto)). lra.
Qed.
Theorem C28_lane_offset : forall L ins s, ascending ins -> ins <> [] ->
  exists r, governs sp_s s (offset_decls ins) r /\
    GetLaneOffset (fold_left (AddLaneOffset L) ins []) s = Evaluate (sp_poly r) (s - sp_s r) /\
    GetLaneOffsetPrim (fold_left (AddLaneOffset L) ins []) s = EvaluatePrim (sp_poly r) (s - sp_s r).
Proof. exact lane_offset_value. Qed.
Theorem C28_no_lane_offset : forall L s, GetLaneOffset (fold_left (AddLaneOffset L) [] []) s = 0.
Proof. exact lane_offset_none. Qed.
(** Ahead of the first record, the polynomial of that record is evaluated from the start of the road: with the record 1 + x at
    100 the offset is 51 at s = 50 and 1 at s = 100. *)
Theorem C28_lane_offset_ahead_refuted : exists e s s', s < s' /\ s' < sp_s e /\
  ~ GetLaneOffset (fold_left (AddLaneOffset 1000) [e] []) s == 0 /\
  GetLaneOffset (fold_left (AddLaneOffset 1000) [e] []) s' == 51 /\ GetLaneOffset (fold_left (AddLaneOffset 1000) [e] []) (sp_s e) == 1.
Proof.
  exists (Span 100 0 (Poly 1 1 0 0 1)), 0, 50. split; [reflexivity|]. split; [reflexivity|]. split; [discriminate|]. split; reflexivity.
Qed.
(** Records declared out of order are kept out of order: the record at 0 is used at s = 20 instead of the one at 10. *)
Theorem C28_lane_offset_order_refuted : exists ins s r, governs sp_s s ins r /\
  ~ GetLaneOffset (fold_left (AddLaneOffset 100) ins []) s == Evaluate (sp_poly r) (s - sp_s r).
Proof.
  exists [Span 0 0 (Poly 0 0 0 0 1); Span 10 0 (Poly 1 0 0 0 1); Span 5 0 (Poly 2 0 0 0 1)], 20, (Span 10 0 (Poly 1 0 0 0 1)). split.
  - exists [Span 0 0 (Poly 0 0 0 0 1)], [Span 5 0 (Poly 2 0 0 0 1)]. split; [reflexivity|]. left.
    split; [cbn; lra|]. split; intros x [<-|[]]; cbn; lra.
  - discriminate.
Qed.
Theorem C28_elevation : forall L ins s, ascending ins -> (forall e, In e ins -> sp_s e <= L) -> ins <> [] -> forall index,
  (forall e, In e ins -> s < sp_s e -> s + SMALL < sp_s e) ->
  exists r k, governs sp_s s ins r /\
    GetZAndPitchByS (fold_left (AddElevation L) ins []) s index =
      Some (Evaluate (sp_poly r) (s - sp_s r), EvaluatePrim (sp_poly r) (s - sp_s r), EvaluatePrimPrim (sp_poly r) (s - sp_s r), k).
Proof. intros. now apply elevation_value. Qed.
Theorem C28_elevation_near : forall L ins s, ascending ins -> (forall e, In e ins -> sp_s e <= L) -> ins <> [] -> forall index,
  let l := fold_left (AddElevation L) ins [] in
  exists k e, nth_error l k = Some e /\ map decl l = map decl ins /\
    GetZAndPitchByS l s index = Some (Evaluate (sp_poly e) (s - sp_s e), EvaluatePrim (sp_poly e) (s - sp_s e),
                                      EvaluatePrimPrim (sp_poly e) (s - sp_s e), k) /\
    ((0 < k)%nat -> sp_s e - SMALL <= s) /\ (forall n, nth_error l (S k) = Some n -> s < sp_s n).
Proof.
  intros L ins s A R N index. cbn zeta. destruct (elevation_near L ins s A R N index) as (k & e & H1 & H2). exists k, e.
  split; [exact H1|]. split; [symmetry; apply stored_decl|exact H2].
Qed.
Theorem C28_roll : forall L ins s, ascending ins -> (forall e, In e ins -> sp_s e <= L) -> ins <> [] -> forall index,
  (forall e, In e ins -> ~ sp_s e == s) ->
  exists r k, governs sp_s s ins r /\
    UpdateRollByS (fold_left (AddElevation L) ins []) s index = Some (Evaluate (sp_poly r) (s - sp_s r), EvaluatePrim (sp_poly r) (s - sp_s r), k).
Proof. intros. now apply roll_value. Qed.
Theorem C28_roll_near : forall L ins s, ascending ins -> (forall e, In e ins -> sp_s e <= L) -> ins <> [] -> forall index,
  let l := fold_left (AddElevation L) ins [] in
  exists k e, nth_error l k = Some e /\ map decl l = map decl ins /\
    UpdateRollByS l s index = Some (Evaluate (sp_poly e) (s - sp_s e), EvaluatePrim (sp_poly e) (s - sp_s e), k) /\
    ((0 < k)%nat -> sp_s e <= s) /\ (forall n, nth_error l (S k) = Some n -> s <= sp_s n).
Proof.
  intros L ins s A R N index. cbn zeta. destruct (roll_near L ins s A R N index) as (k & e & H1 & H2). exists k, e.
  split; [exact H1|]. split; [symmetry; apply stored_decl|exact H2].
Qed.
(** At the start of a record the roll depends on the index of the previous lookup. *)
Theorem C28_roll_refuted : exists l s, UpdateRollByS (fold_left (AddElevation 100) l []) s 0 = Some (0, 0, 0%nat) /\
  UpdateRollByS (fold_left (AddElevation 100) l []) s 1 = Some (1, 0, 1%nat).
Proof. exists [Span 0 0 (Poly 0 0 0 0 1); Span 10 0 (Poly 1 0 0 0 1)], 10. split; reflexivity. Qed.
(** Less than 1e-6 ahead of the start of a record the elevation depends on the index of the previous lookup. *)
Theorem C28_elevation_refuted : exists l s z z' a b c d i j,
  GetZAndPitchByS (fold_left (AddElevation 100) l []) s 0 = Some (z, a, b, i) /\
  GetZAndPitchByS (fold_left (AddElevation 100) l []) s 2 = Some (z', c, d, j) /\ ~ z == z'.
Proof.
  exists [Span 0 0 (Poly 0 0 0 0 1); Span 10 0 (Poly 1 0 0 0 1); Span 20 0 (Poly 1 0 0 0 1)], (99999999 # 10000000).
  do 8 eexists. split; [reflexivity|]. split; [reflexivity|]. discriminate.
Qed.
(** Elevation records declared out of order: at s = 20 the record at 5 is used instead of the one at 10. *)
Theorem C28_elevation_order_refuted : exists ins s r z a b i, governs sp_s s ins r /\
  GetZAndPitchByS (fold_left (AddElevation 100) ins []) s 0 = Some (z, a, b, i) /\ ~ z == Evaluate (sp_poly r) (s - sp_s r).
Proof.
  exists [Span 0 0 (Poly 0 0 0 0 1); Span 10 0 (Poly 1 0 0 0 1); Span 5 0 (Poly 2 0 0 0 1)], 20, (Span 10 0 (Poly 1 0 0 0 1)).
  do 4 eexists. split; [|split; [reflexivity|discriminate]].
  exists [Span 0 0 (Poly 0 0 0 0 1)], [Span 5 0 (Poly 2 0 0 0 1)]. split; [reflexivity|]. left.
  split; [cbn; lra|]. split; intros x [<-|[]]; cbn; lra.
Qed.
Example C28_ex :
  GetRecordByS fst (fold_left (AddRecord fst) [(20, 2%nat); (0, 0%nat); (10, 1%nat)] []) 15 = Some (10, 1%nat) /\
  GetRoadTypeEntryByS (fold_left AddRoadType [(20, 2%nat); (5, 0%nat); (10, 1%nat)] []) 3 = Some 0%nat /\
  governs fst 15 [(20, 2%nat); (0, 0%nat); (10, 1%nat)] (10, 1%nat) /\
  ascending [Span 0 0 (Poly 0 0 0 0 1); Span 10 0 (Poly 1 0 0 0 1)].
Proof.
  split; [reflexivity|]. split; [reflexivity|]. split.
  - exists [(20, 2%nat); (0, 0%nat)], []. split; [reflexivity|]. left. split; [cbn; lra|]. split; [intros x [<-|[<-|[]]]; cbn; lra|intros x []].
  - repeat constructor.
Qed.

(** ** C29: lane boundaries *)

Theorem C29_width : forall ls s id l ins, id <> 0%Z -> GetLaneById ls id = Some l -> l_width l = fold_left (AddRecord fst) ins [] -> ins <> [] ->
  ls_s ls <= s -> s <= ls_s ls + ls_length ls ->
  exists w, governs fst (s - ls_s ls) ins w /\ GetWidth ls s id == Evaluate (snd w) (s - ls_s ls - fst w).
Proof. exact width_value. Qed.
Theorem C29_missing : forall ls s id, GetLaneById ls id = None -> GetWidth ls s id = 0.
Proof. exact width_missing. Qed.
(** Lanes are stored from left to right, whatever the order of declaration, and found by their id. *)
Theorem C29_lanes : forall ins, let l := fold_left AddLane ins [] in
  StronglySorted (fun a b => (l_id b <= l_id a)%Z) l /\ Permutation ins l /\
  forall id, find (fun a => (l_id a =? id)%Z) l = find (fun a => (l_id a =? id)%Z) ins.
Proof. exact store_lanes. Qed.
Theorem C29_outer : forall ls s id, GetOuterOffset ls s id == widths ls s (id <? 0)%Z (Z.abs_nat id).
Proof. exact outer_sum. Qed.
Theorem C29_next : forall ls s id, id <> 0%Z -> GetInnerOffset ls s (id + SIGN id) = GetOuterOffset ls s id.
Proof. exact inner_next. Qed.
Theorem C29_first : forall ls s id, (Z.abs id <= 1)%Z -> GetInnerOffset ls s id = 0.
Proof. exact inner_first. Qed.
Theorem C29_breadth : forall ls s id, GetOuterOffset ls s id == GetInnerOffset ls s id + GetWidth ls s id.
Proof. exact outer_inner. Qed.
Theorem C29_centre : forall ls s id, GetCenterOffset ls s id == (GetInnerOffset ls s id + GetOuterOffset ls s id) / 2.
Proof. exact centre_midway. Qed.
Theorem C29_disjoint : forall ls s a b t, (forall id, 0 <= GetWidth ls s id) -> inside ls s a t -> inside ls s b t -> a = b.
Proof. exact lanes_disjoint. Qed.
Theorem C29_ordered : forall ls s a b, (forall id, 0 <= GetWidth ls s id) -> (a <? 0)%Z = (b <? 0)%Z -> (Z.abs a < Z.abs b)%Z ->
  GetOuterOffset ls s a <= GetInnerOffset ls s b.
Proof. exact lanes_ordered. Qed.
Theorem C29_inside : forall ls s id t, id <> 0%Z -> (inside ls s id t <-> Qabs (t - centre ls s id) < GetWidth ls s id / 2).
Proof. exact inside_centre. Qed.
Theorem C29_offset : forall ls s a b c,
  GetOffsetBetweenLanes ls a b s == centre ls s b - centre ls s a /\
  GetOffsetBetweenLanes ls b a s == - GetOffsetBetweenLanes ls a b s /\
  GetOffsetBetweenLanes ls a c s == GetOffsetBetweenLanes ls a b s + GetOffsetBetweenLanes ls b c s.
Proof. intros. split; [apply offset_between|]. split; [apply offset_antisym|apply offset_add]. Qed.
Theorem C29_adjacent : forall ls s a, a <> 0%Z ->
  inject_Z (SIGN a) * GetOffsetBetweenLanes ls a (a + SIGN a) s == GetWidth ls s a / 2 + GetWidth ls s (a + SIGN a) / 2.
Proof. exact offset_adjacent. Qed.
Theorem C29_width_between : forall ls s a b, 0 <= GetCenterOffset ls s a -> 0 <= GetCenterOffset ls s b ->
  GetWidthBetweenLanes ls a b s == GetCenterOffset ls s a - GetCenterOffset ls s b.
Proof. exact width_between. Qed.
(** It is not the distance of lanes on different sides: 0 for the lanes 1 and -1 of equal width. *)
Definition lane35 (id : Z) (type : Z) : lane := Lane id type [] [(0, Poly (7 # 2) 0 0 0 1)] [].
Definition two_way : lsec := LSec 0 100 (fold_left AddLane [lane35 (-1) 2; lane35 1 2; Lane 0 1 [] [] []] []).
Theorem C29_width_between_refuted : exists ls a b s, ~ a = b /\ (forall id, 0 <= GetWidth ls s id) /\
  GetWidthBetweenLanes ls a b s == 0 /\ GetOffsetBetweenLanes ls a b s == 7 # 2.
Proof.
  exists two_way, (-1)%Z, 1%Z, 0. split; [discriminate|]. split; [|split; reflexivity].
  intros id. unfold GetWidth, GetLaneById. cbn [two_way fold_left AddLane rev app insert_lane lane35 ls_lanes find l_id Z.ltb Z.compare].
  destruct (id =? 0)%Z; [lra|]. destruct (1 =? id)%Z; [discriminate|]. destruct (0 =? id)%Z; [discriminate|]. destruct (-1 =? id)%Z; discriminate.
Qed.
Example C29_ex : map l_id (ls_lanes two_way) = [1; 0; -1]%Z /\ GetWidth two_way 10 (-1) == 7 # 2 /\ inside two_way 10 (-1) (-(1)).
Proof. split; [reflexivity|]. split; [reflexivity|]. split; reflexivity. Qed.

(** ** C30: section lookup *)

(** Sections declared in ascending order within the road are stored so that each ends where the next one starts. *)
Theorem C30_stored : forall L ins, declared L ins ->
  map sdecl (stored L ins) = map sdecl ins /\
  forall k a, nth_error (stored L ins) k = Some a -> ls_end a == if (S k <? List.length ins)%nat then start_of ins (S k) else L.
Proof.
  intros L ins D. split; [apply stored_sdecl|]. intros k a A. rewrite (t_end _ _ (stored_tiled _ _ D) _ _ A). rewrite stored_length, stored_start. reflexivity.
Qed.
Theorem C30_first_hint : forall L l s, tiled L l -> l <> [] -> s <= L + SMALL -> exists k, GetLaneSectionIdxByS l s 0 = Some k /\ contains l s k.
Proof. intros L l s T. now apply (section_first L). Qed.
Theorem C30_any_hint : forall L l s h, tiled L l -> (h < List.length l)%nat -> s <= L + SMALL ->
  (forall k, (0 < k < List.length l)%nat -> ~ start_of l k == s) ->
  exists k, GetLaneSectionIdxByS l s h = Some k /\ contains l s k.
Proof. intros L l s h T. now apply (section_any L). Qed.
Theorem C30_unique : forall L l s j k, tiled L l -> contains l s j -> contains l s k -> j = k.
Proof. intros L l s j k T. now apply (contains_unique L). Qed.
Theorem C30_none : forall L l s h, tiled L l -> (List.length l <= h)%nat \/ L + SMALL < s -> GetLaneSectionIdxByS l s h = None.
Proof. intros L l s h T. now apply (section_none L). Qed.
Theorem C30_at_start : forall L l s h k, tiled L l -> (0 < k < List.length l)%nat -> (h < List.length l)%nat -> start_of l k == s ->
  GetLaneSectionIdxByS l s h = Some (if (h <=? k)%nat then k else (k - 1)%nat).
Proof. intros L l s h k T. now apply (section_boundary L). Qed.
(** At the start of a section the result depends on the hint. *)
Definition three : list lsec := [LSec 0 0 []; LSec 10 0 []; LSec 20 0 []].
Theorem C30_boundary_refuted : exists L ins s h h', declared L ins /\ (h < List.length ins)%nat /\ (h' < List.length ins)%nat /\
  GetLaneSectionIdxByS (stored L ins) s h = Some 1%nat /\ GetLaneSectionIdxByS (stored L ins) s h' = Some 0%nat.
Proof.
  exists 30, three, 10, 0%nat, 2%nat. split.
  - split; [repeat constructor|]. intros x [<-|[<-|[<-|[]]]]; cbn; lra.
  - split; [cbn; lia|]. split; [cbn; lia|]. split; reflexivity.
Qed.
Example C30_ex : declared 30 three /\ tiled 30 (stored 30 three) /\ contains (stored 30 three) 12 1 /\
  GetLaneSectionIdxByS (stored 30 three) 12 2 = Some 1%nat.
Proof.
  assert (D : declared 30 three). { split; [repeat constructor|]. intros x [<-|[<-|[<-|[]]]]; cbn; lra. }
  split; [exact D|]. split; [now apply stored_tiled|]. split; [|reflexivity].
  split; [cbn; lia|]. split; intros _; cbn; lra.
Qed.

(** ** C31: tracing a lane *)

Theorem C31_to_end : forall r id s tgt i, tiled (r_length r) (r_sections r) ->
  GetLaneSectionIdxByS (r_sections r) s 0 = Some i -> contains (r_sections r) s i -> 0 <= s -> s <= r_length r ->
  tgt < - SMALL \/ tgt = r_length r ->
  GetConnectedLaneIdAtS r id s tgt = links SUCCESSOR (between (r_sections r) i (List.length (r_sections r) - 1)) id.
Proof. intros. now apply trace_end. Qed.
Theorem C31_to_start : forall r id s tgt i, tiled (r_length r) (r_sections r) ->
  GetLaneSectionIdxByS (r_sections r) s 0 = Some i -> contains (r_sections r) s i -> 0 <= s -> s <= r_length r ->
  tgt == 0 -> (SMALL <= s \/ i = 0%nat) ->
  GetConnectedLaneIdAtS r id s tgt = links PREDECESSOR (rev (between (r_sections r) 1 (S i))) id.
Proof. intros. now apply trace_start. Qed.
(** Towards a target further on, the links of one or two more boundaries are followed than lie before the target, as far as
    there are sections. *)
Theorem C31_further : forall r id s tgt i m, tiled (r_length r) (r_sections r) ->
  GetLaneSectionIdxByS (r_sections r) s 0 = Some i -> contains (r_sections r) s i -> 0 <= s -> s <= r_length r ->
  start_of (r_sections r) 0 <= s -> - SMALL <= tgt -> s < tgt -> (m < List.length (r_sections r))%nat ->
  ((0 < m)%nat -> start_of (r_sections r) m < tgt) -> ((S m < List.length (r_sections r))%nat -> tgt <= start_of (r_sections r) (S m)) ->
  GetConnectedLaneIdAtS r id s tgt = links SUCCESSOR (between (r_sections r) i (Nat.min (m + 2) (List.length (r_sections r) - 1))) id.
Proof. intros. now apply trace_further. Qed.
(** Towards a target further back, the links of one more boundary are followed. *)
Theorem C31_back : forall r id s tgt i m, tiled (r_length r) (r_sections r) ->
  GetLaneSectionIdxByS (r_sections r) s 0 = Some i -> contains (r_sections r) s i -> 0 <= s -> s <= r_length r ->
  - SMALL <= tgt -> tgt <= s - SMALL -> contains (r_sections r) tgt m ->
  GetConnectedLaneIdAtS r id s tgt = links PREDECESSOR (rev (between (r_sections r) (Nat.max m 1) (S i))) id.
Proof. intros. now apply trace_back. Qed.
(** Start and target within the same section: the lane id of another section is returned. *)
Definition shift (s : Q) (succ pred : Z) : lsec :=
  LSec s 0 [Lane (-1) 2 [(SUCCESSOR, succ); (PREDECESSOR, pred)] [(0, Poly (7 # 2) 0 0 0 1)] [];
            Lane (-2) 2 [(SUCCESSOR, (succ - 1)%Z); (PREDECESSOR, (pred - 1)%Z)] [(0, Poly (7 # 2) 0 0 0 1)] []].
Definition widening : road := Road 30 (stored 30 [shift 0 (-2) (-1); shift 10 (-1) (-1); shift 20 (-1) (-1)]) [].
Theorem C31_intermediate_refuted : exists r id s tgt i, tiled (r_length r) (r_sections r) /\ contains (r_sections r) s i /\ contains (r_sections r) tgt i /\
  0 <= s /\ s < tgt /\ tgt <= r_length r /\ GetConnectedLaneIdAtS r id s tgt <> id.
Proof.
  exists widening, (-1)%Z, 1, 2, 0%nat. split.
  { apply (stored_tiled 30). split; [repeat constructor|]. intros x [<-|[<-|[<-|[]]]]; cbn; lra. }
  split; [split; [cbn; lia|split; intros; cbn; [lia|lra]]|]. split; [split; [cbn; lia|split; intros; cbn; [lia|lra]]|].
  split; [lra|]. split; [lra|]. split; [cbn; lra|]. discriminate.
Qed.
Example C31_ex : GetConnectedLaneIdAtS widening (-1) 1 (-(1)) = (-2)%Z /\ GetLaneSectionIdxByS (r_sections widening) 1 0 = Some 0%nat /\
  GetConnectedLaneIdAtS widening (-2) (-(1)) 0 = (-2)%Z.
Proof. repeat split. Qed.

(** ** C36: the closest lane *)

Theorem C36_closest : forall ls s t lo side nz mask,
  let el a := eligible ls s side nz mask (l_id a) = true in
  let d a := lane_distance ls s t lo (l_id a) in
  let within a := Qabs (d a) < GetWidth ls s (l_id a) / 2 in
  let res := GetClosestLaneIdx ls s t lo side nz mask in
  (exists a l1 l2, ls_lanes ls = l1 ++ a :: l2 /\ res = (Some (List.length l1), d a) /\ el a /\ within a /\
     (forall b, In b l1 -> el b -> ~ within b)) \/
  ((forall b, In b (ls_lanes ls) -> el b -> ~ within b) /\
   ((exists a l1 l2, ls_lanes ls = l1 ++ a :: l2 /\ res = (Some (List.length l1), d a) /\ el a /\
       (forall b, In b l1 -> el b -> Qabs (d a) < Qabs (d b)) /\ (forall b, In b l2 -> el b -> Qabs (d a) <= Qabs (d b))) \/
    ((forall b, In b (ls_lanes ls) -> ~ el b) /\ res = (GetLaneIdxById ls 0, t - lo)))).
Proof. exact closest_spec. Qed.
(** what the filter and the distance mean *)
Theorem C36_filter : forall ls s side nz mask id, eligible ls s side nz mask id = true <->
  (exists l, GetLaneById ls id = Some l /\ Z.land mask (l_type l) <> 0%Z) /\ (nz = true -> SMALL < GetWidth ls s id) /\
  (side = 0%Z \/ SIGN id = SIGN side).
Proof.
  intros. unfold eligible. destruct (GetLaneById ls id) as [l|].
  - destruct (Z.eqb_spec (Z.land mask (l_type l)) 0) as [M|M]; cbn [negb andb].
    + split; [discriminate|]. intros ((x & X & NX) & _). injection X as <-. contradiction.
    + destruct nz; cbn [negb orb].
      * destruct (Qltb_spec SMALL (GetWidth ls s id)); cbn [andb].
        -- rewrite orb_true_iff, !Z.eqb_eq. split; [intros H; split; [eauto|auto]|intros (_ & _ & H); auto].
        -- split; [discriminate|]. intros (_ & H & _). specialize (H eq_refl). contradiction.
      * cbn [andb]. rewrite orb_true_iff, !Z.eqb_eq. split; [intros H; split; [eauto|split; [discriminate|auto]]|intros (_ & _ & H); auto].
  - split; [discriminate|]. intros ((x & X & _) & _). discriminate.
Qed.
Theorem C36_distance : forall ls s t lo id, lane_distance ls s t lo id == t - lo - centre ls s id.
Proof. intros. unfold lane_distance, centre. ring. Qed.
Theorem C36_round_trip : forall r mask p ls l,
  nth_error (r_sections r) (p_lsec_idx p) = Some ls ->
  GetLaneSectionIdxByS (r_sections r) (p_s p) (p_lsec_idx p) = Some (p_lsec_idx p) ->
  (forall id, 0 <= GetWidth ls (p_s p) id) ->
  GetLaneById ls (p_lane_id p) = Some l -> Z.land mask (l_type l) <> 0%Z -> p_lane_id p <> 0%Z ->
  SMALL < GetWidth ls (p_s p) (p_lane_id p) -> Qabs (p_offset p) < GetWidth ls (p_s p) (p_lane_id p) / 2 ->
  let q := Track2Lane r mask (Lane2Track r p) in
  p_s q = p_s p /\ p_t q = p_t (Lane2Track r p) /\ p_lane_id q = p_lane_id p /\ p_offset q == p_offset p /\ p_lsec_idx q = p_lsec_idx p /\
  exists a, nth_error (ls_lanes ls) (p_lane_idx q) = Some a /\ l_id a = p_lane_id p.
Proof. exact round_trip. Qed.
Theorem C36_lane_to_track : forall r p ls, nth_error (r_sections r) (p_lsec_idx p) = Some ls ->
  p_t (Lane2Track r p) == GetLaneOffset (r_offset r) (p_s p) + centre ls (p_s p) (p_lane_id p) + p_offset p.
Proof.
  intros r p ls H. unfold Lane2Track. rewrite H. cbn [p_t]. unfold centre, SIGN. destruct (_ <? _)%Z; cbn [inject_Z];
  [change (inject_Z (-1)) with (-(1))|change (inject_Z 1) with 1]; ring.
Qed.
Theorem C36_force_lane : forall r id p ls, nth_error (r_sections r) (p_lsec_idx p) = Some ls ->
  exists q, ForceLaneId r id p = Some q /\ p_lane_id q = id /\ p_t q == p_t (Lane2Track r p) /\ p_s q = p_s p.
Proof. exact force_lane. Qed.
Definition plain : road := Road 100 [two_way] [].
Example C36_ex :
  GetClosestLaneIdx two_way 10 (-(1)) 0 0 true 2 = (Some 2%nat, lane_distance two_way 10 (-(1)) 0 (-1)) /\
  GetClosestLaneIdx two_way 10 (-(8)) 0 0 true 2 = (Some 2%nat, lane_distance two_way 10 (-(8)) 0 (-1)) /\
  fst (GetClosestLaneIdx two_way 10 (-(1)) 0 0 true 4) = Some 1%nat /\
  p_lane_id (Track2Lane plain 2 (Lane2Track plain (Pos 10 0 (1 # 4) (-1) 0 0))) = (-1)%Z /\
  p_offset (Track2Lane plain 2 (Lane2Track plain (Pos 10 0 (1 # 4) (-1) 0 0))) == 1 # 4.
Proof. repeat split. Qed.

(** ** C45: following a lane *)

Theorem C45_inside : forall r s i id mask a, tiled (r_length r) (r_sections r) -> nth_error (r_sections r) i = Some a ->
  start_of (r_sections r) i <= s ->
  s <= (if (S i <? List.length (r_sections r))%nat then start_of (r_sections r) (S i) else r_length r) ->
  GetLaneInfoByS r s i id mask = Some (false, i, id).
Proof. intros r s i id mask a T A. now apply info_inside with (a := a). Qed.
Theorem C45_ahead : forall r s i id mask a, tiled (r_length r) (r_sections r) -> nth_error (r_sections r) i = Some a ->
  (if (S i <? List.length (r_sections r))%nat then start_of (r_sections r) (S i) else r_length r) < s ->
  exists k, (i <= k < List.length (r_sections r))%nat /\ ((i < k)%nat -> start_of (r_sections r) k - SMALL < s) /\
    ((S k < List.length (r_sections r))%nat -> s <= start_of (r_sections r) (S k) - SMALL) /\
    settled r s id mask a k (links SUCCESSOR (between (r_sections r) i k) id) (GetLaneInfoByS r s i id mask).
Proof. intros r s i id mask a T A. now apply info_ahead. Qed.
Theorem C45_behind : forall r s i id mask a, tiled (r_length r) (r_sections r) -> nth_error (r_sections r) i = Some a ->
  s < start_of (r_sections r) i ->
  exists k, (k <= i)%nat /\ ((0 < k)%nat -> start_of (r_sections r) k <= s) /\ ((k < i)%nat -> s < start_of (r_sections r) (S k)) /\
    settled r s id mask a k (links PREDECESSOR (rev (between (r_sections r) (S k) (S i))) id) (GetLaneInfoByS r s i id mask).
Proof. intros r s i id mask a T A. now apply info_behind. Qed.
(** Without a lane offset the replacement lane is the one closest to the lane left. *)
Theorem C45_replacement : forall (b a : lsec) s id mask j o, GetClosestLaneIdx b s (centre a s id) 0 0 true mask = (Some j, o) ->
  (exists x, In x (ls_lanes b) /\ eligible b s 0 true mask (l_id x) = true) ->
  exists x, nth_error (ls_lanes b) j = Some x /\ eligible b s 0 true mask (l_id x) = true /\
    (Qabs (centre a s id - centre b s (l_id x)) < GetWidth b s (l_id x) / 2 \/
     forall y, In y (ls_lanes b) -> eligible b s 0 true mask (l_id y) = true ->
       Qabs (centre a s id - centre b s (l_id x)) <= Qabs (centre a s id - centre b s (l_id y))).
Proof.
  intros b a s id mask j o R (z & ZI & ZE).
  assert (DD : forall y, lane_distance b s (centre a s id) 0 (l_id y) == centre a s id - centre b s (l_id y)) by (intros y; unfold lane_distance, centre; ring).
  destruct (closest_spec b s (centre a s id) 0 0 true mask) as [(x & l1 & l2 & E & RR & EL & W & _)|[_ [(x & l1 & l2 & E & RR & EL & B1 & B2)|(NE & _)]]].
  - rewrite R in RR. injection RR as -> _. exists x. split; [rewrite E, nth_error_app2, Nat.sub_diag by lia; reflexivity|]. split; [exact EL|]. left.
    rewrite <- DD. exact W.
  - rewrite R in RR. injection RR as -> _. exists x. split; [rewrite E, nth_error_app2, Nat.sub_diag by lia; reflexivity|]. split; [exact EL|]. right.
    intros y Y YE. rewrite <- !DD. rewrite E, in_app_iff in Y. cbn [In] in Y.
    destruct Y as [Y|[<-|Y]]; [specialize (B1 _ Y YE); lra|lra|exact (B2 _ Y YE)].
  - exfalso. exact (NE _ ZI ZE).
Qed.
(** With a lane offset of -10 it is not: the vehicle in lane -2 (centre 5.25 right of the reference) is put into lane -1 (centre
    1.75) although lane -3 (centre 6.25) is closer. *)
Definition before : lsec := LSec 0 0 [lane35 (-1) 2; Lane (-2) 2 [(SUCCESSOR, -2)%Z] [(0, Poly (7 # 2) 0 0 0 1)] []].
Definition after : lsec := LSec 50 0 [lane35 (-1) 2; Lane (-2) 64 [] [(0, Poly 1 0 0 0 1)] []; lane35 (-3) 2].
Definition shifted (o : Q) : road := Road 100 (stored 100 [before; after]) (fold_left (AddLaneOffset 100) [Span 0 0 (Poly o 0 0 0 1)] []).
Theorem C45_offset_refuted : exists r s i id mask a b, tiled (r_length r) (r_sections r) /\
  nth_error (r_sections r) i = Some a /\ nth_error (r_sections r) (S i) = Some b /\
  GetLaneInfoByS r s i id mask = Some (true, S i, (-1)%Z) /\ eligible b s 0 true mask (-3) = true /\
  Qabs (centre a s id - centre b s (-3)) < Qabs (centre a s id - centre b s (-1)).
Proof.
  exists (shifted (-(10))), 60, 0%nat, (-2)%Z, 2%Z. do 2 eexists. split.
  { apply (stored_tiled 100). split; [repeat constructor|]. intros x [<-|[<-|[]]]; cbn; lra. }
  split; [reflexivity|]. split; [reflexivity|]. split; [reflexivity|]. split; reflexivity.
Qed.
Example C45_ex : GetLaneInfoByS (shifted 0) 60 0 (-2) 2 = Some (true, 1%nat, (-3)%Z) /\ GetLaneInfoByS (shifted 0) 60 0 (-1) 2 = Some (false, 1%nat, (-1)%Z).
Proof. split; reflexivity. Qed.

(** ** C46: lane height *)

Theorem C46_none : forall l s offset, l_height l = [] -> GetHeightBySAndOffset l s offset = Some 0.
Proof. intros l s offset H. unfold GetHeightBySAndOffset. now rewrite H. Qed.
Theorem C46_between : forall l s offset w, GetWidthByS l s = Some w -> 0 < Evaluate (snd w) (s - fst w) ->
  forall p h n q, l_height l = p ++ h :: n :: q -> (forall x, In x p -> lh_s x <= lh_s h) -> lh_s h - SMALL <= s -> s < lh_s n - SMALL ->
  exists v, GetHeightBySAndOffset l s offset = Some v /\ forall g, across (l_id l) (Evaluate (snd w) (s - fst w)) offset g ->
    let f := (s - lh_s h) / (lh_s n - lh_s h) in
    v == lerp (lerp (lh_inner h) (lh_inner n) f) (lerp (lh_outer h) (lh_outer n) f) g.
Proof. exact height_between. Qed.
Theorem C46_last : forall l s offset w, GetWidthByS l s = Some w -> 0 < Evaluate (snd w) (s - fst w) ->
  forall p h, l_height l = p ++ [h] -> (forall x, In x p -> lh_s x <= lh_s h) -> lh_s h - SMALL <= s ->
  exists v, GetHeightBySAndOffset l s offset = Some v /\ forall g, across (l_id l) (Evaluate (snd w) (s - fst w)) offset g ->
    v == lerp (lh_inner h) (lh_outer h) g.
Proof. exact height_last. Qed.
(** the position across the lane exists and is determined *)
Theorem C46_across : forall id width offset, 0 < width ->
  (exists g, across id width offset g) /\ forall g g', across id width offset g -> across id width offset g' -> g == g' /\ 0 <= g /\ g <= 1.
Proof.
  intros id width offset W. split; [eexists; now apply clamp_across|]. intros g g' G G'. split; [eapply across_fun; eauto|eapply across_range; eauto].
Qed.
Theorem C46_bounds : forall l s offset w p h n q v lo hi, GetWidthByS l s = Some w -> 0 < Evaluate (snd w) (s - fst w) ->
  l_height l = p ++ h :: n :: q -> (forall x, In x p -> lh_s x <= lh_s h) -> lh_s h <= s -> s < lh_s n - SMALL ->
  (forall x, x = h \/ x = n -> lo <= lh_inner x /\ lh_inner x <= hi /\ lo <= lh_outer x /\ lh_outer x <= hi) ->
  GetHeightBySAndOffset l s offset = Some v -> lo <= v /\ v <= hi.
Proof. exact height_bounds. Qed.
(** Ahead of the first entry the height is extrapolated: entries of 0 at 10 and 1 at 11 give -10 at the start. *)
Definition kerb : lane := Lane (-1) 2 [] [(0, Poly 2 0 0 0 1)] [LaneHeight 10 0 0; LaneHeight 11 1 1].
Theorem C46_ahead_refuted : exists l s v, s < 10 /\ (forall h, In h (l_height l) -> 0 <= lh_inner h /\ 0 <= lh_outer h) /\
  GetHeightBySAndOffset l s 0 = Some v /\ v == -(10).
Proof.
  exists kerb, 0. eexists. split; [lra|]. split; [|split; [reflexivity|reflexivity]]. intros h [<-|[<-|[]]]; cbn; lra.
Qed.
(** A lane with height entries but without width entries dereferences a null pointer; width zero divides by zero. *)
Theorem C46_no_width : forall l s offset, l_height l <> [] -> l_width l = [] -> GetHeightBySAndOffset l s offset = None.
Proof.
  intros l s offset H W. unfold GetHeightBySAndOffset, GetWidthByS. rewrite W. destruct (l_height l); [congruence|reflexivity].
Qed.
Theorem C46_zero_width : forall l s offset w, l_height l <> [] -> GetWidthByS l s = Some w -> Evaluate (snd w) (s - fst w) == 0 ->
  GetHeightBySAndOffset l s offset = None.
Proof.
  intros l s offset w H W Z. unfold GetHeightBySAndOffset. rewrite W. apply Qeqb_eq in Z. rewrite Z.
  destruct (l_height l) as [|h hs]; [congruence|]. destruct (nth_error _ (Nat.pred _)) as [x|]; [|reflexivity].
  destruct (nth_error _ (S _)) as [y|]; [|reflexivity]. destruct (Qeqb (lh_s y - lh_s x) 0); reflexivity.
Qed.
Example C46_ex : exists v, GetHeightBySAndOffset kerb (21 # 2) (-(1)) = Some v /\ v == 1 # 2 /\ across (-1) 2 (-(1)) 1.
Proof. eexists. split; [reflexivity|]. split; [reflexivity|]. right; left. split; [discriminate|reflexivity]. Qed.

(** ** C47: road width and number of driving lanes *)

Theorem C47_left : forall L l s k ls mask, tiled L l -> contains l s k -> nth_error l k = Some ls -> desc (ls_lanes ls) -> has_centre ls ->
  forall a, outmost_left ls mask a -> exists w, RoadWidth l s 1 mask = Some w /\ w == Qabs (widths ls s false (Z.abs_nat a)).
Proof. exact road_width_left. Qed.
Theorem C47_right : forall L l s k ls mask, tiled L l -> contains l s k -> nth_error l k = Some ls -> desc (ls_lanes ls) -> has_centre ls ->
  forall b, outmost_right ls mask b -> exists w, RoadWidth l s (-1) mask = Some w /\ w == Qabs (widths ls s true (Z.abs_nat b)).
Proof. exact road_width_right. Qed.
Theorem C47_both : forall L l s k ls mask, tiled L l -> contains l s k -> nth_error l k = Some ls ->
  forall x y, RoadWidth l s 1 mask = Some x -> RoadWidth l s (-1) mask = Some y -> exists w, RoadWidth l s 0 mask = Some w /\ w == x + y.
Proof. exact road_width_both. Qed.
Theorem C47_outmost : forall ls mask, desc (ls_lanes ls) -> has_centre ls ->
  (exists a, outmost_left ls mask a) /\ (exists b, outmost_right ls mask b) /\
  (forall a b, outmost_left ls mask a -> outmost_left ls mask b -> a = b) /\ (forall a b, outmost_right ls mask a -> outmost_right ls mask b -> a = b).
Proof.
  intros ls mask D C. split; [eexists; now apply outmost_left_spec|]. split; [eexists; now apply outmost_right_spec|].
  split; [apply outmost_left_unique|apply outmost_right_unique].
Qed.
Theorem C47_driving_lanes : forall L l s k ls, tiled L l -> contains l s k -> nth_error l k = Some ls ->
  forall side, RoadDrivingLanesSide l s side = Some (List.length (filter (fun x => (SIGN (l_id x) =? SIGN side)%Z && IsDriving x) (ls_lanes ls))).
Proof. exact driving_lanes. Qed.
Lemma driving_bits k : Z.testbit LANE_TYPE_ANY_DRIVING k = true <-> In k [1; 9; 17; 18; 19; 20; 22]%Z.
Proof.
  split.
  - intro T. destruct (Z_lt_le_dec k 0) as [H|H]; [rewrite Z.testbit_neg_r in T by exact H; discriminate|].
    destruct (Z_lt_le_dec k 23) as [H2|H2]; [|rewrite Z.bits_above_log2 in T; [discriminate|discriminate|vm_compute (Z.log2 _); lia]].
    assert (K: exists n, k = Z.of_nat n /\ (n < 23)%nat). { exists (Z.to_nat k). split; lia. } destruct K as (n & -> & B).
    do 23 (destruct n as [|n]; [vm_compute in T |- *; try discriminate; tauto|]). lia.
  - cbn. intros [<-|[<-|[<-|[<-|[<-|[<-|[<-|[]]]]]]]]; reflexivity.
Qed.
Lemma driving_spec l : IsDriving l = true <-> l_id l <> 0%Z /\ exists k, In k [1; 9; 17; 18; 19; 20; 22]%Z /\ Z.testbit (l_type l) k = true.
Proof.
  unfold IsDriving. destruct (Z.eqb_spec (l_id l) 0) as [E|E]; [split; [discriminate|tauto]|]. split.
  - intro H. split; [exact E|]. destruct (Z.eqb_spec (Z.land (l_type l) LANE_TYPE_ANY_DRIVING) 0) as [Z0|Z0]; [discriminate|].
    destruct (existsb (fun k => Z.testbit (l_type l) k) [1; 9; 17; 18; 19; 20; 22]%Z) eqn:X.
    + apply existsb_exists in X. exact X.
    + exfalso. apply Z0. apply Z.bits_inj'. intros k K. rewrite Z.land_spec, Z.bits_0. destruct (Z.testbit LANE_TYPE_ANY_DRIVING k) eqn:T; [|apply andb_false_r].
      rewrite andb_true_r. apply driving_bits in T. destruct (Z.testbit (l_type l) k) eqn:Tk; [|reflexivity]. rewrite <- X. symmetry. apply existsb_exists. exists k. auto.
  - intros (_ & k & K & T). destruct (Z.eqb_spec (Z.land (l_type l) LANE_TYPE_ANY_DRIVING) 0) as [Z0|Z0]; [|reflexivity]. exfalso.
    assert (X: Z.testbit (Z.land (l_type l) LANE_TYPE_ANY_DRIVING) k = true) by (rewrite Z.land_spec, T; apply driving_bits; exact K). rewrite Z0, Z.bits_0 in X. discriminate.
Qed.
(** A driving lane is one that is not the reference lane and has at least one of the driving types. *)
Theorem C47_driving : forall l, IsDriving l = true <-> l_id l <> 0%Z /\ exists k, In k [1; 9; 17; 18; 19; 20; 22]%Z /\ Z.testbit (l_type l) k = true.
Proof. exact driving_spec. Qed.
Example C47_driving_ex : IsDriving (lane35 1 2) = true /\ IsDriving (lane35 0 2) = false /\ IsDriving (lane35 1 1) = false.
Proof. repeat split. Qed.
Theorem C47_driving_sum : forall ls, GetNumberOfDrivingLanes ls = (GetNumberOfDrivingLanesSide ls 1 + GetNumberOfDrivingLanesSide ls (-1))%nat.
Proof.
  intros ls. unfold GetNumberOfDrivingLanes, GetNumberOfDrivingLanesSide. induction (ls_lanes ls) as [|x q IH]; [reflexivity|].
  cbn [filter]. unfold SIGN in *. cbn [Z.ltb Z.compare] in *. destruct (l_id x <? 0)%Z; cbn [Z.eqb Pos.eqb andb]; destruct (IsDriving x); cbn [List.length]; lia.
Qed.
(** Without sections the loop runs out of the vector. *)
Theorem C47_empty : forall s side mask, RoadWidth [] s side mask = None /\ RoadDrivingLanesSide [] s side = None.
Proof. intros. split; reflexivity. Qed.
Example C47_ex : exists w, RoadWidth [two_way] 10 0 2 = Some w /\ w == 7 /\ desc (ls_lanes two_way) /\ has_centre two_way /\ outmost_left two_way 2 1.
Proof.
  eexists. split; [reflexivity|]. split; [reflexivity|]. split; [repeat constructor; cbn; lia|]. split; [exists (Lane 0 1 [] [] []); cbn; auto|].
  right. split; [lia|]. split; [exists (lane35 1 2); cbn; repeat split; auto; discriminate|]. intros x [<-|[<-|[<-|[]]]]; cbn; lia.
Qed.

(** ** C48: slopes *)

Theorem C48_polynomial : forall f p h, p_scale f == 1 ->
  Evaluate f (p + h) == Evaluate f p + h * EvaluatePrim f p + h * h * (EvaluatePrimPrim f p / 2 + h * pd f) /\
  EvaluatePrim f (p + h) == EvaluatePrim f p + h * EvaluatePrimPrim f p + h * h * (3 * pd f).
Proof. intros f p h S. split; [rewrite taylor|rewrite taylor_prim]; rewrite S; field. Qed.
(** With a scaled argument the slope lacks the factor: the slope of x/2 is reported as 1. *)
Theorem C48_scale_refuted : exists f, (forall p h, Evaluate f (p + h) - Evaluate f p == h * (1 # 2)) /\ forall p, EvaluatePrim f p == 1.
Proof. exists (Poly 0 1 0 0 (1 # 2)). split; intros; unfold Evaluate, EvaluatePrim; cbn [pa pb pc pd p_scale]; field. Qed.
Theorem C48_total : forall ls s id, id <> 0%Z ->
  (forall k, (0 < k <= Z.abs_nat id)%nat -> lane_rec ls s (lane_no (id <? 0)%Z k) <> None) ->
  GetTotalLaneWidthPrim ls s id false == slopes ls s (id <? 0)%Z (Z.abs_nat id) /\
  GetTotalLaneWidthPrim ls s id true == slopes ls s (id <? 0)%Z (Z.abs_nat id) - lane_slope ls s id / 2.
Proof.
  intros ls s id N R. unfold GetTotalLaneWidthPrim. apply Z.eqb_neq in N as N'. rewrite N'. split.
  - rewrite width_prim_false by exact R. ring.
  - destruct (Z.abs_nat id) as [|m] eqn:E; [lia|]. rewrite width_prim_true by exact R. cbn [slopes].
    assert (LN : lane_no (id <? 0)%Z (S m) = id) by (unfold lane_no; destruct (Z.ltb_spec id 0); lia). rewrite LN. field.
Qed.
Theorem C48_boundary : forall ls s neg n, ls_s ls <= s -> s <= ls_end ls ->
  (forall k, (0 < k <= n)%nat -> exists w, lane_rec ls s (lane_no neg k) = Some w /\ p_scale (snd w) == 1) ->
  exists c d, forall h, ls_s ls <= s + h -> s + h <= ls_end ls ->
    (forall k, (0 < k <= n)%nat -> lane_rec ls (s + h) (lane_no neg k) = lane_rec ls s (lane_no neg k)) ->
    widths ls (s + h) neg n == widths ls s neg n + h * slopes ls s neg n + h * h * (c + d * h).
Proof. exact outer_slope. Qed.
Example C48_ex : let ls := LSec 0 10 [Lane (-1) 2 [] [(0, Poly 3 (1 # 10) 0 0 1)] []; Lane (-2) 2 [] [(0, Poly 3 (1 # 5) 0 0 1)] []] in
  GetTotalLaneWidthPrim ls 5 (-2) false == 3 # 10 /\ GetTotalLaneWidthPrim ls 5 (-2) true == 1 # 5 /\
  forall k, (0 < k <= 2)%nat -> lane_rec ls 5 (lane_no true k) <> None.
Proof. split; [reflexivity|]. split; [reflexivity|]. intros k K. assert (k = 1 \/ k = 2)%nat as [-> | ->] by lia; discriminate. Qed.

Print Assumptions C27_move.
Print Assumptions C27_distance.
Print Assumptions C27_rank.
Print Assumptions C27_inverse.
Print Assumptions C27_antisymmetric.
Print Assumptions C27_additive.
Print Assumptions C27_range.
Print Assumptions C27_centre_refuted.
Print Assumptions C28_width.
Print Assumptions C28_records.
Print Assumptions C28_order.
Print Assumptions C28_road_type.
Print Assumptions C28_material.
Print Assumptions C28_material_refuted.
Print Assumptions C28_lane_offset.
Print Assumptions C28_no_lane_offset.
Print Assumptions C28_lane_offset_ahead_refuted.
Print Assumptions C28_lane_offset_order_refuted.
Print Assumptions C28_elevation.
Print Assumptions C28_elevation_near.
Print Assumptions C28_roll.
Print Assumptions C28_roll_near.
Print Assumptions C28_roll_refuted.
Print Assumptions C28_elevation_refuted.
Print Assumptions C28_elevation_order_refuted.
Print Assumptions C29_width.
Print Assumptions C29_missing.
Print Assumptions C29_lanes.
Print Assumptions C29_outer.
Print Assumptions C29_next.
Print Assumptions C29_first.
Print Assumptions C29_breadth.
Print Assumptions C29_centre.
Print Assumptions C29_disjoint.
Print Assumptions C29_ordered.
Print Assumptions C29_inside.
Print Assumptions C29_offset.
Print Assumptions C29_adjacent.
Print Assumptions C29_width_between.
Print Assumptions C29_width_between_refuted.
Print Assumptions C30_stored.
Print Assumptions C30_first_hint.
Print Assumptions C30_any_hint.
Print Assumptions C30_unique.
Print Assumptions C30_none.
Print Assumptions C30_at_start.
Print Assumptions C30_boundary_refuted.
Print Assumptions C31_to_end.
Print Assumptions C31_to_start.
Print Assumptions C31_further.
Print Assumptions C31_back.
Print Assumptions C31_intermediate_refuted.
Print Assumptions C36_closest.
Print Assumptions C36_filter.
Print Assumptions C36_distance.
Print Assumptions C36_round_trip.
Print Assumptions C36_lane_to_track.
Print Assumptions C36_force_lane.
Print Assumptions C45_inside.
Print Assumptions C45_ahead.
Print Assumptions C45_behind.
Print Assumptions C45_replacement.
Print Assumptions C45_offset_refuted.
Print Assumptions C46_none.
Print Assumptions C46_between.
Print Assumptions C46_last.
Print Assumptions C46_across.
Print Assumptions C46_bounds.
Print Assumptions C46_ahead_refuted.
Print Assumptions C46_no_width.
Print Assumptions C46_zero_width.
Print Assumptions C47_left.
Print Assumptions C47_right.
Print Assumptions C47_both.
Print Assumptions C47_outmost.
Print Assumptions C47_driving_lanes.
Print Assumptions C47_driving_sum.
Print Assumptions C47_empty.
Print Assumptions C48_polynomial.
Print Assumptions C48_scale_refuted.
Print Assumptions C48_total.
Print Assumptions C48_boundary.

Print Assumptions C47_driving.
