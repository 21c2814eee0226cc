(** * C32: internal ids of roads and junctions *)
From Coq Require Import List Ascii NArith Bool Lia.
From Verif Require Import StrModel IdModel IdProofs.
Import ListNotations.
Local Open Scope N_scope.

(** An id string counts as a number exactly if it is a decimal numeral of at most ten digits whose value is a valid id. *)
Theorem C32_number : forall s v, numeric s v <-> IsNumber s (Some 10) = true /\ as_ullong s = v /\ v <= ID_MAX.
Proof.
  intros s v. split.
  - intros H. pose proof (numeric_yes _ _ H) as T. pose proof (numeric_val _ _ H) as V. apply andb_true_iff in T. destruct T as [T _].
    split; [exact T|]. split; [exact V|]. exact (proj2 (proj2 H)).
  - intros (T & <- & L). apply numeric_test. rewrite T. apply N.leb_le. exact L.
Qed.

(** All ids are distinct, unless some id was renumbered to the reserved value. *)
Theorem C32_distinct : forall strs l, EstablishUniqueIds [] strs = Some l -> ~ In ID_UNDEFINED (map fst l) -> NoDup (map fst l).
Proof. exact distinct. Qed.

(** The characters of a number are the ten digits. *)
Theorem C32_digits : forall s n, IsNumber s n = true -> forall c, In c s -> In c ["0"; "1"; "2"; "3"; "4"; "5"; "6"; "7"; "8"; "9"]%char.
Proof.
  intros s n H c I. assert (D : isdigit c = true).
  { destruct s as [|a r]; [destruct I|]. unfold IsNumber in H. revert H I. generalize 0 as k. generalize (a :: r). clear a r.
    induction l as [|a r IH]; intros k H I; [destruct I|]. cbn [number_loop] in H. destruct (negb (isdigit a) || _) eqn:X; [discriminate|].
    destruct I as [<-|I]; [|apply (IH _ H I)]. apply orb_false_iff in X. destruct X as [X _]. destruct (isdigit a); [reflexivity|discriminate]. }
  revert D. clear. destruct c as [[] [] [] [] [] [] [] []]; vm_compute; intro D; try discriminate D; tauto.
Qed.

(** If the numbers in use leave room for as many ids as there are elements, then loading succeeds with distinct valid ids. *)
Theorem C32_room : forall strs M, (forall s v, In s strs -> numeric s v -> v < M) -> M + N.of_nat (List.length strs) <= ID_MAX ->
  exists l, EstablishUniqueIds [] strs = Some l /\ NoDup (map fst l) /\ forall i, In i (map fst l) -> i < ID_MAX.
Proof. exact room. Qed.

(** Every element keeps its id string and its place. *)
Theorem C32_strings : forall strs l0 l, EstablishUniqueIds l0 strs = Some l -> map snd l = map snd l0 ++ strs.
Proof. exact strings_kept. Qed.

(** A number not used again later is the id of its element. *)
Theorem C32_kept : forall l0 before s after l v, EstablishUniqueIds l0 (before ++ s :: after) = Some l -> numeric s v ->
  (forall t, In t after -> ~ numeric t v) -> id_at l (List.length l0 + List.length before) = Some v.
Proof. exact kept. Qed.

(** A number used twice belongs to the last element using it; the former ones get another id. *)
Theorem C32_conflict : forall before s mid t after l v, EstablishUniqueIds [] (before ++ s :: mid ++ t :: after) = Some l -> numeric s v -> numeric t v ->
  (forall u, In u after -> ~ numeric u v) -> ~ In ID_UNDEFINED (map fst l) ->
  id_at l (List.length before) <> Some v /\ id_at l (List.length before + 1 + List.length mid) = Some v.
Proof. exact not_kept. Qed.

(** Looking up an id string gives the id of the first element with that string, the reserved value if there is none. *)
Theorem C32_lookup : forall l s,
  (forall k i, nth_error l k = Some (i, s) -> (forall j t, (j < k)%nat -> nth_error (map snd l) j = Some t -> t <> s) -> LookupRoadIdFromStr l s = i)
  /\ (~ In s (map snd l) -> LookupRoadIdFromStr l s = ID_UNDEFINED).
Proof. intros l s. split; [intros k i; apply lookup_first|apply lookup_none]. Qed.

(** The same for junctions, where "-1" means no junction. *)
Theorem C32_lookup_junction : forall l s, LookupJunctionIdFromStr l s = (if str_eqb s ["-"; "1"]%char then ID_UNDEFINED else LookupRoadIdFromStr l s).
Proof. reflexivity. Qed.

(** A reference by id string leads to the road with that string, when no string is used twice. *)
Theorem C32_roundtrip : forall strs l k s, EstablishUniqueIds [] strs = Some l -> ~ In ID_UNDEFINED (map fst l) -> NoDup strs -> nth_error strs k = Some s ->
  GetRoadById (map fst l) (LookupRoadIdFromStr l s) = Some k.
Proof. exact roundtrip. Qed.

(** Roads by id and ids by index are inverse to each other. *)
Theorem C32_index : forall road, NoDup road ->
  (forall k, (k < List.length road)%nat -> GetRoadById road (GetTrackIdByIdx road k) = Some k) /\
  (forall i k, GetRoadById road i = Some k -> GetTrackIdByIdx road k = i) /\
  (forall k, (List.length road <= k)%nat -> GetTrackIdByIdx road k = ID_UNDEFINED).
Proof.
  intros road D. split; [|split].
  - intros k L. unfold GetTrackIdByIdx. destruct (nth_error road k) as [i|] eqn:E; [|apply nth_error_None in E; lia]. apply road_by_id; assumption.
  - intros i k E. unfold GetTrackIdByIdx. rewrite (road_by_id_sound _ _ _ E). reflexivity.
  - intros k L. unfold GetTrackIdByIdx. apply nth_error_None in L. rewrite L. reflexivity.
Qed.

(** A generated road id is new. *)
Theorem C32_generate : forall road, (forall i, In i road -> i < ID_MAX) -> ~ In (GenerateRoadId road) road /\ GenerateRoadId road <= ID_MAX.
Proof. exact generated. Qed.

Definition ex_max : str := ["4";"2";"9";"4";"9";"6";"7";"2";"9";"4"]%char.

(** With the maximal id in use, a conflict hands out the reserved value, the counter wraps and a second road gets id 1. *)
Theorem C32_max_refuted : exists strs l, EstablishUniqueIds [] strs = Some l /\ ~ NoDup (map fst l).
Proof.
  exists [["0"]; ["1"]; ex_max; ["0"; "0"]; ["a"]]%char. eexists. split; [vm_compute; reflexivity|].
  intros D. cbn in D. inversion D as [|? ? D1 D2]. inversion D2 as [|? ? D3 D4]. apply D3. right. right. left. reflexivity.
Qed.

(** Two roads with the same numeric id string: references to it lead to the renumbered first one, not to the one keeping the number. *)
Theorem C32_repeated_refuted : exists strs l s, EstablishUniqueIds [] strs = Some l /\ NoDup (map fst l) /\ In (5, s) l /\ LookupRoadIdFromStr l s <> 5.
Proof.
  exists [["5"]; ["5"]]%char. do 2 eexists. split; [vm_compute; reflexivity|]. split; [|split; [right; left; reflexivity|vm_compute; discriminate]].
  cbn. constructor; [intros [H|[]]; discriminate|]. constructor; [intros []|constructor].
Qed.

(** Loading a file on top of another one (no replacement) restarts the counter: ids are used twice. *)
Theorem C32_on_top_refuted : exists l0 strs l, EstablishUniqueIds [] (map snd l0) = Some l0 /\ EstablishUniqueIds l0 strs = Some l /\ NoDup (map snd l) /\ ~ NoDup (map fst l).
Proof.
  exists [(0, ["a"])]%char, [["b"]]%char. eexists. split; [reflexivity|]. split; [vm_compute; reflexivity|]. split.
  - cbn. constructor; [intros [H|[]]; discriminate|]. constructor; [intros []|constructor].
  - cbn. intros D. inversion D as [|? ? D1 D2]. apply D1. left. reflexivity.
Qed.

Definition ex_strs : list str := [["a"]; ["7"]; ["0"]; ["0"; "7"]; ["b"]]%char.

Example C32_distinct_ex : exists l, EstablishUniqueIds [] ex_strs = Some l /\ map fst l = [8; 9; 0; 7; 10] /\ ~ In ID_UNDEFINED (map fst l).
Proof. eexists. split; [vm_compute; reflexivity|]. split; [reflexivity|]. cbn. intros [H|[H|[H|[H|[H|[]]]]]]; discriminate. Qed.
Example C32_numeric_ex : numeric ["0"; "7"]%char 7 /\ ~ numeric ["a"]%char 0.
Proof.
  split; [apply (C32_number _ _); vm_compute; repeat split; discriminate|]. intros H. apply C32_number in H. destruct H as [H _]. discriminate.
Qed.
Example C32_room_ex : exists M, M + N.of_nat (List.length ex_strs) <= ID_MAX /\ forall s v, In s ex_strs -> numeric s v -> v < M.
Proof.
  exists 100. split; [vm_compute; discriminate|]. intros s v I H. apply numeric_val in H. subst v. cbn in I.
  destruct I as [<-|[<-|[<-|[<-|[<-|[]]]]]]; vm_compute; reflexivity.
Qed.
Example C32_conflict_ex : exists before s mid t after, ex_strs = before ++ s :: mid ++ t :: after /\ numeric s 7 /\ numeric t 7.
Proof.
  exists [["a"]]%char, ["7"]%char, [["0"]]%char, ["0"; "7"]%char, [["b"]]%char. split; [reflexivity|].
  split; apply (C32_number _ _); vm_compute; repeat split; discriminate.
Qed.
Example C32_roundtrip_ex : NoDup ex_strs.
Proof. unfold ex_strs. repeat constructor; cbn; intuition discriminate. Qed.
Example C32_index_ex : NoDup [3; 1; 2].
Proof. repeat constructor; cbn; intuition discriminate. Qed.
Example C32_generate_ex : forall i, In i [3; 1; 2] -> i < ID_MAX.
Proof. intros i [<-|[<-|[<-|[]]]]; reflexivity. Qed.

Print Assumptions C32_number.
Print Assumptions C32_distinct.
Print Assumptions C32_room.
Print Assumptions C32_strings.
Print Assumptions C32_kept.
Print Assumptions C32_conflict.
Print Assumptions C32_lookup.
Print Assumptions C32_lookup_junction.
Print Assumptions C32_roundtrip.
Print Assumptions C32_index.
Print Assumptions C32_generate.
Print Assumptions C32_max_refuted.
Print Assumptions C32_repeated_refuted.
Print Assumptions C32_on_top_refuted.

Print Assumptions C32_digits.
