(** Properties C15 and the byte level part of C16: recording file round trip, unknown content skipped. *)
From Coq Require Import ZArith List Ascii Bool Lia.
From Verif Require Import DatModel DatProofs.
Import ListNotations.
Open Scope Z_scope.

(** ** C15 *)

(** Every packet sequence is read back identically, in order, with identical payloads. *)
Theorem C15_packets : forall ps, Forall fits ps -> read_all (concat (map write_packet ps)) = ps.
Proof. exact roundtrip_packets. Qed.
Example C15_packets_ex :
  Forall fits [mkP 5 (enc32 7); mkP 1 []; mkP 300 [z2b 1; z2b 255; z2b 0]] /\
  concat (map write_packet [mkP 1 []; mkP 2 [z2b 9]]) =
    map z2b [1; 0; 0; 0; 0; 0; 0; 0; 2; 0; 0; 0; 1; 0; 0; 0; 9].
Proof. split; [repeat constructor; vm_compute; congruence|reflexivity]. Qed.

(** The whole file: header strings and all packets. *)
Theorem C15_file : forall odr model git ps,
  zlen odr + zlen model + zlen git + 12 < 4294967296 -> Forall fits ps ->
  exists h rest, fill_header (init_bytes odr model git ++ concat (map write_packet ps)) = Some (h, rest)
    /\ h = mkH version_major version_minor odr model git /\ read_all rest = ps.
Proof. exact file_roundtrip. Qed.
Example C15_file_ex :
  match fill_header (init_bytes (map z2b [97]) [] (map z2b [98; 99]) ++ write_packet (mkP 5 [z2b 4])) with
  | Some (h, rest) => h_odr h = map z2b [97] /\ h_model h = [] /\ h_git h = map z2b [98; 99] /\ read_all rest = [mkP 5 [z2b 4]]
  | None => False
  end.
Proof. vm_compute. auto. Qed.

(** Fields of a packet: any number of scalars of any size. *)
Theorem C15_scalars : forall id fs, zlen (concat fs) < 4294967296 ->
  exists p, make_packet id (map IScalar fs) = Some p /\ p_id p = id /\
    read_fields (map (@length byte) fs) (p_data p) = map Some fs.
Proof. exact scalars_roundtrip. Qed.
Example C15_scalars_ex :
  make_packet 3 [IScalar (enc32 258); IScalar [z2b 7]] = Some (mkP 3 (map z2b [2; 1; 0; 0; 7])).
Proof. reflexivity. Qed.

(** String payloads of any content, including embedded zero bytes. *)
Theorem C15_string : forall id s, zlen s + 4 < 4294967296 ->
  exists p, make_packet id [IPStr (u32 (zlen s)) s] = Some p /\ p_id p = id /\ read_string (p_data p) = Some s.
Proof. exact string_roundtrip. Qed.
Example C15_string_ex : read_string (enc32 2 ++ map z2b [0; 65]) = Some (map z2b [0; 65]).
Proof. reflexivity. Qed.

(** Vector payloads. *)
Theorem C15_vector : forall id n l,
  (0 < n)%nat -> Forall (fun b => length b = n) l -> zlen (concat l) < 4294967296 ->
  exists p, make_packet id [IVec l] = Some p /\ p_id p = id /\ read_vector n (p_data p) = Some l.
Proof. exact vector_roundtrip. Qed.
Example C15_vector_ex : read_vector 2 (map z2b [1; 2; 3; 4]) = Some [map z2b [1; 2]; map z2b [3; 4]].
Proof. reflexivity. Qed.

(** Any argument list in which a vector comes only last is stored as the concatenation of its arguments. *)
Theorem C15_arguments : forall id items,
  vec_last items -> zlen (concat (map item_bytes items)) < 4294967296 ->
  make_packet id items = Some (mkP id (concat (map item_bytes items))).
Proof. exact make_packet_ok. Qed.
Example C15_arguments_ex : vec_last [IScalar (enc32 1); IPStr 1 [z2b 65]; IVec [[z2b 1]]].
Proof. simpl. auto. Qed.

(** A vector that is not the last argument is overwritten by the next one. *)
Theorem C15_vector_not_last_refuted :
  ~ (forall id items, zlen (concat (map item_bytes items)) < 4294967296 ->
       make_packet id items = Some (mkP id (concat (map item_bytes items)))).
Proof.
  intros H. specialize (H 28 [IVec [[z2b 1; z2b 2]]; IScalar [z2b 3]] eq_refl).
  rewrite vector_not_last_overwritten in H. vm_compute in H. discriminate.
Qed.

(** ** C16, byte level *)

(** Packets of any id and length, known or not, are delimited by their size: what follows is unaffected. *)
Theorem C16_unknown_delimited : forall ps tail, Forall fits ps ->
  read_all (concat (map write_packet ps) ++ tail) = ps ++ read_all tail.
Proof. exact read_all_app. Qed.
Example C16_unknown_delimited_ex : fits (mkP 4000000000 (map z2b [1; 2; 3])).
Proof. split; vm_compute; intuition congruence. Qed.

(** Payload longer than the reader knows: the known fields are read as if the rest were absent. *)
Theorem C16_longer_payload : forall fs extra,
  read_fields (map (@length byte) fs) (concat fs ++ extra) = read_fields (map (@length byte) fs) (concat fs).
Proof. exact extra_payload. Qed.
Example C16_longer_payload_ex :
  read_fields [4%nat] (enc32 7 ++ map z2b [1; 2]) = [Some (enc32 7)].
Proof. reflexivity. Qed.

(** Payload shorter than the reader expects: the missing trailing fields take their default. *)
Theorem C16_shorter_payload : forall fs miss, Forall (fun n => (0 < n)%nat) miss ->
  read_fields (map (@length byte) fs ++ miss) (concat fs) = map Some fs ++ map (fun _ => None) miss.
Proof. exact missing_fields. Qed.
Example C16_shorter_payload_ex : read_fields [4%nat; 8%nat] (enc32 7) = [Some (enc32 7); None].
Proof. reflexivity. Qed.

(** A payload cut inside a field: the following smaller field takes the left-over bytes of the cut one. *)
Theorem C16_cut_field : forall n m d, (m <= length d < n)%nat -> read_fields [n; m] d = [None; Some (firstn m d)].
Proof. exact cut_field. Qed.
Example C16_cut_field_ex : read_fields [8%nat; 4%nat] (enc32 7) = [None; Some (enc32 7)].
Proof. reflexivity. Qed.

(** A header of another minor version, with further fields after the known ones, is accepted and skipped whole. *)
Theorem C16_header_extension : forall minor odr model git extra rest,
  0 <= minor < 4294967296 ->
  zlen odr + zlen model + zlen git + zlen extra + 12 < 4294967296 ->
  fill_header (header_bytes minor odr model git extra ++ rest) = Some (mkH version_major minor odr model git, rest).
Proof. exact header_general. Qed.
Example C16_header_extension_ex :
  match fill_header (header_bytes 9 [z2b 1] [] [] (map z2b [5; 6; 7]) ++ [z2b 77]) with
  | Some (h, rest) => h_minor h = 9 /\ h_odr h = [z2b 1] /\ rest = [z2b 77]
  | None => False
  end.
Proof. vm_compute. auto. Qed.

(** Another major version is refused. *)
Theorem C16_major_refused : forall s v rest,
  dec32 v <> version_major -> length v = 4%nat -> s = v ++ rest -> fill_header s = None.
Proof. exact header_major. Qed.
Example C16_major_refused_ex : dec32 (enc32 4) <> version_major.
Proof. vm_compute. congruence. Qed.

(** Fewer than eight bytes left over at the end are ignored. *)
Theorem C16_short_tail : forall ps tail, Forall fits ps -> (length tail < 8)%nat ->
  read_all (concat (map write_packet ps) ++ tail) = ps.
Proof. exact roundtrip_tail. Qed.
Example C16_short_tail_ex : read_all (write_packet (mkP 1 [z2b 3]) ++ [z2b 1; z2b 2]) = [mkP 1 [z2b 3]].
Proof. vm_compute. reflexivity. Qed.

(** A file cut inside its last packet is not detected: the missing bytes read as zero. *)
Theorem C16_truncated_refuted :
  ~ (forall p d1 d2, fits p -> p_data p = d1 ++ d2 -> d2 <> [] ->
       forall q, In q (read_all (enc32 (p_id p) ++ enc32 (u32 (zlen (p_data p))) ++ d1)) -> q = p).
Proof.
  intros H. assert (Hf : fits (mkP 6 (map z2b [1; 2; 3; 4]))) by (split; vm_compute; intuition congruence).
  specialize (H (mkP 6 (map z2b [1; 2; 3; 4])) (map z2b [1; 2]) (map z2b [3; 4]) Hf eq_refl ltac:(discriminate)).
  rewrite (truncated_zero (mkP 6 (map z2b [1; 2; 3; 4])) (map z2b [1; 2]) (map z2b [3; 4]) Hf eq_refl) in H.
  specialize (H _ (or_introl eq_refl)). vm_compute in H. discriminate.
Qed.

(** What exactly a cut packet reads as. *)
Theorem C16_truncated_value : forall p d1 d2, fits p -> p_data p = d1 ++ d2 ->
  read_all (enc32 (p_id p) ++ enc32 (u32 (zlen (p_data p))) ++ d1)
  = [mkP (p_id p) (d1 ++ repeat zero_byte (length d2))].
Proof. exact truncated_zero. Qed.
Example C16_truncated_value_ex : read_all (enc32 6 ++ enc32 4 ++ map z2b [1; 2]) = [mkP 6 (map z2b [1; 2; 0; 0])].
Proof. vm_compute. reflexivity. Qed.

(** A string packet shorter than its own length field is read outside the buffer. *)
Theorem C16_short_string_refuted : ~ (forall d, read_string d <> None).
Proof. intros H. apply (H (enc32 5 ++ [z2b 65])). reflexivity. Qed.

Print Assumptions C15_packets.
Print Assumptions C15_file.
Print Assumptions C16_header_extension.
Print Assumptions C16_truncated_value.
