(** Proofs about the byte level of the recording file. *)
From Coq Require Import ZArith List Ascii Bool Lia.
From Verif Require Import DatModel.
Import ListNotations.
Open Scope Z_scope.

Local Arguments write_packet : simpl never.
Local Arguments enc32 : simpl never.

Lemma b2z_range b : 0 <= b2z b < 256.
Proof.
  unfold b2z. destruct b as [[] [] [] [] [] [] [] []]; cbv; split; congruence.
Qed.

Lemma b2z_z2b z : b2z (z2b z) = z mod 256.
Proof.
  unfold b2z, z2b. rewrite N_ascii_embedding.
  - rewrite Z2N.id; auto. apply Z.mod_pos_bound; lia.
  - pose proof (Z.mod_pos_bound z 256). lia.
Qed.

Lemma z2b_b2z b : z2b (b2z b) = b.
Proof.
  unfold z2b. pose proof (b2z_range b). rewrite Z.mod_small by lia.
  unfold b2z. rewrite N2Z.id. apply ascii_N_embedding.
Qed.

Lemma dec_enc32 z : dec32 (enc32 z) = u32 z.
Proof.
  unfold dec32, enc32, u32. rewrite !b2z_z2b.
  pose proof (Z.div_mod z 256 ltac:(lia)).
  pose proof (Z.div_mod (z / 256) 256 ltac:(lia)).
  pose proof (Z.div_mod (z / 65536) 256 ltac:(lia)).
  pose proof (Z.div_mod z 4294967296 ltac:(lia)).
  rewrite (Z.mod_eq z 4294967296) by lia.
  replace (z / 4294967296) with (z / 16777216 / 256) by (rewrite Z.div_div; [f_equal|lia|lia]; lia).
  replace (z / 16777216) with (z / 65536 / 256) by (rewrite Z.div_div; [f_equal|lia|lia]; lia).
  replace (z / 65536) with (z / 256 / 256) in * by (rewrite Z.div_div; [f_equal|lia|lia]; lia).
  rewrite (Z.mod_eq (z / 256 / 256 / 256) 256) by lia.
  lia.
Qed.

Lemma u32_small z : 0 <= z < 4294967296 -> u32 z = z.
Proof. intros; apply Z.mod_small; auto. Qed.

Lemma enc32_len z : length (enc32 z) = 4%nat.
Proof. reflexivity. Qed.

Lemma zlen_nonneg {A} (l : list A) : 0 <= zlen l.
Proof. unfold zlen; lia. Qed.
Lemma zlen_app {A} (l m : list A) : zlen (l ++ m) = zlen l + zlen m.
Proof. unfold zlen; rewrite app_length; lia. Qed.
Lemma zlen_to_nat {A} (l : list A) : Z.to_nat (zlen l) = length l.
Proof. unfold zlen; lia. Qed.

Lemma sread_app n a b : length a = n -> sread n (a ++ b) = Some (a, b).
Proof.
  intros <-. unfold sread. rewrite app_length.
  replace (length a <=? length a + length b)%nat with true by (symmetry; apply Nat.leb_le; lia).
  rewrite firstn_app, firstn_all, Nat.sub_diag, skipn_app, skipn_all, Nat.sub_diag.
  simpl. rewrite app_nil_r. reflexivity.
Qed.

Lemma firstn_len_app {A} (a b : list A) : firstn (length a) (a ++ b) = a.
Proof. rewrite firstn_app, firstn_all, Nat.sub_diag. simpl. apply app_nil_r. Qed.
Lemma skipn_len_app {A} (a b : list A) : skipn (length a) (a ++ b) = b.
Proof. rewrite skipn_app, skipn_all, Nat.sub_diag. reflexivity. Qed.

(** A packet the header can describe. *)
Definition fits (p : packet) : Prop := 0 <= p_id p < 4294967296 /\ zlen (p_data p) < 4294967296.

Lemma create_generic_app id d rest :
  create_generic id (zlen d) (d ++ rest) = (mkP id d, rest).
Proof.
  unfold create_generic. rewrite zlen_to_nat, firstn_len_app, skipn_len_app, Nat.sub_diag.
  simpl. rewrite app_nil_r. reflexivity.
Qed.

Lemma read_packets_cons f p rest :
  fits p -> read_packets (S f) (write_packet p ++ rest) = p :: read_packets f rest.
Proof.
  intros [Hi Hd]. unfold write_packet. rewrite <- !app_assoc.
  cbn [read_packets].
  rewrite (app_assoc (enc32 (p_id p))), sread_app by reflexivity.
  rewrite (firstn_len_app (enc32 (p_id p))).
  change (skipn 4 (enc32 (p_id p) ++ enc32 (u32 (zlen (p_data p)))))
    with (enc32 (u32 (zlen (p_data p)))).
  pose proof (zlen_nonneg (p_data p)).
  rewrite !dec_enc32, (u32_small (u32 _)) by (apply Z.mod_pos_bound; lia).
  rewrite !u32_small by lia.
  rewrite create_generic_app. destruct p; reflexivity.
Qed.

Lemma write_packet_len p : (8 <= length (write_packet p))%nat.
Proof. unfold write_packet. rewrite !app_length, !enc32_len. lia. Qed.

Lemma read_packets_all ps : forall f tail,
  Forall fits ps -> (length ps <= f)%nat ->
  read_packets f (concat (map write_packet ps) ++ tail) = ps ++ read_packets (f - length ps) tail.
Proof.
  induction ps as [|p ps IH]; intros f tail HF Hf; cbn [map concat].
  - simpl. rewrite Nat.sub_0_r. reflexivity.
  - inversion HF; subst. destruct f as [|f]; [simpl in Hf; lia|].
    rewrite <- app_assoc, read_packets_cons by auto. cbn [length] in Hf.
    rewrite IH by (auto; lia). reflexivity.
Qed.

Lemma concat_len_ge ps : (8 * length ps <= length (concat (map write_packet ps)))%nat.
Proof.
  induction ps as [|p ps IH]; cbn [map concat length]; [lia|].
  rewrite app_length. pose proof (write_packet_len p). lia.
Qed.

Lemma read_packets_nil f : read_packets f [] = [].
Proof. destruct f; reflexivity. Qed.

(** What is written is what is read. *)
Lemma roundtrip_packets ps :
  Forall fits ps -> read_all (concat (map write_packet ps)) = ps.
Proof.
  intros. unfold read_all.
  rewrite <- (app_nil_r (concat _)) at 2.
  rewrite read_packets_all; auto.
  - rewrite read_packets_nil, app_nil_r. reflexivity.
  - pose proof (concat_len_ge ps). lia.
Qed.

(** Fewer than 8 bytes left behind the last packet change nothing. *)
Lemma roundtrip_tail ps tail :
  Forall fits ps -> (length tail < 8)%nat -> read_all (concat (map write_packet ps) ++ tail) = ps.
Proof.
  intros HF Ht. unfold read_all. rewrite read_packets_all; auto.
  - assert (E : forall f, read_packets f tail = []).
    { intros [|f]; auto. cbn [read_packets]. unfold sread.
      replace (8 <=? length tail)%nat with false by (symmetry; apply Nat.leb_gt; lia). reflexivity. }
    rewrite E, app_nil_r. reflexivity.
  - rewrite app_length. pose proof (concat_len_ge ps). lia.
Qed.

Lemma sread_shorter n s a b : (0 < n)%nat -> sread n s = Some (a, b) -> (length b < length s)%nat.
Proof.
  unfold sread. intros Hn H. destruct (n <=? length s)%nat eqn:El; [|discriminate].
  apply Nat.leb_le in El. injection H as _ <-. rewrite skipn_length. lia.
Qed.

(** More fuel than bytes: the reader never stops early. *)
Lemma read_packets_fuel : forall f g s,
  (length s < f)%nat -> (length s < g)%nat -> read_packets f s = read_packets g s.
Proof.
  induction f as [|f IH]; intros g s Hf Hg; [lia|].
  destruct g as [|g]; [lia|]. cbn [read_packets].
  destruct (sread 8 s) as [[h rest]|] eqn:E; auto.
  unfold create_generic. f_equal.
  assert (Hr : (length rest < length s)%nat) by (eapply sread_shorter; [|exact E]; lia).
  apply IH; rewrite !skipn_length; lia.
Qed.

Lemma read_all_cons p s : fits p -> read_all (write_packet p ++ s) = p :: read_all s.
Proof.
  intros H. unfold read_all. rewrite read_packets_cons by auto. f_equal.
  apply read_packets_fuel.
  - rewrite app_length. pose proof (write_packet_len p). lia.
  - lia.
Qed.

Lemma read_all_app ps tail :
  Forall fits ps -> read_all (concat (map write_packet ps) ++ tail) = ps ++ read_all tail.
Proof.
  induction 1 as [|p ps Hp HF IH]; [reflexivity|]. cbn [map concat].
  rewrite <- app_assoc, read_all_cons by auto. rewrite IH. reflexivity.
Qed.

(** ** Header *)

Definition str_ok (s : bytes) : Prop := zlen s < 4294967296.

Lemma read_string_stream_app s rest :
  str_ok s -> read_string_stream (enc32 (u32 (zlen s)) ++ s ++ rest) = Some (s, rest).
Proof.
  intros H. unfold str_ok in H. pose proof (zlen_nonneg s).
  unfold read_string_stream. rewrite sread_app by reflexivity.
  rewrite dec_enc32, !u32_small by (rewrite ?u32_small; lia).
  apply sread_app. rewrite zlen_to_nat; auto.
Qed.

(** A header as some version of the writer with the same major version would
    write it: the three strings, then further data. *)
Definition header_bytes (minor : Z) (odr model git extra : bytes) : bytes :=
  let payload := enc32 (zlen odr) ++ odr ++ enc32 (zlen model) ++ model
                 ++ enc32 (zlen git) ++ git ++ extra in
  enc32 version_major ++ enc32 minor ++ enc32 (zlen payload) ++ payload.

Lemma read_string_stream_app' s rest :
  str_ok s -> read_string_stream (enc32 (zlen s) ++ s ++ rest) = Some (s, rest).
Proof.
  intros H. rewrite <- (u32_small (zlen s)) at 1 by (pose proof (zlen_nonneg s); unfold str_ok in H; lia).
  apply read_string_stream_app; auto.
Qed.

Lemma skipn_zlen_app (a b : bytes) : skipn (Z.to_nat (zlen a)) (a ++ b) = b.
Proof. rewrite zlen_to_nat. apply skipn_len_app. Qed.

Lemma header_general minor odr model git extra rest :
  0 <= minor < 4294967296 ->
  zlen odr + zlen model + zlen git + zlen extra + 12 < 4294967296 ->
  fill_header (header_bytes minor odr model git extra ++ rest)
  = Some (mkH version_major minor odr model git, rest).
Proof.
  intros Hm Hs.
  pose proof (zlen_nonneg odr). pose proof (zlen_nonneg model).
  pose proof (zlen_nonneg git). pose proof (zlen_nonneg extra).
  unfold header_bytes, fill_header. rewrite <- !app_assoc.
  rewrite sread_app by reflexivity. rewrite sread_app by reflexivity.
  rewrite (dec_enc32 version_major). change (u32 version_major) with 5.
  change (negb (5 =? version_major)) with false. cbv iota.
  rewrite sread_app by reflexivity.
  rewrite read_string_stream_app' by (unfold str_ok; lia).
  rewrite read_string_stream_app' by (unfold str_ok; lia).
  rewrite read_string_stream_app' by (unfold str_ok; lia).
  rewrite !dec_enc32, (u32_small minor) by auto.
  rewrite !zlen_app. change (zlen (enc32 _)) with 4.
  rewrite u32_small by lia.
  match goal with |- context [?a <? ?b] => replace (a <? b) with false by (symmetry; apply Z.ltb_ge; lia) end.
  match goal with |- context [Z.to_nat ?x] => replace x with (zlen extra) by lia end.
  rewrite skipn_zlen_app. reflexivity.
Qed.

Lemma init_is_header odr model git :
  zlen odr + zlen model + zlen git + 12 < 4294967296 ->
  init_bytes odr model git = header_bytes version_minor odr model git [].
Proof.
  intros. pose proof (zlen_nonneg odr). pose proof (zlen_nonneg model). pose proof (zlen_nonneg git).
  unfold init_bytes, header_bytes.
  rewrite (u32_small (zlen odr)), (u32_small (zlen model)), (u32_small (zlen git)) by lia.
  rewrite u32_small by lia.
  rewrite !zlen_to_nat, !firstn_all, app_nil_r.
  rewrite !zlen_app. change (zlen (enc32 _)) with 4.
  match goal with |- context [enc32 (4 + zlen odr + 4 + ?x + 4 + ?y)] =>
    replace (4 + zlen odr + 4 + x + 4 + y) with (4 + (zlen odr + (4 + (x + (4 + y))))) by lia end.
  reflexivity.
Qed.

Lemma header_roundtrip odr model git rest :
  zlen odr + zlen model + zlen git + 12 < 4294967296 ->
  fill_header (init_bytes odr model git ++ rest)
  = Some (mkH version_major version_minor odr model git, rest).
Proof.
  intros. rewrite init_is_header by auto. apply header_general; [cbv; split; congruence|].
  unfold zlen at 4; simpl; lia.
Qed.

(** A file of another major version is refused. *)
Lemma header_major s v rest :
  dec32 v <> version_major -> length v = 4%nat -> s = v ++ rest -> fill_header s = None.
Proof.
  intros Hv Hl ->. unfold fill_header. rewrite sread_app by auto.
  destruct (sread 4 rest) as [[]|]; auto.
  replace (dec32 v =? version_major) with false by (symmetry; apply Z.eqb_neq; auto). reflexivity.
Qed.

(** A header that claims to be shorter than its strings is refused. *)

(** ** Payloads *)

(** Bytes of an argument list, independent of the buffer handling. *)
Definition item_bytes (i : item) : bytes :=
  match i with
  | IScalar b | IStr b => b
  | IPStr n s => enc32 n ++ s
  | IVec l => concat l
  end.

(** Vectors may only come last (their overload does not advance the pointer). *)
Fixpoint vec_last (l : list item) : Prop :=
  match l with
  | [] => True
  | [_] => True
  | IVec _ :: _ :: _ => False
  | _ :: rest => vec_last rest
  end.

Lemma item_size i : serialized_size i = zlen (item_bytes i).
Proof. destruct i; cbn [serialized_size item_bytes]; auto. rewrite zlen_app. reflexivity. Qed.

Lemma blit_mid pre mid post src :
  length mid = length src ->
  blit (pre ++ mid ++ post) (length pre) src = Some (pre ++ src ++ post).
Proof.
  intros E. unfold blit.
  replace (length pre + length src <=? length (pre ++ mid ++ post))%nat with true
    by (symmetry; apply Nat.leb_le; rewrite !app_length; lia).
  rewrite firstn_len_app. do 3 f_equal.
  rewrite app_assoc, <- E, <- app_length. apply skipn_len_app.
Qed.

Lemma repeat_plus {A} (x : A) n m : repeat x (n + m) = repeat x n ++ repeat x m.
Proof. apply repeat_app. Qed.

Lemma write_items_ok : forall l pre,
  vec_last l ->
  exists p, fold_left write_item l
              (Some (pre ++ repeat zero_byte (length (concat (map item_bytes l))), length pre))
            = Some (pre ++ concat (map item_bytes l), p).
Proof.
  induction l as [|i l IH]; intros pre Hv.
  - exists (length pre). reflexivity.
  - cbn [map concat fold_left]. rewrite app_length, repeat_plus.
    assert (Hl : vec_last l) by (destruct i, l; simpl in *; auto; contradiction).
    destruct i as [b|b|n s|v]; cbn [item_bytes write_item].
    + rewrite blit_mid by apply repeat_length.
      rewrite <- app_length, app_assoc.
      destruct (IH (pre ++ b) Hl) as [p Hp]. exists p. etransitivity; [exact Hp|]. rewrite <- app_assoc. reflexivity.
    + rewrite blit_mid by apply repeat_length.
      rewrite <- app_length, app_assoc.
      destruct (IH (pre ++ b) Hl) as [p Hp]. exists p. etransitivity; [exact Hp|]. rewrite <- app_assoc. reflexivity.
    + rewrite app_length, repeat_plus, <- app_assoc.
      rewrite blit_mid by apply repeat_length.
      replace (length pre + 4)%nat with (length (pre ++ enc32 n)) by (rewrite app_length; reflexivity).
      rewrite app_assoc, blit_mid by apply repeat_length.
      rewrite <- app_length, app_assoc.
      destruct (IH ((pre ++ enc32 n) ++ s) Hl) as [p Hp]. exists p. etransitivity; [exact Hp|].
      rewrite <- !app_assoc. reflexivity.
    + rewrite blit_mid by apply repeat_length.
      destruct l as [|j l]; [|contradiction].
      simpl. exists (length pre). rewrite ?app_nil_r. reflexivity.
Qed.

Lemma fold_add l : forall a, fold_left Z.add (map serialized_size l) a = a + zlen (concat (map item_bytes l)).
Proof.
  induction l as [|i l IH]; intros a; simpl.
  - unfold zlen; simpl; lia.
  - rewrite IH, zlen_app, item_size. lia.
Qed.

Lemma make_packet_ok id items :
  vec_last items -> zlen (concat (map item_bytes items)) < 4294967296 ->
  make_packet id items = Some (mkP id (concat (map item_bytes items))).
Proof.
  intros Hv Hs. unfold make_packet. rewrite fold_add, Z.add_0_l.
  pose proof (zlen_nonneg (concat (map item_bytes items))).
  rewrite u32_small by lia. rewrite zlen_to_nat.
  destruct (write_items_ok items [] Hv) as [p Hp]. simpl in Hp. rewrite Hp. reflexivity.
Qed.

(** Anything written after a vector lands on top of it. *)
Lemma vector_not_last_overwritten :
  make_packet 28 [IVec [[z2b 1; z2b 2]]; IScalar [z2b 3]] = Some (mkP 28 [z2b 3; z2b 2; z2b 0]).
Proof. reflexivity. Qed.

Lemma read_fields_ok : forall fs extra,
  read_fields (map (@length byte) fs) (concat fs ++ extra) = map Some fs.
Proof.
  induction fs as [|b fs IH]; intros extra; simpl; auto.
  rewrite <- app_assoc.
  replace (length b <=? length (b ++ concat fs ++ extra))%nat with true
    by (symmetry; apply Nat.leb_le; rewrite app_length; lia).
  rewrite firstn_len_app, skipn_len_app, IH. reflexivity.
Qed.

Lemma scalar_bytes fs : concat (map item_bytes (map IScalar fs)) = concat fs.
Proof. rewrite map_map. simpl. rewrite map_id. reflexivity. Qed.

Lemma vec_last_scalars fs : vec_last (map IScalar fs).
Proof.
  induction fs as [|a [|b fs] IH]; simpl in *; auto.
Qed.

Lemma scalars_roundtrip id fs :
  zlen (concat fs) < 4294967296 ->
  exists p, make_packet id (map IScalar fs) = Some p /\ p_id p = id /\
    read_fields (map (@length byte) fs) (p_data p) = map Some fs.
Proof.
  intros H. exists (mkP id (concat fs)). repeat split.
  - rewrite make_packet_ok; rewrite ?scalar_bytes; auto using vec_last_scalars.
  - cbn [p_data]. rewrite <- (app_nil_r (concat fs)). apply read_fields_ok.
Qed.

Lemma read_string_app s extra :
  str_ok s -> read_string (enc32 (u32 (zlen s)) ++ s ++ extra) = Some s.
Proof.
  intros H. unfold str_ok in H. pose proof (zlen_nonneg s).
  unfold read_string. rewrite sread_app by reflexivity.
  rewrite dec_enc32, !u32_small by (rewrite ?u32_small; lia).
  rewrite sread_app; auto. rewrite zlen_to_nat; auto.
Qed.

Lemma string_roundtrip id s :
  zlen s + 4 < 4294967296 ->
  exists p, make_packet id [IPStr (u32 (zlen s)) s] = Some p /\ p_id p = id /\
    read_string (p_data p) = Some s.
Proof.
  intros H. exists (mkP id (enc32 (u32 (zlen s)) ++ s)). repeat split.
  - rewrite make_packet_ok; cbn [map concat item_bytes]; rewrite ?app_nil_r; auto; try exact I.
    rewrite zlen_app. change (zlen (enc32 _)) with 4. lia.
  - cbn [p_data]. rewrite <- (app_nil_r s) at 2. apply read_string_app. unfold str_ok; lia.
Qed.

Lemma concat_const_len n (l : list bytes) :
  Forall (fun b => length b = n) l -> length (concat l) = (length l * n)%nat.
Proof. induction 1; simpl; auto. rewrite app_length. lia. Qed.

Lemma chunks_ok n : forall l, Forall (fun b => length b = n) l ->
  chunks (length l) n (concat l) = l.
Proof.
  induction l as [|b l IH]; intros HF; simpl; auto.
  inversion HF as [|? ? Hb HF']; subst. rewrite firstn_len_app, skipn_len_app, IH; auto.
Qed.

Lemma vector_roundtrip id n l :
  (0 < n)%nat -> Forall (fun b => length b = n) l -> zlen (concat l) < 4294967296 ->
  exists p, make_packet id [IVec l] = Some p /\ p_id p = id /\ read_vector n (p_data p) = Some l.
Proof.
  intros Hn HF Hs. exists (mkP id (concat l)). repeat split.
  - rewrite make_packet_ok; simpl; rewrite ?app_nil_r; auto.
  - cbn [p_data]. unfold read_vector. rewrite (concat_const_len n) by auto.
    rewrite Nat.mod_mul, Nat.div_mul by lia. simpl. rewrite chunks_ok by auto. reflexivity.
Qed.

(** Extra payload behind the known fields is ignored. *)
Lemma extra_payload fs extra :
  read_fields (map (@length byte) fs) (concat fs ++ extra)
  = read_fields (map (@length byte) fs) (concat fs).
Proof. rewrite read_fields_ok. rewrite <- (app_nil_r (concat fs)). rewrite read_fields_ok. reflexivity. Qed.

(** Missing trailing fields take their default, the present ones are read. *)
Lemma missing_fields : forall fs miss,
  Forall (fun n => (0 < n)%nat) miss ->
  read_fields (map (@length byte) fs ++ miss) (concat fs) = map Some fs ++ map (fun _ => None) miss.
Proof.
  induction fs as [|b fs IH]; intros miss HF; simpl.
  - induction HF as [|n miss Hn HF IH]; simpl; auto.
    destruct n; [lia|]. simpl. rewrite IH. reflexivity.
  - replace (length b <=? length (b ++ concat fs))%nat with true
      by (symmetry; apply Nat.leb_le; rewrite app_length; lia).
    rewrite firstn_len_app, skipn_len_app, IH; auto.
Qed.

(** A whole file. *)
Lemma file_roundtrip odr model git ps :
  zlen odr + zlen model + zlen git + 12 < 4294967296 -> Forall fits ps ->
  exists h rest, fill_header (init_bytes odr model git ++ concat (map write_packet ps)) = Some (h, rest)
    /\ h = mkH version_major version_minor odr model git /\ read_all rest = ps.
Proof.
  intros H HF. eexists _, _. split; [apply header_roundtrip; auto|].
  split; auto. apply roundtrip_packets; auto.
Qed.

(** A file cut inside its last packet is not rejected: the missing payload
    bytes are read as zeros. *)
Lemma truncated_zero p d1 d2 :
  fits p -> p_data p = d1 ++ d2 ->
  read_all (enc32 (p_id p) ++ enc32 (u32 (zlen (p_data p))) ++ d1)
  = [mkP (p_id p) (d1 ++ repeat zero_byte (length d2))].
Proof.
  intros [Hi Hd] E. unfold read_all. cbn [read_packets].
  rewrite app_assoc, sread_app by reflexivity.
  rewrite (firstn_len_app (enc32 (p_id p))).
  change (skipn 4 (enc32 (p_id p) ++ enc32 (u32 (zlen (p_data p)))))
    with (enc32 (u32 (zlen (p_data p)))).
  pose proof (zlen_nonneg (p_data p)).
  rewrite !dec_enc32, (u32_small (u32 _)) by (apply Z.mod_pos_bound; lia).
  rewrite !u32_small by lia.
  unfold create_generic. rewrite zlen_to_nat, E, app_length.
  rewrite firstn_all2 by lia. rewrite skipn_all2 by lia.
  rewrite read_packets_nil. do 4 f_equal; lia.
Qed.

(** A payload cut inside a field: a later, smaller field takes the left-over bytes. *)
Lemma cut_field n m d : (m <= length d < n)%nat -> read_fields [n; m] d = [None; Some (firstn m d)].
Proof.
  intros H. simpl. destruct (Nat.leb_spec n (length d)); [lia|]. destruct (Nat.leb_spec m (length d)); [reflexivity|lia].
Qed.
