(** Model of the DAT recording file: byte level encoding and decoding.

    Source: EnvironmentSimulator/Modules/ScenarioEngine/SourceFiles/
    PacketHandler.hpp (PH.hpp) and PacketHandler.cpp (PH.cpp), packet
    extraction in EnvironmentSimulator/Applications/replayer/Replay.cpp.

    Every trivially copyable scalar (int, unsigned, double, plain struct) is
    represented by the bytes memcpy copies; nothing is assumed about their
    meaning here.  Integers the code itself interprets (packet ids, sizes) are
    encoded little endian, the byte order of the supported targets.
    [None] means undefined behaviour (access outside a buffer). *)

From Coq Require Import ZArith List Ascii Bool Lia.
Import ListNotations.
Open Scope Z_scope.

(** char, PH.hpp:130 [std::vector<char> data]. *)
Definition byte := ascii.
Definition bytes := list byte.

(** Value of a byte as unsigned char. *)
Definition b2z (b : byte) : Z := Z.of_N (N_of_ascii b).
(** Truncation of an integer to one byte. *)
Definition z2b (z : Z) : byte := ascii_of_N (Z.to_N (z mod 256)).

(** Conversion to unsigned int (static_cast<unsigned int>, PH.hpp:244, PH.cpp:30-32). *)
Definition u32 (z : Z) : Z := z mod 4294967296.

(** Object representation of an unsigned int / id_t (PH.hpp:72-76, little endian). *)
Definition enc32 (z : Z) : bytes :=
  [z2b z; z2b (z / 256); z2b (z / 65536); z2b (z / 16777216)].

(** Reading an unsigned int back from four bytes (memcpy, PH.cpp:562, 571). *)
Definition dec32 (b : bytes) : Z :=
  match b with
  | [b0; b1; b2; b3] => b2z b0 + 256 * b2z b1 + 65536 * b2z b2 + 16777216 * b2z b3
  | _ => 0
  end.

(** The zero byte vector::resize inserts (PH.hpp:245, 340). *)
Definition zero_byte : byte := ascii_of_N 0.

(** Length of a list as an integer. *)
Definition zlen {A} (l : list A) : Z := Z.of_nat (length l).

(** PH.hpp:72-76 PacketHeader and 127-131 PacketGeneric; header.data_size is
    kept implicit: it is the size of [p_data] (PH.hpp:244-245, 339-340). *)
Record packet := mkP { p_id : Z; p_data : bytes }.

(** ** Writer *)

(** Arguments of DatWriter::Write (PH.hpp:213-253): the overloads of
    SerializedSize / WriteToBuffer (PH.hpp:263-300, PH.cpp:481-490). *)
Inductive item :=
| IScalar (b : bytes)                (* template T: memcpy of sizeof(T) bytes, PH.hpp:274-278, 295-300 *)
| IStr (s : bytes)                   (* std::string without size, PH.cpp:481-490 *)
| IPStr (size : Z) (s : bytes)       (* PacketString, PH.hpp:263-266, 280-287 *)
| IVec (elems : list bytes).         (* std::vector<T>, PH.hpp:268-272, 289-293 *)

(** SerializedSize, PH.hpp:263-278, PH.cpp:481-484. *)
Definition serialized_size (i : item) : Z :=
  match i with
  | IScalar b => zlen b
  | IStr s => zlen s
  | IPStr _ s => 4 + zlen s
  | IVec l => zlen (concat l)
  end.

(** memcpy of [src] to position [p] of [buf]; outside the buffer: undefined. *)
Definition blit (buf : bytes) (p : nat) (src : bytes) : option bytes :=
  if (p + length src <=? length buf)%nat
  then Some (firstn p buf ++ src ++ skipn (p + length src) buf)
  else None.

(** WriteToBuffer, PH.hpp:280-300, PH.cpp:486-490: the vector overload does
    not advance the write pointer (PH.hpp:289-293). *)
Definition write_item (st : option (bytes * nat)) (i : item) : option (bytes * nat) :=
  match st with
  | None => None
  | Some (buf, p) =>
      match i with
      | IScalar b | IStr b =>
          match blit buf p b with
          | Some buf' => Some (buf', (p + length b)%nat)
          | None => None
          end
      | IPStr n s =>
          match blit buf p (enc32 n) with
          | Some buf1 =>
              match blit buf1 (p + 4) s with
              | Some buf2 => Some (buf2, (p + 4 + length s)%nat)
              | None => None
              end
          | None => None
          end
      | IVec l =>
          match blit buf p (concat l) with
          | Some buf' => Some (buf', p)
          | None => None
          end
      end
  end.

(** The packet construction of DatWriter::Write, PH.hpp:237-249. *)
Definition make_packet (id : Z) (items : list item) : option packet :=
  let total := fold_left Z.add (map serialized_size items) 0 in
  let buf := repeat zero_byte (Z.to_nat (u32 total)) in
  match fold_left write_item items (Some (buf, O)) with
  | Some (b, _) => Some (mkP id b)
  | None => None
  end.

(** DatWriter::WritePacket, PH.cpp:395-403: the bytes appended to the file. *)
Definition write_packet (p : packet) : bytes :=
  enc32 (p_id p) ++ enc32 (u32 (zlen (p_data p))) ++ p_data p.

(** DAT_FILE_FORMAT_VERSION_MAJOR / MINOR, PH.hpp:8-9. *)
Definition version_major : Z := 5.
Definition version_minor : Z := 3.

(** DatWriter::Init, PH.cpp:14-51: the bytes of a new file. *)
Definition init_bytes (odr model git : bytes) : bytes :=
  let odr_size := u32 (zlen odr) in
  let model_size := u32 (zlen model) in
  let git_size := u32 (zlen git) in
  let header_size := u32 (4 + odr_size + 4 + model_size + 4 + git_size) in
  enc32 version_major ++ enc32 version_minor ++ enc32 header_size
  ++ enc32 odr_size ++ firstn (Z.to_nat odr_size) odr
  ++ enc32 model_size ++ firstn (Z.to_nat model_size) model
  ++ enc32 git_size ++ firstn (Z.to_nat git_size) git.

(** ** Reader *)

(** ifstream::read of [n] bytes: the bytes and the rest of the stream, or
    failure when fewer are left (the reader then stops, PH.cpp:530-542). *)
Definition sread (n : nat) (s : bytes) : option (bytes * bytes) :=
  if (n <=? length s)%nat then Some (firstn n s, skipn n s) else None.

(** DatReader::CreateGenericPacket, PH.hpp:335-348: the data vector is zero
    filled first; a short read leaves the zeros and is accepted at eof. *)
Definition create_generic (id : Z) (size : Z) (s : bytes) : packet * bytes :=
  let n := Z.to_nat size in
  let got := firstn n s in
  (mkP id (got ++ repeat zero_byte (n - length got)), skipn n s).

(** The loop reading all packets, Replay.cpp:289-293 with DatReader::ReadFile,
    PH.cpp:530-542.  Every iteration consumes the 8 header bytes, so the length
    of the stream bounds the number of iterations. *)
Fixpoint read_packets (fuel : nat) (s : bytes) : list packet :=
  match fuel with
  | O => []
  | S f =>
      match sread 8 s with
      | None => []
      | Some (h, rest) =>
          let (p, rest') := create_generic (dec32 (firstn 4 h)) (dec32 (skipn 4 h)) rest in
          p :: read_packets f rest'
      end
  end.

(** Replay.cpp:289-293 on a whole stream. *)
Definition read_all (s : bytes) : list packet := read_packets (S (length s)) s.

(** DatReader::ReadPacket, PH.hpp:351-391, for fields of the given sizes:
    [None] for a field stands for [field = {}] (default value). *)
Fixpoint read_fields (sizes : list nat) (d : bytes) : list (option bytes) :=
  match sizes with
  | [] => []
  | n :: rest =>
      if (n <=? length d)%nat
      then Some (firstn n d) :: read_fields rest (skipn n d)
      else None :: read_fields rest d
  end.

(** DatReader::ReadStringPacket(const PacketGeneric&), PH.cpp:557-566:
    no bounds are checked, reading outside the packet is undefined. *)
Definition read_string (d : bytes) : option bytes :=
  match sread 4 d with
  | None => None
  | Some (h, rest) =>
      match sread (Z.to_nat (dec32 h)) rest with
      | Some (str, _) => Some str
      | None => None
      end
  end.

(** Cutting [d] into [k] pieces of [n] bytes (memcpy into vector<T>, PH.hpp:409). *)
Fixpoint chunks (k n : nat) (d : bytes) : list bytes :=
  match k with
  | O => []
  | S k' => firstn n d :: chunks k' n (skipn n d)
  end.

(** DatReader::ReadVectorPacket, PH.hpp:393-413; [None] is the return value -1. *)
Definition read_vector (n : nat) (d : bytes) : option (list bytes) :=
  if (length d mod n =? 0)%nat then Some (chunks (length d / n) n d) else None.

(** DatReader::ReadStringPacket(std::string&), PH.cpp:568-581. *)
Definition read_string_stream (s : bytes) : option (bytes * bytes) :=
  match sread 4 s with
  | None => None
  | Some (h, rest) => sread (Z.to_nat (dec32 h)) rest
  end.

(** PH.hpp:63-70 DatHeader. *)
Record dat_header := mkH { h_major : Z; h_minor : Z; h_odr : bytes; h_model : bytes; h_git : bytes }.

(** DatReader::FillDatHeader, PH.cpp:583-655.  [None] is LOG_ERROR_AND_QUIT.
    The result is the header and the stream after it. *)
Definition fill_header (s : bytes) : option (dat_header * bytes) :=
  match sread 4 s with None => None | Some (vmaj, s1) =>
  match sread 4 s1 with None => None | Some (vmin, s2) =>
  if negb (dec32 vmaj =? version_major) then None else
  match sread 4 s2 with None => None | Some (hs, s3) =>
  match read_string_stream s3 with None => None | Some (odr, s4) =>
  match read_string_stream s4 with None => None | Some (model, s5) =>
  match read_string_stream s5 with None => None | Some (git, s6) =>
    let consumed := zlen s3 - zlen s6 in
    if (dec32 hs <? consumed) then None
    else Some (mkH (dec32 vmaj) (dec32 vmin) odr model git,
               skipn (Z.to_nat (dec32 hs - consumed)) s6)
  end end end end end end.
