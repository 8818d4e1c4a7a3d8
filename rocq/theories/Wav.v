(** Reading and writing WAV files (share/examples/audio/wav.hpp) on a little
    endian machine, and a small specification.  Bytes are integers from 0 to
    255. *)
From Coq Require Import ZArith List Lia Bool Arith.
From Verif Require Import Base.
Import ListNotations.
Open Scope Z_scope.

(** What a call does: gives a value, throws, is undefined, or is still going
    round its loop. *)
Inductive result (A : Type) := Done (a : A) | Thrown | Undefined | Running.
Arguments Done {A}. Arguments Thrown {A}. Arguments Undefined {A}. Arguments Running {A}.

(** ** Structures in memory *)

Definition u16 (x : Z) : Z := x mod 2 ^ 16.
Definition u32 (x : Z) : Z := x mod 2 ^ 32.
Definition mem16 (x : Z) : list Z := [x mod 256; x / 256 mod 256].
Definition mem32 (x : Z) : list Z := [x mod 256; x / 256 mod 256; x / 65536 mod 256; x / 16777216 mod 256].
Definition byte (m : list Z) (i : nat) : Z := nth i m 0.
Definition get16 (m : list Z) (i : nat) : Z := byte m i + 256 * byte m (i + 1).
Definition get32 (m : list Z) (i : nat) : Z :=
  byte m i + 256 * byte m (i + 1) + 65536 * byte m (i + 2) + 16777216 * byte m (i + 3).

(** CHUNK_ID (l. 66-68) and the identifiers (l. 70-73); the characters are
    ASCII. *)
Definition CHUNK_ID (a b c d : Z) : Z :=
  Z.lor (Z.lor a (Z.shiftl b 8)) (Z.lor (Z.shiftl c 16) (Z.shiftl d 24)).
Definition RIFF_ID := CHUNK_ID 82 73 70 70.
Definition WAVE_ID := CHUNK_ID 87 65 86 69.
Definition FMT_ID := CHUNK_ID 102 109 116 32.
Definition DATA_ID := CHUNK_ID 100 97 116 97.

(** Info (l. 116-124); unsigned int fields and an unsigned short. *)
Record info := Info {
  channels : Z; samples : Z; samples_per_second : Z; bytes_per_sample : Z; buffer_size : Z; format_tag : Z }.

(** ** Encoder *)

(** data_.size (l. 271-273): unsigned arithmetic. *)
Definition data_size (f : info) : Z := u32 (u32 (channels f * samples f) * bytes_per_sample f).

(** The file header (l. 275-291): the first header_size_ = 36 bytes of the
    structure, which has no padding. *)
Definition header_size : Z := 20 + 16.
Definition encoder_header (f : info) : list Z :=
  mem32 RIFF_ID ++ mem32 (u32 (header_size + 8 + data_size f)) ++ mem32 WAVE_ID ++
  mem32 FMT_ID ++ mem32 16 ++
  mem16 (format_tag f) ++ mem16 (u16 (channels f)) ++ mem32 (samples_per_second f) ++
  mem32 (u32 (u32 (channels f * bytes_per_sample f) * samples_per_second f)) ++
  mem16 (u16 (u32 (channels f * bytes_per_sample f))) ++ mem16 (u16 (u32 (bytes_per_sample f * 8))).

(** The constructor (l. 259-291) and operator() (l. 294-303, little endian):
    what is written.  Reading past the end of the buffer is undefined. *)
Definition encode (f : info) (buffer : list Z) : result (list Z) :=
  if negb (format_tag f =? 1) && negb (format_tag f =? 3) then Thrown else
  if Z.of_nat (length buffer) <? data_size f then Undefined else
  Done (encoder_header f ++ mem32 DATA_ID ++ mem32 (data_size f) ++ firstn (Z.to_nat (data_size f)) buffer).

(** ** Decoder *)

(** sgetn of a file buffer: the bytes from [pos] on, at most [n]. *)
Definition sgetn (file : list Z) (pos n : Z) : list Z :=
  firstn (Z.to_nat (Z.min n (Z.of_nat (length file) - pos))) (skipn (Z.to_nat (Z.min pos (Z.of_nat (length file)))) file).
(** ... stored over the beginning of an object. *)
Definition over (got old : list Z) : list Z := got ++ skipn (length got) old.

(** The loop over chunks (l. 205-212).  [next] is the chunk header in memory,
    [pos] the position in the file, which may be beyond its end. *)
Fixpoint find_data (fuel : nat) (file : list Z) (pos : Z) (next : list Z) : result (Z * Z) :=
  match fuel with
  | O => Running
  | S fuel' =>
    if get32 next 0 =? DATA_ID then Done (pos, get32 next 4) else
    let pos' := pos + get32 next 4 in
    let got := sgetn file pos' 8 in
    find_data fuel' file (pos' + Z.of_nat (length got)) (over got next)
  end.

(** A decoder: the start and the size of the data; and the info. *)
Record decoder := Decoder { data_start : Z; d_size : Z; d_info : info }.

(** The constructor (l. 160-227). *)
Definition decode (fuel : nat) (file : list Z) : result decoder :=
  let got := sgetn file 0 20 in
  let h := over got (repeat 0 20) in
  if negb (get32 h 0 =? RIFF_ID) || negb (get32 h 8 =? WAVE_ID) then Thrown else
  let got2 := sgetn file (Z.of_nat (length got)) (get32 h 16) in
  if 40 <? Z.of_nat (length got2) then Undefined else
  let fmt := over got2 (repeat 0 40) in
  if negb (get16 fmt 0 =? 1) && negb (get16 fmt 0 =? 3) then Thrown else
  if negb (get32 h 12 =? FMT_ID) then Thrown else
  if (get16 fmt 2 <? 1) || (4 <? get16 fmt 2) then Thrown else
  let pos := Z.of_nat (length got) + Z.of_nat (length got2) in
  let next := sgetn file pos 8 in
  if Z.of_nat (length next) <? 8 then Undefined else
  match find_data fuel file (pos + 8) next with
  | Done (start, size) =>
    let ch := get16 fmt 2 in
    let bytes := get16 fmt 14 / 8 in
    if bytes =? 0 then Undefined else
    let n := size / ch / bytes in
    Done (Decoder start size (Info ch n (get32 fmt 4) bytes (u32 (u32 (ch * n) * bytes)) (get16 fmt 0)))
  | Thrown => Thrown | Undefined => Undefined | Running => Running
  end.

(** operator() (l. 229-234): the contents of the buffer afterwards. *)
Definition decoder_read (file : list Z) (d : decoder) (buffer : list Z) : result (list Z) :=
  let got := sgetn file (data_start d) (d_size d) in
  if Z.of_nat (length buffer) <? Z.of_nat (length got) then Undefined else Done (over got buffer).

(** * Specification: WAV files *)

(** A number in [k] bytes, the lowest first. *)
Fixpoint little (k : nat) (x : Z) : list Z :=
  match k with O => [] | S k' => x mod 256 :: little k' (x / 256) end.

Definition is_byte (b : Z) : Prop := 0 <= b <= 255.

(** The format chunk: 16 bytes that say how the samples are stored, and
    perhaps an extension. *)
Definition format_chunk (f : info) (rate align : Z) (extension : list Z) : list Z :=
  little 2 (format_tag f) ++ little 2 (channels f) ++ little 4 (samples_per_second f) ++ little 4 rate ++
  little 2 align ++ little 2 (8 * bytes_per_sample f) ++ extension.

(** A chunk: four letters, the number of bytes, the bytes. *)
Definition chunk (id body : list Z) : list Z := id ++ little 4 (Z.of_nat (length body)) ++ body.

Definition letters_RIFF := [82; 73; 70; 70].
Definition letters_WAVE := [87; 65; 86; 69].
Definition letters_fmt := [102; 109; 116; 32].
Definition letters_data := [100; 97; 116; 97].

(** Another chunk than the data chunk. *)
Definition other_chunk (c : list Z * list Z) : Prop :=
  length (fst c) = 4%nat /\ Forall is_byte (fst c) /\ fst c <> letters_data /\ Z.of_nat (length (snd c)) < 4294967296.

(** The head of a WAV file: up to the data chunk. *)
Definition head (size : Z) (format : list Z) (others : list (list Z * list Z)) : list Z :=
  letters_RIFF ++ little 4 size ++ letters_WAVE ++ chunk letters_fmt format ++
  concat (map (fun c => chunk (fst c) (snd c)) others).

(** Information a WAV file can hold and the decoder accepts. *)
Definition good_info (f : info) : Prop :=
  (format_tag f = 1 \/ format_tag f = 3) /\ 1 <= channels f <= 4 /\ 0 <= samples f /\
  0 <= samples_per_second f < 4294967296 /\ 1 <= bytes_per_sample f < 8192 /\
  channels f * samples f * bytes_per_sample f < 4294967296.
