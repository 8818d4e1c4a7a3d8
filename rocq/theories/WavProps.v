(** Theorems about reading and writing WAV files. *)
From Coq Require Import ZArith List Lia Bool Arith.
From Verif Require Import Base Wav WavProofs.
Import ListNotations.
Open Scope Z_scope.

(** What the encoder writes the decoder reads back: the same channels,
    samples, rate, width and format, and the same bytes. *)
Theorem C89_round_trip : forall fuel f data more, (1 <= fuel)%nat -> good_info f ->
  Z.of_nat (length data) = channels f * samples f * bytes_per_sample f ->
  exists file, encode f (data ++ more) = Done file /\
  exists d, decode fuel file = Done d /\
    d_info d = Info (channels f) (samples f) (samples_per_second f) (bytes_per_sample f) (Z.of_nat (length data)) (format_tag f) /\
    forall buffer, length buffer = length data -> decoder_read file d buffer = Done data.
Proof. exact round_trip. Qed.
Print Assumptions C89_round_trip.

Example C89_round_trip_example :
  let f := Info 2 3 44100 2 0 1 in let data := [1; 0; 255; 255; 2; 0; 254; 255; 3; 0; 253; 255] in
  good_info f /\ Z.of_nat (length data) = channels f * samples f * bytes_per_sample f /\
  encode f data = Done ([82; 73; 70; 70; 56; 0; 0; 0; 87; 65; 86; 69; 102; 109; 116; 32; 16; 0; 0; 0;
    1; 0; 2; 0; 68; 172; 0; 0; 16; 177; 2; 0; 4; 0; 16; 0; 100; 97; 116; 97; 12; 0; 0; 0] ++ data).
Proof. cbv zeta. split; [unfold good_info; cbn; lia|]. split; [reflexivity|]. vm_compute. reflexivity. Qed.

(** What the encoder writes is a WAV file: the letters, the format chunk with
    the right rate and block size, and the data chunk, and nothing else (the
    total size after RIFF apart). *)
Theorem C89_written : forall f data, good_info f -> Z.of_nat (length data) = channels f * samples f * bytes_per_sample f ->
  forall more, exists rate size,
  encode f (data ++ more) = Done (head size (format_chunk f rate (channels f * bytes_per_sample f) []) [] ++ chunk letters_data data) /\
  rate = (channels f * bytes_per_sample f * samples_per_second f) mod 4294967296.
Proof. intros f data G L more. destruct (encode_file f data G L more) as [rate E]. exists rate. eexists. exact E. Qed.
Print Assumptions C89_written.

(** The decoder reads every WAV file of PCM or float samples, whatever other
    chunks come before or after the data, with a format chunk of up to 40
    bytes: it gives the information of the format chunk, the number of whole
    samples, and all the bytes of the data. *)
Theorem C89_read : forall fuel f size rate align extension others data rest,
  (format_tag f = 1 \/ format_tag f = 3) -> 1 <= channels f <= 4 -> 0 <= samples_per_second f < 4294967296 ->
  1 <= bytes_per_sample f < 8192 -> (length extension <= 24)%nat -> Forall other_chunk others ->
  Z.of_nat (length data) < 4294967296 -> (length others < fuel)%nat ->
  let file := head size (format_chunk f rate align extension) others ++ chunk letters_data data ++ rest in
  let n := Z.of_nat (length data) / channels f / bytes_per_sample f in
  exists d, decode fuel file = Done d /\
  d_info d = Info (channels f) n (samples_per_second f) (bytes_per_sample f) (channels f * n * bytes_per_sample f) (format_tag f) /\
  forall buffer, Z.of_nat (length data) <= Z.of_nat (length buffer) ->
    decoder_read file d buffer = Done (data ++ skipn (length data) buffer).
Proof.
  intros fuel f size rate align ext others data rest Ht Hc Hs Hb He Ho Hd Hf file n.
  destruct (decode_file fuel f size rate align ext others data rest Ht Hc Hs Hb He Ho Hd Hf) as [d [A [B [C _]]]].
  exists d. split; [exact A|]. split; [exact B|exact C].
Qed.
Print Assumptions C89_read.

Example C89_read_example :
  let others := [([76; 73; 83; 84], [1; 2]); ([102; 97; 99; 116], [])] in
  Forall other_chunk others /\
  exists d, decode 3 (head 0 (format_chunk (Info 1 0 8000 2 0 1) 16000 2 [0; 0]) others ++ chunk letters_data [7; 8; 9; 10] ++ [1; 1]) = Done d /\
  d_info d = Info 1 2 8000 2 4 1.
Proof.
  cbv zeta. split.
  - repeat constructor; unfold is_byte; cbn; try lia; intros H; discriminate H.
  - eexists. split; [vm_compute; reflexivity|]. vm_compute. reflexivity.
Qed.

(** What does not begin with RIFF....WAVE is refused. *)
Theorem C89_not_wav : forall fuel file, Forall is_byte file ->
  firstn 4 file <> [82; 73; 70; 70] \/ firstn 4 (skipn 8 file) <> [87; 65; 86; 69] -> decode fuel file = Thrown.
Proof. exact decode_not_wav. Qed.
Print Assumptions C89_not_wav.

Example C89_not_wav_example : firstn 4 [82; 73; 70] <> [82; 73; 70; 70] /\ decode 5 [82; 73; 70] = Thrown.
Proof. split; [intros H; discriminate H|]. vm_compute. reflexivity. Qed.

(** Defect: a data chunk that is not a whole number of samples makes the
    decoder write past the end of a buffer of exactly the size it asked for:
    buffer_size counts whole samples, operator() reads the whole chunk. *)
Theorem C89_overrun_refuted : forall fuel f size rate align extension others data rest,
  (format_tag f = 1 \/ format_tag f = 3) -> 1 <= channels f <= 4 -> 0 <= samples_per_second f < 4294967296 ->
  1 <= bytes_per_sample f < 8192 -> (length extension <= 24)%nat -> Forall other_chunk others ->
  Z.of_nat (length data) < 4294967296 -> (length others < fuel)%nat ->
  Z.of_nat (length data) mod (channels f * bytes_per_sample f) <> 0 ->
  let file := head size (format_chunk f rate align extension) others ++ chunk letters_data data ++ rest in
  exists d, decode fuel file = Done d /\
  forall buffer, Z.of_nat (length buffer) = buffer_size (d_info d) -> decoder_read file d buffer = Undefined.
Proof. exact overrun. Qed.
Print Assumptions C89_overrun_refuted.

Example C89_overrun_refuted_example :
  let file := head 0 (format_chunk (Info 2 0 8000 2 0 1) 32000 4 []) [] ++ chunk letters_data [1; 2; 3; 4; 5] ++ [] in
  exists d, decode 1 file = Done d /\ buffer_size (d_info d) = 4 /\ decoder_read file d [0; 0; 0; 0] = Undefined.
Proof. cbv zeta. eexists. split; [vm_compute; reflexivity|]. split; vm_compute; reflexivity. Qed.

(** Defect: a format chunk of more than 40 bytes is read over the end of the
    header in the decoder. *)
Theorem C89_long_format_refuted : forall fuel size format tail,
  (40 < length format)%nat -> Z.of_nat (length format) < 4294967296 ->
  decode fuel (head size format [] ++ tail) = Undefined.
Proof. exact long_format. Qed.
Print Assumptions C89_long_format_refuted.

(** Defect: the decoder never returns from a file that has other chunks but no
    data chunk (a file cut short, say): at the end of the file it keeps on
    looking at the last chunk header it read. *)
Theorem C89_no_data_refuted : forall fuel f size rate align extension c others,
  (format_tag f = 1 \/ format_tag f = 3) -> 1 <= channels f <= 4 -> 0 <= samples_per_second f < 4294967296 ->
  0 <= bytes_per_sample f < 8192 -> (length extension <= 24)%nat -> Forall other_chunk (c :: others) ->
  decode fuel (head size (format_chunk f rate align extension) (c :: others)) = Running.
Proof. exact no_data. Qed.
Print Assumptions C89_no_data_refuted.

(** Defect: the decoder divides by zero on samples of fewer than 8 bits. *)
Theorem C89_small_samples_refuted : forall fuel f size rate align extension data rest, (1 <= fuel)%nat ->
  (format_tag f = 1 \/ format_tag f = 3) -> 1 <= channels f <= 4 -> 0 <= samples_per_second f < 4294967296 ->
  bytes_per_sample f = 0 -> (length extension <= 24)%nat -> Z.of_nat (length data) < 4294967296 ->
  decode fuel (head size (format_chunk f rate align extension) [] ++ chunk letters_data data ++ rest) = Undefined.
Proof. exact small_samples. Qed.
Print Assumptions C89_small_samples_refuted.

(** Defect: WAV files pad chunks of odd size with a byte; the decoder does not
    skip it and goes astray.  It never returns from this file, which has a
    LIST chunk of one byte before the data. *)
Theorem C89_padding_refuted : forall fuel,
  decode fuel (head 50 (format_chunk (Info 1 1 8000 2 2 1) 16000 2 []) [([76; 73; 83; 84], [65])] ++ [0] ++
    chunk [100; 97; 116; 97] [1; 2]) = Running.
Proof.
  intros fuel. unfold decode.
  match goal with |- context [find_data fuel ?file ?pos ?next] =>
    assert (E : find_data fuel file pos next = Running) end.
  { destruct fuel as [|[|fuel]]; [vm_compute; reflexivity|vm_compute; reflexivity|].
    match goal with |- find_data (S (S fuel)) ?file _ _ = _ => set (fl := file) end.
    cbn [find_data].
    match goal with |- context [if ?b then _ else _] => replace b with false by (vm_compute; reflexivity) end.
    cbv iota.
    match goal with |- context [if ?b then _ else _] => replace b with false by (vm_compute; reflexivity) end.
    cbv iota. apply find_end; vm_compute; congruence. }
  rewrite E. vm_compute. reflexivity.
Qed.
Print Assumptions C89_padding_refuted.

(** Defect: the size after RIFF has to count the bytes that follow it; the
    encoder writes the size of the whole file, eight more. *)
Theorem C89_riff_size_refuted : forall f data, good_info f ->
  Z.of_nat (length data) = channels f * samples f * bytes_per_sample f ->
  exists file, encode f data = Done file /\ firstn 4 (skipn 4 file) <> little 4 (Z.of_nat (length file) - 8).
Proof. exact riff_size. Qed.
Print Assumptions C89_riff_size_refuted.

(** Limitation: the encoder accepts any number of channels, but the decoder at
    most four; and the number is cut to 16 bits without an error. *)
Theorem C89_channels_refuted :
  (exists file, encode (Info 5 1 8000 1 5 1) [1; 2; 3; 4; 5] = Done file /\ decode 5 file = Thrown) /\
  (exists file d, encode (Info 65537 0 8000 1 0 1) [] = Done file /\ decode 5 file = Done d /\ channels (d_info d) = 1).
Proof.
  split.
  - eexists. split; [vm_compute; reflexivity|]. vm_compute. reflexivity.
  - do 2 eexists. split; [vm_compute; reflexivity|]. split; vm_compute; reflexivity.
Qed.
Print Assumptions C89_channels_refuted.
