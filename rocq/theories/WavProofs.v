(** Lemmas about the WAV files of Wav.v. *)
From Coq Require Import ZArith List Lia Bool Arith Zquot.
From Verif Require Import Base Wav.
Import ListNotations.
Open Scope Z_scope.
Ltac Zify.zify_post_hook ::= Z.to_euclidean_division_equations.

Lemma word32 x : 0 <= x < 4294967296 ->
  x mod 256 + 256 * (x / 256 mod 256) + 65536 * (x / 256 / 256 mod 256) + 16777216 * (x / 256 / 256 / 256 mod 256) = x.
Proof. intros H. lia. Qed.
Lemma word16 x : 0 <= x < 65536 -> x mod 256 + 256 * (x / 256 mod 256) = x.
Proof. intros H. lia. Qed.

Lemma mem32_little x : mem32 x = little 4 x.
Proof.
  unfold mem32, little. replace 65536 with (256 * 256) by reflexivity. replace 16777216 with (256 * 256 * 256) by reflexivity.
  rewrite <- !Z.div_div by lia. reflexivity.
Qed.
Lemma mem16_little x : mem16 x = little 2 x.
Proof. reflexivity. Qed.

Lemma get32_little x l : 0 <= x < 4294967296 -> get32 (little 4 x ++ l) 0 = x.
Proof. intros H. unfold get32, byte. cbn [little app nth Nat.add]. apply word32. exact H. Qed.

Lemma get32_skip a b i : get32 (a ++ b) (length a + i) = get32 b i.
Proof.
  unfold get32, byte. rewrite <- !Nat.add_assoc.
  rewrite !app_nth2_plus. reflexivity.
Qed.
Lemma get16_skip a b i : get16 (a ++ b) (length a + i) = get16 b i.
Proof. unfold get16, byte. rewrite <- !Nat.add_assoc. rewrite !app_nth2_plus. reflexivity. Qed.

Lemma little_length k : forall x, length (little k x) = k.
Proof. induction k as [|k IH]; intros x; cbn [little length]; [reflexivity|]. now rewrite IH. Qed.

(** *** Reading *)

Lemma sgetn_mid a b c n : n = Z.of_nat (length b) -> sgetn (a ++ b ++ c) (Z.of_nat (length a)) n = b.
Proof.
  intros ->. unfold sgetn. rewrite !app_length.
  replace (Z.min (Z.of_nat (length a)) (Z.of_nat (length a + (length b + length c)))) with (Z.of_nat (length a)) by lia.
  replace (Z.min (Z.of_nat (length b)) _) with (Z.of_nat (length b)) by lia.
  rewrite !Nat2Z.id, skipn_app, skipn_all, Nat.sub_diag. cbn [skipn app].
  rewrite firstn_app, firstn_all, Nat.sub_diag. cbn [firstn]. apply app_nil_r.
Qed.

Lemma sgetn_end file pos n : Z.of_nat (length file) <= pos -> sgetn file pos n = [].
Proof.
  intros H. unfold sgetn. replace (Z.to_nat (Z.min n _)) with 0%nat by lia. reflexivity.
Qed.

Lemma sgetn_short a b n : Z.of_nat (length b) <= n -> sgetn (a ++ b) (Z.of_nat (length a)) n = b.
Proof.
  intros H. unfold sgetn. rewrite app_length.
  replace (Z.min (Z.of_nat (length a)) (Z.of_nat (length a + length b))) with (Z.of_nat (length a)) by lia.
  replace (Z.min n _) with (Z.of_nat (length b)) by lia.
  rewrite !Nat2Z.id, skipn_app, skipn_all, Nat.sub_diag. cbn [skipn app]. apply firstn_all.
Qed.

Lemma over_full got old : length got = length old -> over got old = got.
Proof. intros H. unfold over. rewrite H, skipn_all. apply app_nil_r. Qed.

(** *** Identifiers *)

Lemma get32_letters a b c d l : get32 ([a; b; c; d] ++ l) 0 = a + 256 * b + 65536 * c + 16777216 * d.
Proof. reflexivity. Qed.

Lemma not_data id l : length id = 4%nat -> Forall is_byte id -> id <> letters_data -> get32 (id ++ l) 0 <> DATA_ID.
Proof.
  intros L B N E. destruct id as [|a [|b [|c [|d [|e id]]]]]; try discriminate L.
  rewrite get32_letters in E.
  inversion B as [|? ? Ha B1]; subst. inversion B1 as [|? ? Hb B2]; subst.
  inversion B2 as [|? ? Hc B3]; subst. inversion B3 as [|? ? Hd B4]; subst. unfold is_byte in *.
  change DATA_ID with 1635017060 in E. apply N. unfold letters_data.
  assert (a = 100) by lia. assert (b = 97) by lia. assert (c = 116) by lia. assert (d = 97) by lia. subst. reflexivity.
Qed.

(** *** The loop over the chunks *)

Lemma chunk_length id body : length id = 4%nat -> length (chunk id body) = (8 + length body)%nat.
Proof. intros H. unfold chunk. rewrite !app_length, little_length, H. lia. Qed.

(** The chunk header of a chunk. *)
Definition chead (id body : list Z) : list Z := id ++ little 4 (Z.of_nat (length body)).
Lemma chead_length id body : length id = 4%nat -> length (chead id body) = 8%nat.
Proof. intros H. unfold chead. rewrite app_length, little_length, H. reflexivity. Qed.
Lemma chunk_chead id body : chunk id body = chead id body ++ body.
Proof. unfold chunk, chead. rewrite <- app_assoc. reflexivity. Qed.
Lemma chead_size id body l : length id = 4%nat -> Z.of_nat (length body) < 4294967296 ->
  get32 (chead id body ++ l) 4 = Z.of_nat (length body).
Proof.
  intros H K. unfold chead. rewrite <- app_assoc. replace 4%nat with (length id + 0)%nat at 2 by lia.
  rewrite get32_skip. apply get32_little. lia.
Qed.

Definition bytes_of (others : list (list Z * list Z)) : list Z := concat (map (fun c => chunk (fst c) (snd c)) others).

(** At the data chunk. *)
Lemma find_at_data fuel file pos data : (1 <= fuel)%nat -> Z.of_nat (length data) < 4294967296 ->
  find_data fuel file pos (chead letters_data data) = Done (pos, Z.of_nat (length data)).
Proof.
  intros H K. destruct fuel as [|fuel]; [lia|]. cbn [find_data].
  replace (get32 (chead letters_data data) 0) with DATA_ID by (unfold chead; reflexivity).
  rewrite Z.eqb_refl. rewrite <- (app_nil_r (chead letters_data data)). rewrite chead_size by (reflexivity || assumption). reflexivity.
Qed.

(** One chunk further. *)
Lemma find_step fuel file pos c got : other_chunk c -> sgetn file (pos + Z.of_nat (length (snd c))) 8 = got -> length got = 8%nat ->
  find_data (S fuel) file pos (chead (fst c) (snd c)) = find_data fuel file (pos + Z.of_nat (length (snd c)) + 8) got.
Proof.
  intros [L [B [N K]]] E G. cbn [find_data].
  replace (get32 (chead (fst c) (snd c)) 0 =? DATA_ID) with false.
  2:{ symmetry. apply Z.eqb_neq. unfold chead. apply not_data; assumption. }
  rewrite <- (app_nil_r (chead (fst c) (snd c))). rewrite chead_size by assumption. rewrite app_nil_r.
  rewrite E, G. rewrite over_full by (rewrite G; symmetry; apply chead_length; assumption). reflexivity.
Qed.

Lemma find_chunks : forall others c fuel a data rest,
  Forall other_chunk (c :: others) -> (length others + 2 <= fuel)%nat -> Z.of_nat (length data) < 4294967296 ->
  let file := a ++ bytes_of (c :: others) ++ chunk letters_data data ++ rest in
  find_data fuel file (Z.of_nat (length a) + 8) (chead (fst c) (snd c)) =
  Done (Z.of_nat (length a) + Z.of_nat (length (bytes_of (c :: others))) + 8, Z.of_nat (length data)).
Proof.
  induction others as [|c' others IH]; intros c fuel a data rest F Hf K file.
  - inversion F as [|? ? Hc _]; subst. destruct fuel as [|fuel]; [cbn in Hf; lia|].
    assert (Lc := Hc). destruct Lc as [Lc _].
    unfold file, bytes_of. cbn [map concat]. rewrite app_nil_r.
    rewrite (find_step fuel _ _ c (chead letters_data data)); [| exact Hc | | reflexivity].
    + rewrite find_at_data by (cbn in Hf; (lia || assumption)). rewrite chunk_length by exact Lc.
      f_equal. f_equal. lia.
    + rewrite chunk_chead with (id := letters_data). rewrite <- app_assoc. rewrite app_assoc.
      replace (Z.of_nat (length a) + 8 + Z.of_nat (length (snd c))) with (Z.of_nat (length (a ++ chunk (fst c) (snd c)))).
      2:{ rewrite app_length, chunk_length by exact Lc. lia. }
      apply sgetn_mid. reflexivity.
  - inversion F as [|? ? Hc F']; subst. destruct fuel as [|fuel]; [cbn in Hf; lia|].
    assert (Lc := Hc). destruct Lc as [Lc _].
    inversion F' as [|? ? Hc' _]; subst. assert (Lc' := Hc'). destruct Lc' as [Lc' _].
    specialize (IH c' fuel (a ++ chunk (fst c) (snd c)) data rest F' ltac:(cbn in Hf; lia) K). cbv zeta in IH.
    assert (Ef : file = (a ++ chunk (fst c) (snd c)) ++ bytes_of (c' :: others) ++ chunk letters_data data ++ rest).
    { unfold file, bytes_of. cbn [map concat]. rewrite <- !app_assoc. reflexivity. }
    rewrite Ef. rewrite (find_step fuel _ _ c (chead (fst c') (snd c'))); [| exact Hc | | apply chead_length; exact Lc'].
    + replace (Z.of_nat (length a) + 8 + Z.of_nat (length (snd c)) + 8) with (Z.of_nat (length (a ++ chunk (fst c) (snd c))) + 8).
      2:{ rewrite app_length, chunk_length by exact Lc. lia. }
      rewrite IH. f_equal. f_equal. unfold bytes_of. cbn [map concat]. rewrite !app_length. lia.
    + replace (Z.of_nat (length a) + 8 + Z.of_nat (length (snd c))) with (Z.of_nat (length (a ++ chunk (fst c) (snd c)))).
      2:{ rewrite app_length, chunk_length by exact Lc. lia. }
      unfold bytes_of. cbn [map concat]. rewrite (chunk_chead (fst c')). rewrite <- !app_assoc. rewrite (app_assoc a).
      apply sgetn_mid. rewrite chead_length by exact Lc'. reflexivity.
Qed.

(** Without a data chunk. *)
Lemma find_end : forall fuel file pos next, Z.of_nat (length file) <= pos -> 0 <= get32 next 4 -> get32 next 0 <> DATA_ID ->
  find_data fuel file pos next = Running.
Proof.
  induction fuel as [|fuel IH]; intros file pos next H K N; cbn [find_data]; [reflexivity|].
  replace (get32 next 0 =? DATA_ID) with false by (symmetry; apply Z.eqb_neq; exact N).
  rewrite sgetn_end by lia. unfold over. cbn [app length skipn Z.of_nat]. rewrite Z.add_0_r. apply IH; [lia|assumption|assumption].
Qed.

Lemma find_never : forall others c fuel a,
  Forall other_chunk (c :: others) ->
  find_data fuel (a ++ bytes_of (c :: others)) (Z.of_nat (length a) + 8) (chead (fst c) (snd c)) = Running.
Proof.
  induction others as [|c' others IH]; intros c fuel a F.
  - inversion F as [|? ? Hc _]; subst. destruct Hc as [L [B [N K]]].
    destruct fuel as [|fuel]; [reflexivity|]. cbn [find_data].
    assert (D : get32 (chead (fst c) (snd c)) 0 <> DATA_ID) by (unfold chead; apply not_data; assumption).
    assert (S : get32 (chead (fst c) (snd c)) 4 = Z.of_nat (length (snd c))).
    { rewrite <- (app_nil_r (chead (fst c) (snd c))). apply chead_size; assumption. }
    replace (get32 (chead (fst c) (snd c)) 0 =? DATA_ID) with false by (symmetry; apply Z.eqb_neq; exact D).
    rewrite S. assert (Le : Z.of_nat (length (a ++ bytes_of [c])) <= Z.of_nat (length a) + 8 + Z.of_nat (length (snd c))).
    { unfold bytes_of. cbn [map concat]. rewrite app_nil_r, app_length, chunk_length by exact L. lia. }
    rewrite sgetn_end by exact Le. unfold over. cbn [app length skipn Z.of_nat]. rewrite Z.add_0_r.
    apply find_end; [exact Le|rewrite S; lia|exact D].
  - inversion F as [|? ? Hc F']; subst. destruct fuel as [|fuel]; [reflexivity|].
    assert (Lc := Hc). destruct Lc as [Lc _].
    inversion F' as [|? ? Hc' _]; subst. assert (Lc' := Hc'). destruct Lc' as [Lc' _].
    specialize (IH c' fuel (a ++ chunk (fst c) (snd c)) F').
    replace (a ++ bytes_of (c :: c' :: others)) with ((a ++ chunk (fst c) (snd c)) ++ bytes_of (c' :: others)).
    2:{ unfold bytes_of. cbn [map concat]. rewrite <- !app_assoc. reflexivity. }
    rewrite (find_step fuel _ _ c (chead (fst c') (snd c'))); [| exact Hc | | apply chead_length; exact Lc'].
    + replace (Z.of_nat (length a) + 8 + Z.of_nat (length (snd c)) + 8) with (Z.of_nat (length (a ++ chunk (fst c) (snd c))) + 8).
      2:{ rewrite app_length, chunk_length by exact Lc. lia. }
      exact IH.
    + replace (Z.of_nat (length a) + 8 + Z.of_nat (length (snd c))) with (Z.of_nat (length (a ++ chunk (fst c) (snd c)))).
      2:{ rewrite app_length, chunk_length by exact Lc. lia. }
      unfold bytes_of. cbn [map concat]. rewrite (chunk_chead (fst c')). rewrite <- !app_assoc. rewrite (app_assoc a).
      apply sgetn_mid. rewrite chead_length by exact Lc'. reflexivity.
Qed.

(** *** The decoder *)

Definition preamble (size : Z) (format : list Z) : list Z :=
  letters_RIFF ++ little 4 size ++ letters_WAVE ++ chead letters_fmt format.
Lemma preamble_length size format : length (preamble size format) = 20%nat.
Proof. unfold preamble. rewrite !app_length, little_length, chead_length by reflexivity. reflexivity. Qed.
Lemma head_preamble size format others : head size format others = preamble size format ++ format ++ bytes_of others.
Proof. unfold head, preamble, bytes_of. rewrite chunk_chead. rewrite <- !app_assoc. reflexivity. Qed.

Lemma preamble_fields size format : Z.of_nat (length format) < 4294967296 ->
  get32 (preamble size format) 0 = RIFF_ID /\ get32 (preamble size format) 8 = WAVE_ID /\
  get32 (preamble size format) 12 = FMT_ID /\ get32 (preamble size format) 16 = Z.of_nat (length format).
Proof.
  intros H. split; [reflexivity|]. split; [reflexivity|]. split; [reflexivity|].
  unfold get32, byte, preamble, chead. cbn [little letters_RIFF letters_WAVE letters_fmt app nth Nat.add]. apply word32. lia.
Qed.

Lemma read_preamble size format tail : sgetn (preamble size format ++ tail) 0 20 = preamble size format.
Proof.
  pose proof (sgetn_mid [] (preamble size format) tail 20) as E. cbn [app length Z.of_nat] in E. apply E.
  rewrite preamble_length. reflexivity.
Qed.

Lemma format_fields f rate align ext l :
  (format_tag f = 1 \/ format_tag f = 3) -> 1 <= channels f <= 4 -> 0 <= samples_per_second f < 4294967296 ->
  0 <= bytes_per_sample f < 8192 ->
  let m := format_chunk f rate align ext ++ l in
  get16 m 0 = format_tag f /\ get16 m 2 = channels f /\ get32 m 4 = samples_per_second f /\ get16 m 14 / 8 = bytes_per_sample f.
Proof.
  intros Ht Hc Hs Hb m. subst m. unfold format_chunk, get16, get32, byte. cbn [little app nth Nat.add].
  rewrite !word16 by lia. rewrite word32 by lia. repeat split; try reflexivity. lia.
Qed.

Lemma format_length f rate align ext : length (format_chunk f rate align ext) = (16 + length ext)%nat.
Proof. unfold format_chunk. rewrite !app_length, !little_length. lia. Qed.

(** The constructor up to the loop. *)
Lemma decode_start fuel size f rate align ext next tail :
  (format_tag f = 1 \/ format_tag f = 3) -> 1 <= channels f <= 4 -> 0 <= samples_per_second f < 4294967296 ->
  0 <= bytes_per_sample f < 8192 -> (length ext <= 24)%nat -> length next = 8%nat ->
  let format := format_chunk f rate align ext in
  let file := preamble size format ++ format ++ next ++ tail in
  decode fuel file =
  match find_data fuel file (Z.of_nat (length (preamble size format ++ format)) + 8) next with
  | Done (start, n) =>
    if bytes_per_sample f =? 0 then Undefined else
    let k := n / channels f / bytes_per_sample f in
    Done (Decoder start n (Info (channels f) k (samples_per_second f) (bytes_per_sample f)
      (u32 (u32 (channels f * k) * bytes_per_sample f)) (format_tag f)))
  | Thrown => Thrown | Undefined => Undefined | Running => Running
  end.
Proof.
  intros Ht Hc Hs Hb He Hn format file.
  assert (Lf : length format = (16 + length ext)%nat) by apply format_length.
  destruct (preamble_fields size format ltac:(lia)) as [F0 [F1 [F2 F3]]].
  assert (E1 : sgetn file 0 20 = preamble size format) by apply read_preamble.
  assert (E2 : sgetn file (Z.of_nat (length (preamble size format))) (Z.of_nat (length format)) = format)
    by (apply sgetn_mid; reflexivity).
  assert (E3 : sgetn file (Z.of_nat (length (preamble size format ++ format))) 8 = next).
  { unfold file. rewrite app_assoc. apply sgetn_mid. rewrite Hn. reflexivity. }
  unfold decode. rewrite E1. rewrite over_full by (rewrite preamble_length; reflexivity).
  rewrite F0, F1, F2, F3, !Z.eqb_refl. cbn [negb orb]. rewrite E2.
  replace (40 <? Z.of_nat (length format)) with false by (symmetry; apply Z.ltb_ge; lia).
  destruct (format_fields f rate align ext (skipn (length format) (repeat 0 40)) Ht Hc Hs Hb) as [G0 [G1 [G2 G3]]].
  change (over format (repeat 0 40)) with (format ++ skipn (length format) (repeat 0 40)).
  fold format in G0, G1, G2, G3. rewrite G0, G1, G2, G3.
  replace (negb (format_tag f =? 1) && negb (format_tag f =? 3)) with false by (destruct Ht as [-> | ->]; reflexivity).
  replace (channels f <? 1) with false by (symmetry; apply Z.ltb_ge; lia).
  replace (4 <? channels f) with false by (symmetry; apply Z.ltb_ge; lia). cbn [orb].
  rewrite <- Nat2Z.inj_add, <- app_length, E3, Hn. cbn [Z.of_nat Z.ltb Z.compare Pos.compare Pos.compare_cont Pos.of_succ_nat Pos.succ].
  destruct (find_data _ _ _ _) as [[st n]| | |]; reflexivity.
Qed.

Lemma u32_small x : 0 <= x < 4294967296 -> u32 x = x.
Proof. intros H. unfold u32. apply Z.mod_small. lia. Qed.

Lemma frames n c b : 1 <= c <= 4 -> 1 <= b < 8192 -> 0 <= n < 4294967296 ->
  u32 (u32 (c * (n / c / b)) * b) = c * (n / c / b) * b /\ c * (n / c / b) * b <= n /\ 0 <= n / c / b.
Proof.
  intros Hc Hb Hn. assert (Q0 : 0 <= n / c / b) by (apply Z.div_pos; [apply Z.div_pos|]; lia).
  assert (Q1 : b * (n / c / b) <= n / c) by (apply Z.mul_div_le; lia).
  assert (Q2 : c * (n / c) <= n) by (apply Z.mul_div_le; lia).
  set (q := n / c / b) in *. set (r := n / c) in *. clearbody q r.
  assert (Q3 : c * q * b <= n) by nia. assert (Q4 : c * q <= c * q * b) by nia. assert (Q5 : 0 <= c * q) by nia.
  split; [|split; [exact Q3|exact Q0]]. rewrite (u32_small (c * q)) by lia. apply u32_small. nia.
Qed.

Definition file_info (f : info) (n : Z) : info :=
  let k := n / channels f / bytes_per_sample f in
  Info (channels f) k (samples_per_second f) (bytes_per_sample f) (channels f * k * bytes_per_sample f) (format_tag f).

Lemma decode_file fuel f size rate align ext others data rest :
  (format_tag f = 1 \/ format_tag f = 3) -> 1 <= channels f <= 4 -> 0 <= samples_per_second f < 4294967296 ->
  1 <= bytes_per_sample f < 8192 -> (length ext <= 24)%nat -> Forall other_chunk others ->
  Z.of_nat (length data) < 4294967296 -> (length others < fuel)%nat ->
  let file := head size (format_chunk f rate align ext) others ++ chunk letters_data data ++ rest in
  exists d, decode fuel file = Done d /\ d_info d = file_info f (Z.of_nat (length data)) /\
  (forall buffer, Z.of_nat (length data) <= Z.of_nat (length buffer) ->
    decoder_read file d buffer = Done (data ++ skipn (length data) buffer)) /\
  (forall buffer, Z.of_nat (length buffer) < Z.of_nat (length data) -> decoder_read file d buffer = Undefined).
Proof.
  intros Ht Hc Hs Hb He Ho Hd Hf file. set (format := format_chunk f rate align ext).
  assert (X : exists start, decode fuel file = Done (Decoder start (Z.of_nat (length data)) (file_info f (Z.of_nat (length data)))) /\
    sgetn file start (Z.of_nat (length data)) = data).
  { assert (E0 : file = (preamble size format ++ format) ++ bytes_of others ++ chunk letters_data data ++ rest).
    { unfold file. fold format. rewrite head_preamble, <- !app_assoc. reflexivity. }
    exists (Z.of_nat (length (preamble size format ++ format)) + Z.of_nat (length (bytes_of others)) + 8). split.
    2:{ rewrite E0, chunk_chead, <- app_assoc. rewrite !app_assoc.
        replace (Z.of_nat (length (preamble size format ++ format)) + _ + 8) with
          (Z.of_nat (length (((preamble size format ++ format) ++ bytes_of others) ++ chead letters_data data))).
        2:{ rewrite !app_length, chead_length by reflexivity. lia. }
        rewrite <- app_assoc. apply sgetn_mid. reflexivity. }
    destruct (frames (Z.of_nat (length data)) (channels f) (bytes_per_sample f) Hc Hb ltac:(lia)) as [R _].
    destruct others as [|c others].
    - assert (E1 : file = preamble size format ++ format ++ chead letters_data data ++ data ++ rest).
      { rewrite E0, chunk_chead. unfold bytes_of. cbn [map concat app]. rewrite <- !app_assoc. reflexivity. }
      rewrite E1. unfold format. rewrite decode_start by (try assumption; try reflexivity; lia).
      rewrite find_at_data by (cbn in Hf; (lia || assumption)).
      replace (bytes_per_sample f =? 0) with false by (symmetry; apply Z.eqb_neq; lia). cbv zeta. rewrite R.
      unfold file_info, bytes_of. cbn [map concat length Z.of_nat]. rewrite Z.add_0_r. reflexivity.
    - inversion Ho as [|? ? Hc0 Ho']; subst.
      assert (E1 : file = preamble size format ++ format ++ chead (fst c) (snd c) ++ (snd c ++ bytes_of others ++ chunk letters_data data ++ rest)).
      { rewrite E0. unfold bytes_of. cbn [map concat]. rewrite (chunk_chead (fst c)). rewrite <- !app_assoc. reflexivity. }
      rewrite E1. unfold format. rewrite decode_start; try assumption; try lia.
      2:{ apply chead_length. destruct Hc0 as [L _]. exact L. }
      fold format. rewrite <- E1, E0.
      rewrite find_chunks by (try assumption; cbn in Hf; lia).
      replace (bytes_per_sample f =? 0) with false by (symmetry; apply Z.eqb_neq; lia). cbv zeta. rewrite R.
      unfold file_info. reflexivity. }
  destruct X as [start [E S]]. eexists. split; [exact E|]. cbn [d_info]. split; [reflexivity|].
  split; intros buffer Hbuf; unfold decoder_read; cbn [data_start d_size]; rewrite S.
  - replace (Z.of_nat (length buffer) <? Z.of_nat (length data)) with false by (symmetry; apply Z.ltb_ge; lia). reflexivity.
  - replace (Z.of_nat (length buffer) <? Z.of_nat (length data)) with true by (symmetry; apply Z.ltb_lt; lia). reflexivity.
Qed.

(** *** The encoder *)

Lemma good_size f : good_info f -> data_size f = channels f * samples f * bytes_per_sample f /\
  0 <= channels f * samples f * bytes_per_sample f.
Proof.
  intros [Ht [Hc [Hs [Hr [Hb Hp]]]]]. unfold data_size.
  assert (A : 0 <= channels f * samples f) by nia.
  assert (B : channels f * samples f <= channels f * samples f * bytes_per_sample f) by nia.
  rewrite (u32_small (channels f * samples f)) by lia. rewrite u32_small by lia. lia.
Qed.

(** What is written is a WAV file without other chunks. *)
Lemma encode_file f data : good_info f -> Z.of_nat (length data) = channels f * samples f * bytes_per_sample f ->
  forall more, exists rate,
  encode f (data ++ more) = Done (head (44 + Z.of_nat (length data)) (format_chunk f rate (channels f * bytes_per_sample f) []) [] ++
    chunk letters_data data) /\ rate = (channels f * bytes_per_sample f * samples_per_second f) mod 4294967296.
Proof.
  intros G L more. destruct (good_size f G) as [D D0]. destruct G as [Ht [Hc [Hs [Hr [Hb Hp]]]]].
  exists (u32 (u32 (channels f * bytes_per_sample f) * samples_per_second f)).
  rewrite (u32_small (channels f * bytes_per_sample f)) by nia. split; [|reflexivity].
  unfold encode. replace (negb (format_tag f =? 1) && negb (format_tag f =? 3)) with false by (destruct Ht as [-> | ->]; reflexivity).
  rewrite D, app_length. replace (Z.of_nat (length data + length more) <? _) with false by (symmetry; apply Z.ltb_ge; lia).
  rewrite <- L. rewrite Nat2Z.id, firstn_app, firstn_all, Nat.sub_diag. cbn [firstn]. rewrite app_nil_r.
  f_equal. unfold encoder_header, head, format_chunk. rewrite D, <- L.
  rewrite (u32_small (channels f * bytes_per_sample f)) by nia.
  replace (u16 (channels f * bytes_per_sample f)) with (channels f * bytes_per_sample f) by (unfold u16; symmetry; apply Z.mod_small; nia).
  replace (u16 (channels f)) with (channels f) by (unfold u16; symmetry; apply Z.mod_small; lia).
  replace (u16 (u32 (bytes_per_sample f * 8))) with (8 * bytes_per_sample f).
  2:{ rewrite u32_small by lia. unfold u16. rewrite Z.mod_small by lia. lia. }
  rewrite !mem32_little, !mem16_little.
  replace (little 4 (u32 (header_size + 8 + Z.of_nat (length data)))) with (little 4 (44 + Z.of_nat (length data))).
  2:{ change (header_size + 8) with 44. unfold u32. set (x := 44 + Z.of_nat (length data)).
      assert (E : x = x mod 4294967296 + 4294967296 * (x / 4294967296)) by lia.
      set (q := x / 4294967296) in *. set (r := x mod 4294967296) in *. change (x mod 2 ^ 32) with r.
      assert (Hr' : 0 <= r < 4294967296) by (subst r; apply Z.mod_pos_bound; lia). clearbody q r. subst x. rewrite E.
      cbn [little]. apply f_equal2; [lia|]. apply f_equal2; [lia|]. apply f_equal2; [lia|]. apply f_equal2; [lia|reflexivity]. }
  reflexivity.
Qed.

Lemma round_trip fuel f data more : (1 <= fuel)%nat -> good_info f ->
  Z.of_nat (length data) = channels f * samples f * bytes_per_sample f ->
  exists file, encode f (data ++ more) = Done file /\
  exists d, decode fuel file = Done d /\
    d_info d = Info (channels f) (samples f) (samples_per_second f) (bytes_per_sample f) (Z.of_nat (length data)) (format_tag f) /\
    forall buffer, length buffer = length data -> decoder_read file d buffer = Done data.
Proof.
  intros Hf G L. destruct (encode_file f data G L more) as [rate [E _]]. eexists. split; [exact E|].
  destruct G as [Ht [Hc [Hs [Hr [Hb Hp]]]]].
  destruct (decode_file fuel f (44 + Z.of_nat (length data)) rate (channels f * bytes_per_sample f) [] [] data []
    Ht Hc Hr Hb (Nat.le_0_l 24) (Forall_nil _) ltac:(lia) ltac:(cbn; lia)) as [d [Ed [Ei [Er _]]]].
  rewrite app_nil_r in Ed, Er. exists d. split; [exact Ed|]. split.
  - rewrite Ei. unfold file_info. rewrite L. f_equal.
    + replace (channels f * samples f * bytes_per_sample f) with (samples f * bytes_per_sample f * channels f) by ring.
      rewrite Z.div_mul by lia. apply Z.div_mul. lia.
    + replace (channels f * samples f * bytes_per_sample f) with (samples f * bytes_per_sample f * channels f) at 1 by ring.
      rewrite Z.div_mul by lia. rewrite Z.div_mul by lia. reflexivity.
  - intros buffer Lb. rewrite Er by lia. rewrite <- Lb, skipn_all, app_nil_r. reflexivity.
Qed.

(** *** What is refused *)

Lemma letters_at file i w a b c d : [a; b; c; d] = w -> is_byte a -> is_byte b -> is_byte c -> is_byte d ->
  Forall is_byte file -> get32 (over (sgetn file 0 20) (repeat 0 20)) i = a + 256 * b + 65536 * c + 16777216 * d ->
  0 < a -> 0 < b -> 0 < c -> 0 < d -> (i <= 16)%nat -> firstn 4 (skipn i file) = w.
Proof.
  intros W Ha Hb Hc Hd F E Pa Pb Pc Pd Hi.
  assert (N : forall j, (j < 20)%nat -> byte (over (sgetn file 0 20) (repeat 0 20)) j = nth j file 0).
  { intros j Hj. unfold byte, over, sgetn. rewrite Z.sub_0_r. replace (Z.to_nat (Z.min 0 _)) with 0%nat by lia. cbn [skipn].
    set (k := Z.to_nat (Z.min 20 (Z.of_nat (length file)))).
    assert (Lk : length (firstn k file) = k) by (rewrite firstn_length; lia).
    destruct (lt_dec j k) as [H|H].
    - rewrite app_nth1 by lia. rewrite <- (firstn_skipn k file) at 2. rewrite app_nth1 by lia. reflexivity.
    - rewrite app_nth2 by lia. rewrite (nth_overflow file) by lia. rewrite Lk.
      destruct (lt_dec (j - k) (length (skipn k (repeat 0 20)))) as [G|G]; [|apply nth_overflow; lia].
      assert (I := nth_In _ 0 G). apply (repeat_spec 20%nat (0:Z)). set (v := nth _ _ 0) in *. clearbody v.
      rewrite <- (firstn_skipn k (repeat 0 20)). apply in_or_app. right. exact I. }
  assert (Bd : forall j, is_byte (nth j file 0)).
  { intros j. destruct (lt_dec j (length file)) as [H|H]; [|rewrite nth_overflow by lia; unfold is_byte; lia].
    rewrite Forall_forall in F. apply F. apply nth_In. exact H. }
  unfold get32 in E. rewrite !N in E by lia.
  pose proof (Bd i) as B0. pose proof (Bd (i + 1)%nat) as B1. pose proof (Bd (i + 2)%nat) as B2. pose proof (Bd (i + 3)%nat) as B3.
  unfold is_byte in *.
  assert (X0 : nth i file 0 = a) by lia. assert (X1 : nth (i + 1) file 0 = b) by lia.
  assert (X2 : nth (i + 2) file 0 = c) by lia. assert (X3 : nth (i + 3) file 0 = d) by lia.
  assert (Len : (i + 3 < length file)%nat).
  { destruct (lt_dec (i + 3) (length file)) as [H|H]; [exact H|]. rewrite nth_overflow in X3 by lia. lia. }
  clear - W X0 X1 X2 X3 Len. subst w. revert file X0 X1 X2 X3 Len.
  induction i as [|i IH]; intros file X0 X1 X2 X3 Len.
  - destruct file as [|x [|y [|z [|t file]]]]; cbn in Len; try lia. cbn in *. congruence.
  - destruct file as [|x file]; cbn in Len; [lia|]. cbn [skipn]. apply IH; cbn [nth Nat.add] in *; try assumption. lia.
Qed.

Lemma decode_not_wav fuel file : Forall is_byte file ->
  firstn 4 file <> letters_RIFF \/ firstn 4 (skipn 8 file) <> letters_WAVE -> decode fuel file = Thrown.
Proof.
  intros F H. unfold decode.
  destruct (get32 (over (sgetn file 0 20) (repeat 0 20)) 0 =? RIFF_ID) eqn:E0;
  destruct (get32 (over (sgetn file 0 20) (repeat 0 20)) 8 =? WAVE_ID) eqn:E1; cbn [negb orb]; try reflexivity.
  exfalso. apply Z.eqb_eq in E0, E1.
  assert (A := letters_at file 0 letters_RIFF 82 73 70 70 eq_refl).
  assert (B := letters_at file 8 letters_WAVE 87 65 86 69 eq_refl). unfold is_byte in A, B.
  cbn [skipn] in A. destruct H as [H|H]; apply H; [apply A|apply B]; (lia || assumption).
Qed.

(** *** Defects *)

Lemma long_format fuel size format tail : (40 < length format)%nat -> Z.of_nat (length format) < 4294967296 ->
  decode fuel (head size format [] ++ tail) = Undefined.
Proof.
  intros H K. rewrite head_preamble, <- !app_assoc. unfold decode. rewrite read_preamble.
  rewrite over_full by (rewrite preamble_length; reflexivity).
  destruct (preamble_fields size format K) as [F0 [F1 [F2 F3]]].
  rewrite F0, F1, F3, !Z.eqb_refl. cbn [negb orb]. rewrite sgetn_mid by reflexivity.
  replace (40 <? Z.of_nat (length format)) with true by (symmetry; apply Z.ltb_lt; lia). reflexivity.
Qed.

Lemma no_data fuel f size rate align ext c others :
  (format_tag f = 1 \/ format_tag f = 3) -> 1 <= channels f <= 4 -> 0 <= samples_per_second f < 4294967296 ->
  0 <= bytes_per_sample f < 8192 -> (length ext <= 24)%nat -> Forall other_chunk (c :: others) ->
  decode fuel (head size (format_chunk f rate align ext) (c :: others)) = Running.
Proof.
  intros Ht Hc Hs Hb He Ho. inversion Ho as [|? ? Hc0 Ho']; subst. set (format := format_chunk f rate align ext).
  assert (E1 : head size format (c :: others) = preamble size format ++ format ++ chead (fst c) (snd c) ++ (snd c ++ bytes_of others)).
  { rewrite head_preamble. unfold bytes_of. cbn [map concat]. rewrite (chunk_chead (fst c)). rewrite <- !app_assoc. reflexivity. }
  rewrite E1. unfold format. rewrite decode_start; try assumption.
  2:{ apply chead_length. destruct Hc0 as [L _]. exact L. }
  fold format. rewrite <- E1, head_preamble. rewrite app_assoc. rewrite find_never by exact Ho. reflexivity.
Qed.

Lemma small_samples fuel f size rate align ext data rest : (1 <= fuel)%nat ->
  (format_tag f = 1 \/ format_tag f = 3) -> 1 <= channels f <= 4 -> 0 <= samples_per_second f < 4294967296 ->
  bytes_per_sample f = 0 -> (length ext <= 24)%nat -> Z.of_nat (length data) < 4294967296 ->
  decode fuel (head size (format_chunk f rate align ext) [] ++ chunk letters_data data ++ rest) = Undefined.
Proof.
  intros Hf Ht Hc Hs Hb He Hd. rewrite head_preamble, chunk_chead. unfold bytes_of. cbn [map concat app]. rewrite app_nil_r, <- !app_assoc.
  rewrite decode_start by (try assumption; try reflexivity; lia). rewrite find_at_data by assumption. rewrite Hb. reflexivity.
Qed.

Lemma overrun fuel f size rate align ext others data rest :
  (format_tag f = 1 \/ format_tag f = 3) -> 1 <= channels f <= 4 -> 0 <= samples_per_second f < 4294967296 ->
  1 <= bytes_per_sample f < 8192 -> (length ext <= 24)%nat -> Forall other_chunk others ->
  Z.of_nat (length data) < 4294967296 -> (length others < fuel)%nat ->
  Z.of_nat (length data) mod (channels f * bytes_per_sample f) <> 0 ->
  let file := head size (format_chunk f rate align ext) others ++ chunk letters_data data ++ rest in
  exists d, decode fuel file = Done d /\
  forall buffer, Z.of_nat (length buffer) = buffer_size (d_info d) -> decoder_read file d buffer = Undefined.
Proof.
  intros Ht Hc Hs Hb He Ho Hd Hf Hm file.
  destruct (decode_file fuel f size rate align ext others data rest Ht Hc Hs Hb He Ho Hd Hf) as [d [Ed [Ei [_ Er]]]].
  exists d. split; [exact Ed|]. intros buffer Lb. apply Er. rewrite Lb, Ei. unfold file_info. cbn [buffer_size].
  set (n := Z.of_nat (length data)) in *. rewrite Z.div_div by lia.
  pose proof (Z.div_mod n (channels f * bytes_per_sample f) ltac:(nia)) as Q.
  pose proof (Z.mod_pos_bound n (channels f * bytes_per_sample f) ltac:(nia)) as P. nia.
Qed.

Lemma riff_size f data : good_info f -> Z.of_nat (length data) = channels f * samples f * bytes_per_sample f ->
  exists file, encode f data = Done file /\ firstn 4 (skipn 4 file) <> little 4 (Z.of_nat (length file) - 8).
Proof.
  intros G L. destruct (encode_file f data G L []) as [rate [E _]]. rewrite app_nil_r in E. eexists. split; [exact E|].
  rewrite !app_length, chunk_length by reflexivity. rewrite head_preamble, !app_length, preamble_length, format_length.
  unfold bytes_of. cbn [map concat length]. rewrite !app_nil_r.
  set (n := length data). unfold preamble. cbn [letters_RIFF app skipn little firstn]. intros X.
  apply (f_equal (fun l => nth 0 l 0)) in X. cbn [nth] in X. rewrite !Nat2Z.inj_add in X.
  revert X. generalize (Z.of_nat n). intros z X. cbn [Z.of_nat Pos.of_succ_nat Pos.succ] in X. lia.
Qed.
