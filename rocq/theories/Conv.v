(** Model of convolution (src/ovxx/signal/conv.hpp and
    src/vsip/impl/signal/conv.hpp).
    Input and output are blocks in memory given by the address of every
    element ([Freqswap.block1], [block2]: any base and strides, interleaved
    or split); every access is checked against the size of its view.  The
    kernel is the object's own dense block.  Exact arithmetic (a commutative
    ring).  Sizes are computed in 64-bit unsigned arithmetic; products of
    loop indices are taken not to wrap. *)
From Coq Require Import ZArith List Lia Bool Arith.
From Verif Require Import Base Fir Freqswap.
Import ListNotations.
Local Open Scope nat_scope.

Inductive support := support_full | support_same | support_min.

(** conv.hpp 103-121. *)
Definition conv_dim_output_size (supp : support) (M N D : Z) : Z :=
  match supp with
  | support_full => u64 (u64 (N + M - 2) / D + 1)
  | support_same => u64 (u64 (N - 1) / D + 1)
  | support_min => u64 (u64 (N - M + 1) / D + (if u64 (N - M + 1) mod D =? 0 then 0 else 1))
  end%Z.

Section Conv.
Context {K : CRing}.
Local Open Scope cr_scope.

(** Kernel matrices: a dense block with checked access. *)
Record kmat := { kr : nat; kc : nat; kv : nat -> nat -> K }.
Definition kget (m : kmat) (i j : Z) : option K :=
  assert ((0 <=? i) && (i <? Z.of_nat (kr m)) && (0 <=? j) && (j <? Z.of_nat (kc m)))%Z ;; Some (kv m (Z.to_nat i) (Z.to_nat j)).
Definition kput (m : kmat) (i j : Z) (x : K) : option kmat :=
  assert ((0 <=? i) && (i <? Z.of_nat (kr m)) && (0 <=? j) && (j <? Z.of_nat (kc m)))%Z ;;
  Some {| kr := kr m; kc := kc m; kv := fun a b => if ((a =? Z.to_nat i) && (b =? Z.to_nat j))%nat then x else kv m a b |}.
(** Assignment between sub-views Domain<1>(start, stride, n). *)
Definition copy1 (n : nat) (d0 : Z) (s0 ss : Z) (src dst : list K) : option (list K) :=
  loop (fun i dst =>
          let d := (d0 + Z.of_nat i)%Z in let s := (s0 + Z.of_nat i * ss)%Z in
          assert ((0 <=? d) && (0 <=? s))%Z ;; x <- bget src (Z.to_nat s) ;; bput dst (Z.to_nat d) x) 0 n dst.
(** Assignment between two-dimensional sub-views; the destination domains
    have stride 1, the source domains start at [sr], [sc] with strides
    [tr], [tc]; [src] gives the source matrix when the destination is [dst]. *)
Definition copy2 (n m : nat) (dr dc sr tr sc tc : Z) (src : kmat -> kmat) (dst : kmat) : option kmat :=
  loop (fun i dst => loop (fun j dst =>
          x <- kget (src dst) (sr + Z.of_nat i * tr) (sc + Z.of_nat j * tc) ;;
          kput dst (dr + Z.of_nat i) (dc + Z.of_nat j) x) 0 m dst) 0 n dst.

(** conv.hpp 144-173. *)
Definition conv_kernel1 (S : symmetry) (coeff : list K) : option (list K) :=
  let M := length coeff in let Mz := Z.of_nat M in
  match S with
  | sym_even_len_odd =>
      L <- usub (2 * M) 1 ;; M1 <- usub M 1 ;;
      a <- copy1 M 0 0 1 coeff (repeat 0 L) ;; copy1 M1 Mz (Mz - 2) (-1) coeff a
  | sym_even_len_even =>
      a <- copy1 M 0 0 1 coeff (repeat 0 (2 * M)) ;; copy1 M Mz (Mz - 1) (-1) coeff a
  | nonsym => copy1 M 0 0 1 coeff (repeat 0 M)
  end.
Definition kzero (r c : nat) : kmat := {| kr := r; kc := c; kv := fun _ _ => 0 |}.
(** conv.hpp 177-229. *)
Definition conv_kernel2 (S : symmetry) (coeff : kmat) : option kmat :=
  let Mr := kr coeff in let Mc := kc coeff in let Rz := Z.of_nat Mr in let Cz := Z.of_nat Mc in
  match S with
  | sym_even_len_odd =>
      Lr <- usub (2 * Mr) 1 ;; Lc <- usub (2 * Mc) 1 ;; Mr1 <- usub Mr 1 ;; Mc1 <- usub Mc 1 ;;
      a <- copy2 Mr Mc 0 0 0 1 0 1 (fun _ => coeff) (kzero Lr Lc) ;;
      a <- copy2 Mr Mc1 0 Cz 0 1 (Cz - 2) (-1) (fun _ => coeff) a ;;
      copy2 Mr1 Lc Rz 0 (Rz - 2) (-1) 0 1 (fun a => a) a
  | sym_even_len_even =>
      a <- copy2 Mr Mc 0 0 0 1 0 1 (fun _ => coeff) (kzero (2 * Mr) (2 * Mc)) ;;
      a <- copy2 Mr Mc 0 Cz 0 1 (Cz - 1) (-1) (fun _ => coeff) a ;;
      copy2 Mr (2 * Mc) Rz 0 (Rz - 1) (-1) 0 1 (fun a => a) a
  | nonsym => copy2 Mr Mc 0 0 0 1 0 1 (fun _ => coeff) (kzero Mr Mc)
  end.
(** conv.hpp 65-97, two dimensions (used by the C-VSIPL backend only). *)
Definition conv_kernel_size2 (S : symmetry) (r c : nat) : nat * nat :=
  match S with sym_even_len_odd => (2 * r - 1, 2 * c - 1) | sym_even_len_even => (2 * r, 2 * c - 1) | nonsym => (r, c) end%nat.

Definition loop1 (P : nat) (out : block1) (e : nat -> mem K -> option K) (m : mem K) : option (mem K) :=
  loop (fun n m => s <- e n m ;; put1 m out n s) 0 P m.
(** conv.hpp 232-257 and 337-363. *)
Definition conv_full1 (h : list K) (inp : block1) (N : nat) (out : block1) (P D : nat) : mem K -> option (mem K) :=
  loop1 P out (fun n m =>
    loop (fun k s =>
      if (k <=? n * D)%nat && (n * D - k <? N)%nat
      then c <- bget h k ;; x <- get1 m inp (n * D - k)%nat ;; Some (s + c * x) else Some s) 0 (length h) 0).
(** conv.hpp 262-288 and 366-393. *)
Definition conv_same1 (h : list K) (inp : block1) (N : nat) (out : block1) (P D : nat) : mem K -> option (mem K) :=
  let M := length h in
  loop1 P out (fun n m =>
    loop (fun k s =>
      if (k <=? n * D + M / 2)%nat && (n * D + M / 2 - k <? N)%nat
      then c <- bget h k ;; x <- get1 m inp (n * D + M / 2 - k)%nat ;; Some (s + c * x) else Some s) 0 M 0).
(** conv.hpp 293-331 and 396-444 (the branch that is compiled). *)
Definition conv_min1 (h : list K) (inp : block1) (N : nat) (out : block1) (P D : nat) (m : mem K) : option (mem K) :=
  let M := length h in
  assert (u64 (u64 (Z.of_nat P - 1) * Z.of_nat D + (Z.of_nat M - 1)) <? Z.of_nat N)%Z ;;
  loop1 P out (fun n m =>
    M1 <- usub M 1 ;;
    loop (fun k s => o <- usub (n * D + M1) k ;; c <- bget h k ;; x <- get1 m inp o ;; Some (s + c * x)) 0 M 0) m.
Definition conv1 (R : support) := match R with support_full => conv_full1 | support_same => conv_same1 | support_min => conv_min1 end.

Definition loop2 (Pr Pc : nat) (out : block2) (e : nat -> nat -> mem K -> option K) (m : mem K) : option (mem K) :=
  loop (fun r m => loop (fun c m => s <- e r c m ;; put2 m out r c s) 0 Pc m) 0 Pr m.
Definition tap (h : kmat) (rr cc : nat) : option K := kget h (Z.of_nat rr) (Z.of_nat cc).
(** conv.hpp 446-490 and 668-712. *)
Definition conv_full2 (h : kmat) (inp : block2) (Nr Nc : nat) (out : block2) (Pr Pc D : nat) : mem K -> option (mem K) :=
  loop2 Pr Pc out (fun r c m =>
    loop (fun rr s => loop (fun cc s =>
      if (rr <=? r * D)%nat && (r * D - rr <? Nr)%nat && (cc <=? c * D)%nat && (c * D - cc <? Nc)%nat
      then w <- tap h rr cc ;; x <- get2 m inp (r * D - rr)%nat (c * D - cc)%nat ;; Some (s + w * x) else Some s) 0 (kc h) s) 0 (kr h) 0).
(** The sum of conv_same, conv.hpp 518-537 and 642-660. *)
Definition same_sum (h : kmat) (inp : block2) (Nr Nc D r c : nat) (m : mem K) : option K :=
  let ir := (r * D + kr h / 2)%nat in let ic := (c * D + kc h / 2)%nat in
  loop (fun rr s => loop (fun cc s =>
      if (rr <=? ir)%nat && (ir - rr <? Nr)%nat && (cc <=? ic)%nat && (ic - cc <? Nc)%nat
      then w <- tap h rr cc ;; x <- get2 m inp (ir - rr)%nat (ic - cc)%nat ;; Some (s + w * x) else Some s) 0 (kc h) s) 0 (kr h) 0.
(** conv.hpp 493-540. *)
Definition conv_same2 (h : kmat) (inp : block2) (Nr Nc : nat) (out : block2) (Pr Pc D : nat) : mem K -> option (mem K) :=
  loop2 Pr Pc out (same_sum h inp Nr Nc D).
(** conv.hpp 543-588 (the branch that is compiled). *)
Definition conv_min2 (h : kmat) (inp : block2) (Nr Nc : nat) (out : block2) (Pr Pc D : nat) : mem K -> option (mem K) :=
  loop2 Pr Pc out (fun r c m =>
    r1 <- usub (kr h) 1 ;; c1 <- usub (kc h) 1 ;;
    loop (fun rr s => loop (fun cc s =>
      a <- usub (r * D + r1) rr ;; b <- usub (c * D + c1) cc ;;
      w <- tap h rr cc ;; x <- get2 m inp a b ;; Some (s + w * x)) 0 (kc h) s) 0 (kr h) 0).
Definition conv2 (R : support) := match R with support_full => conv_full2 | support_same => conv_same2 | support_min => conv_min2 end.

(** conv.hpp 614-666: [Pr - kr h / 2] is unsigned. *)
Definition is_edge (h : kmat) (Pr Pc r c : nat) : bool :=
  (r <? kr h / 2)%nat || (u64 (Z.of_nat Pr - Z.of_nat (kr h / 2)) <=? Z.of_nat r)%Z ||
  (c <? kc h / 2)%nat || (u64 (Z.of_nat Pc - Z.of_nat (kc h / 2)) <=? Z.of_nat c)%Z.
Definition conv_same_edge (h : kmat) (inp : block2) (Nr Nc : nat) (out : block2) (Pr Pc D : nat) (m : mem K) : option (mem K) :=
  loop (fun r m => loop (fun c m =>
    if is_edge h Pr Pc r c then s <- same_sum h inp Nr Nc D r c m ;; put2 m out r c s else Some m) 0 Pc m) 0 Pr m.
(** A view whose first element is element (r, c) of [b]. *)
Definition advance (b : block2) (r c rows cols : nat) : block2 :=
  {| rows := rows; cols := cols; addr2 := fun i j => addr2 b (r + i) (c + j); blk := blk b |}.
(** conv.hpp 901-962.  The sizes handed to conv_min are those of the code;
    the unsigned subtractions are checked. *)
Definition conv_same_example (h : kmat) (inp : block2) (Nr Nc : nat) (out : block2) (Pr Pc D : nat) (m : mem K) : option (mem K) :=
  r1 <- usub (kr h) 1 ;; c1 <- usub (kc h) 1 ;;
  ar <- usub r1 (kr h / 2) ;; ac <- usub c1 (kc h / 2) ;;
  let res_r := (ar mod D)%nat in let res_c := (ac mod D)%nat in
  let n0_r := (ar / D + if res_r =? 0 then 0 else 1)%nat in
  let n0_c := (ac / D + if res_c =? 0 then 0 else 1)%nat in
  let phase_r := (if res_r =? 0 then 0 else D - res_r)%nat in
  let phase_c := (if res_c =? 0 then 0 else D - res_c)%nat in
  br <- usub Nr (kr h / 2) ;; bc <- usub Nc (kc h / 2) ;;
  let n1_r := (br / D + if br mod D =? 0 then 0 else 1)%nat in
  let n1_c := (bc / D + if bc mod D =? 0 then 0 else 1)%nat in
  m <- (if (n0_r <? n1_r)%nat && (n0_c <? n1_c)%nat then
          nr <- usub Nr phase_r ;; nc <- usub Nc phase_c ;;
          conv_min2 h (advance inp phase_r phase_c nr nc) nr nc
            (advance out n0_r n0_c (rows out - n0_r) (cols out - n0_c)) (n1_r - n0_r) (n1_c - n0_c) D m
        else Some m) ;;
  conv_same_edge h inp Nr Nc out Pr Pc D m.

(** conv.hpp 964-1018, vsip conv.hpp 70-79. *)
Record convolution1 := { coeff1 : list K; input1 : nat; output1 : Z; decimation1 : nat }.
Definition make_conv1 (S : symmetry) (R : support) (coeffs : list K) (N d : nat) : option convolution1 :=
  h <- conv_kernel1 S coeffs ;;
  assert (1 <=? d)%nat ;;
  let P := conv_dim_output_size R (Z.of_nat (length h)) (Z.of_nat N) (Z.of_nat d) in
  assert (match S with nonsym => length coeffs <=? N | _ => length coeffs <=? 2 * N end)%nat ;;
  Some {| coeff1 := h; input1 := N; output1 := P; decimation1 := d |}.
(** vsip conv.hpp 85-95, conv.hpp 1020-1075. *)
Definition convolve1 (R : support) (c : convolution1) (inp out : block1) (m : mem K) : option (mem K) :=
  assert (len inp =? input1 c)%nat ;; assert (Z.of_nat (len out) =? output1 c)%Z ;;
  conv1 R (coeff1 c) inp (input1 c) out (len out) (decimation1 c) m.
Record convolution2 := { coeff2 : kmat; input2 : nat * nat; output2 : Z * Z; decimation2 : nat }.
Definition make_conv2 (S : symmetry) (R : support) (coeffs : kmat) (Nr Nc d : nat) : option convolution2 :=
  h <- conv_kernel2 S coeffs ;;
  assert (1 <=? d)%nat ;;
  let size M N := conv_dim_output_size R (Z.of_nat M) (Z.of_nat N) (Z.of_nat d) in
  assert (match S with nonsym => kr coeffs * kc coeffs <=? Nr * Nc | _ => kr coeffs * kc coeffs <=? 2 * (Nr * Nc) end)%nat ;;
  Some {| coeff2 := h; input2 := (Nr, Nc); output2 := (size (kr h) Nr, size (kc h) Nc); decimation2 := d |}.
(** vsip conv.hpp 97-107, conv.hpp 1077-1134. *)
Definition convolve2 (R : support) (c : convolution2) (inp out : block2) (m : mem K) : option (mem K) :=
  assert (rows inp =? fst (input2 c))%nat ;; assert (cols inp =? snd (input2 c))%nat ;;
  assert (Z.of_nat (rows out) =? fst (output2 c))%Z ;; assert (Z.of_nat (cols out) =? snd (output2 c))%Z ;;
  conv2 R (coeff2 c) inp (rows inp) (cols inp) out (rows out) (cols out) (decimation2 c) m.

(** * Specification *)
(** Sample [p] of the linear convolution of h (length M) and x (length N). *)
Definition lin_conv (M N : nat) (h x : nat -> K) (p : nat) : K :=
  sum (fun k => sum (fun j => if (k + j =? p)%nat then h k * x j else 0) N) M.
Definition lin_conv2 (Mr Mc Nr Nc : nat) (h x : nat -> nat -> K) (p q : nat) : K :=
  sum (fun k => sum (fun l => sum (fun i => sum (fun j => if (k + i =? p)%nat && (l + j =? q)%nat then h k l * x i j else 0) Nc) Nr) Mc) Mr.
(** The samples of each support region: all, those centred on an input
    sample, those for which the kernel lies inside the input. *)
Definition first_sample (R : support) (M : nat) : nat := match R with support_full => 0 | support_same => M / 2 | support_min => M - 1 end%nat.
Definition last_sample (R : support) (M N : nat) : nat := match R with support_full => N + M - 2 | support_same => M / 2 + (N - 1) | support_min => N - 1 end%nat.
(** Blocks hold values. *)
Definition holds1 (m : mem K) (b : block1) (x : nat -> K) : Prop := forall i, (i < len b)%nat -> m (addr1 b i) = Some (x i).
Definition holds2 (m : mem K) (b : block2) (x : nat -> nat -> K) : Prop := forall i j, (i < rows b)%nat -> (j < cols b)%nat -> m (addr2 b i j) = Some (x i j).
(** A matrix given by half of its rows and columns. *)
Definition fold_index (L i : nat) : nat := Nat.min i (L - 1 - i).
Definition full_kernel2 (S : symmetry) (c h : kmat) : Prop :=
  match S with
  | nonsym => kr h = kr c /\ kc h = kc c /\ forall i j, (i < kr h)%nat -> (j < kc h)%nat -> kv h i j = kv c i j
  | sym_even_len_odd => kr h = (2 * kr c - 1)%nat /\ kc h = (2 * kc c - 1)%nat /\
      forall i j, (i < kr h)%nat -> (j < kc h)%nat -> kv h i j = kv c (fold_index (kr h) i) (fold_index (kc h) j)
  | sym_even_len_even => kr h = (2 * kr c)%nat /\ kc h = (2 * kc c)%nat /\
      forall i j, (i < kr h)%nat -> (j < kc h)%nat -> kv h i j = kv c (fold_index (kr h) i) (fold_index (kc h) j)
  end.
End Conv.
Arguments kmat : clear implicits.
