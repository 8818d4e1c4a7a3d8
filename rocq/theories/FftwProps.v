(** Property C71: transforms computed with FFTW. *)
From Coq Require Import ZArith List Bool Arith.
From Verif Require Import Base Layout Dft DftExamples Fftw FftwProofs FftwFinal FftwExamples.
Import ListNotations.
Local Open Scope nat_scope.

(** An object can be created for every transform of up to three dimensions whose arrays fit an int. *)
Theorem C71_created : forall ssz AL va k inv A dims number,
  config ssz AL va -> 1 <= length dims <= 3 -> A < length dims -> Forall (fun n => 0 < n) dims ->
  (fold_right Z.mul 1 (map Z.of_nat dims) < 2147483648)%Z ->
  exists be, fft_create ssz AL k inv A dims number = Some be.
Proof. exact C71_created_lemma. Qed.
Example C71_created_ex : (exists be, fft_create 8 32 C2R false 0 [4; 2] 12 = Some be) /\ (exists be, fft_create 8 32 R2C true 2 [3; 5; 7] 0 = Some be) /\
  fft_create 8 32 C2C false 0 [4; 0] 12 = None.
Proof. split; [eexists; vm_compute; reflexivity|]. split; [eexists; vm_compute; reflexivity|]. vm_compute. reflexivity. Qed.
Print Assumptions C71_created.

(** The same for an object that transforms the rows or columns of a matrix. *)
Theorem C71_many_created : forall ssz AL va k inv axis rows cols number,
  config ssz AL va -> axis < 2 -> 0 < nth axis [rows; cols] 0 -> (Z.of_nat (nth axis [rows; cols] 0%nat) < 2147483648)%Z ->
  exists be, fftm_create ssz AL k inv axis rows cols number = Some be.
Proof. exact C71_many_created_lemma. Qed.
Example C71_many_created_ex : exists be, fftm_create 8 32 C2R false 0 6 0 12 = Some be.
Proof. eexists. vm_compute. reflexivity. Qed.
Print Assumptions C71_many_created.

(** A complex transform writes the discrete Fourier transform of the input,
    times the scale factor, to the output, whatever the layout of the two
    blocks, and changes nothing else but the object's own buffers. *)
Theorem C71_complex : forall (R : CRing) (t : trig R) ssz AL va (exec : plan -> ptr -> ptr -> st R -> option (st R)) inv A dims number be ib ob ne1 sc bi bo X m,
  config ssz AL va -> documented R t ssz va exec ->
  1 <= length dims <= 3 -> A < length dims -> Forall (fun n => 0 < n) dims ->
  (fold_right Z.mul 1 (map Z.of_nat dims) < 2147483648)%Z ->
  fft_create ssz AL C2C inv A dims number = Some be ->
  sized bi dims -> sized bo dims -> cpx_ptr (b_ptr bi) -> cpx_ptr (b_ptr bo) -> array_of_complex ib -> array_of_complex ob ->
  memory R ssz m bi bo ib (in_cells (be_planner be)) ob (out_cells (be_planner be)) ->
  holds R m (ixs dims) (b_ptr bi) (ats (b_stride bi)) X -> (ne1 = false -> sc = 1%cr) ->
  exists m', fft_by_reference ssz R exec be A dims ib ob ne1 sc bi bo m = Some m' /\
    holds R m' (ixs dims) (b_ptr bo) (ats (b_stride bo)) (fun w => DFTs R t (if inv then 1 else -1)%Z dims X w * ofR R sc)%cr /\
    changed R m m' (fun c => elements bo c \/ storage ib (in_cells (be_planner be)) c \/ storage ob (out_cells (be_planner be)) c).
Proof. exact C71_complex_lemma. Qed.
Example C71_complex_ex : outc [8; 9; 10; 11; 12; 13; 14; 15]%Z (with_be (fft_create 8 32 C2C false 0 [2; 4] 1) (fun be =>
    fft_by_reference 8 Zring ref be 0 [2; 4] (Inter 16) (Inter 24) true 2%Z (cols24 (Inter 0)) (rows24 (Inter 8)) (zmem [] (data ++ fresh 24)))) =
  Some (map Some [(24, 10); (-2, 0); (-16, -2); (2, 0); (8, -10); (6, 12); (-8, 2); (2, -12)]%Z).
Proof. vm_compute. reflexivity. Qed.
Print Assumptions C71_complex.

(** The same for the half spectrum of a real input, halved along any dimension. *)
Theorem C71_real_to_complex : forall (R : CRing) (t : trig R) ssz AL va (exec : plan -> ptr -> ptr -> st R -> option (st R)) inv A dims number be ib ob ne1 sc bi bo x m,
  config ssz AL va -> documented R t ssz va exec ->
  1 <= length dims <= 3 -> A < length dims -> Forall (fun n => 0 < n) dims ->
  (fold_right Z.mul 1 (map Z.of_nat dims) < 2147483648)%Z ->
  fft_create ssz AL R2C inv A dims number = Some be ->
  sized bi dims -> sized bo (half_at A dims) -> real_ptr (b_ptr bi) -> cpx_ptr (b_ptr bo) -> real_ptr ib -> array_of_complex ob ->
  memory R ssz m bi bo ib (in_cells (be_planner be)) ob (out_cells (be_planner be)) ->
  holds R m (ixs dims) (b_ptr bi) (ats (b_stride bi)) (fun i => ofR R (x i)) -> (ne1 = false -> sc = 1%cr) ->
  exists m', fft_by_reference ssz R exec be A dims ib ob ne1 sc bi bo m = Some m' /\
    holds R m' (ixs (half_at A dims)) (b_ptr bo) (ats (b_stride bo)) (fun w => DFTs R t (-1)%Z dims (fun i => ofR R (x i)) w * ofR R sc)%cr /\
    changed R m m' (fun c => elements bo c \/ storage ib (in_cells (be_planner be)) c \/ storage ob (out_cells (be_planner be)) c).
Proof. exact C71_real_to_complex_lemma. Qed.
Example C71_real_to_complex_ex : config 8 32 16 /\ documented Zring ztrig 8 16 ref /\
  (forall be, fft_create 8 32 R2C false 1 [2; 4] 1 = Some be ->
    memory Zring 8 (zmem (repeat 9 16)%Z (fresh 12)) (cols24 (Real 0)) (rows23 (Inter 0)) (Real 8) (in_cells (be_planner be)) (Inter 6) (out_cells (be_planner be))) /\
  outc [0; 1; 2; 3; 4; 5]%Z (with_be (fft_create 8 32 R2C false 1 [2; 4] 1) (fun be =>
    fft_by_reference 8 Zring ref be 1 [2; 4] (Real 8) (Inter 6) false 1%Z (cols24 (Real 0)) (rows23 (Inter 0))
      (zmem ([1; 2; 3; 5; 8; 13; 21; 34] ++ repeat 9 8)%Z (fresh 12)))) =
  Some (map Some [(87, 0); (-18, 47); (-39, 0); (-21, 0); (4, -11); (9, 0)]%Z).
Proof. split; [vm_compute; repeat split; discriminate|]. split; [apply reference_documented|]. split.
  - intros be E. vm_compute in E. injection E as <-. apply mem_small; reflexivity.
  - vm_compute. reflexivity. Qed.
Print Assumptions C71_real_to_complex.

(** A complex-to-real transform computes the transform of the Hermitian array
    whose half the input holds.  The input is left alone, although FFTW may
    overwrite the array it is given. *)
Theorem C71_complex_to_real : forall (R : CRing) (t : trig R) ssz AL va (exec : plan -> ptr -> ptr -> st R -> option (st R)) inv A dims number be ib ob ne1 sc bi bo X m,
  config ssz AL va -> documented R t ssz va exec ->
  1 <= length dims <= 3 -> A < length dims -> Forall (fun n => 0 < n) dims ->
  (fold_right Z.mul 1 (map Z.of_nat dims) < 2147483648)%Z ->
  fft_create ssz AL C2R inv A dims number = Some be ->
  sized bi (half_at A dims) -> sized bo dims -> cpx_ptr (b_ptr bi) -> real_ptr (b_ptr bo) -> array_of_complex ib -> real_ptr ob ->
  memory R ssz m bi bo ib (in_cells (be_planner be)) ob (out_cells (be_planner be)) ->
  hermitian R dims X -> holds R m (ixs (half_at A dims)) (b_ptr bi) (ats (b_stride bi)) X -> (ne1 = false -> sc = 1%cr) ->
  exists m', fft_by_reference ssz R exec be A dims ib ob ne1 sc bi bo m = Some m' /\
    holds R m' (ixs dims) (b_ptr bo) (ats (b_stride bo)) (fun w => ofR R (fst (DFTs R t 1%Z dims X w) * sc)%cr) /\
    changed R m m' (fun c => elements bo c \/ storage ib (in_cells (be_planner be)) c \/ storage ob (out_cells (be_planner be)) c).
Proof. exact C71_complex_to_real_lemma. Qed.
Example C71_complex_to_real_ex : outr [0; 1; 2; 3; 4; 5; 6; 7]%Z (with_be (fft_create 8 32 C2R false 1 [2; 4] 1) (fun be =>
    fft_by_reference 8 Zring ref be 1 [2; 4] (Inter 6) (Real 8) true 3%Z (rows23 (Inter 0)) (cols24 (Real 0))
      (zmem (repeat 9 16)%Z ([(87, 0); (-18, 47); (-39, 0); (-21, 0); (4, -11); (9, 0)]%Z ++ fresh 6)))) =
  Some (map Some [24; 48; 72; 120; 192; 312; 504; 816]%Z).
Proof. vm_compute. reflexivity. Qed.
Print Assumptions C71_complex_to_real.

(** A complex transform in place. *)
Theorem C71_in_place : forall (R : CRing) (t : trig R) ssz AL va (exec : plan -> ptr -> ptr -> st R -> option (st R)) inv A dims number be ib ne1 sc b X m,
  config ssz AL va -> documented R t ssz va exec ->
  1 <= length dims <= 3 -> A < length dims -> Forall (fun n => 0 < n) dims ->
  (fold_right Z.mul 1 (map Z.of_nat dims) < 2147483648)%Z ->
  fft_create ssz AL C2C inv A dims number = Some be ->
  sized b dims -> cpx_ptr (b_ptr b) -> array_of_complex ib ->
  memory1 R ssz m b ib (in_cells (be_planner be)) ->
  holds R m (ixs dims) (b_ptr b) (ats (b_stride b)) X -> (ne1 = false -> sc = 1%cr) ->
  exists m', fft_in_place ssz R exec be dims ib ne1 sc b m = Some m' /\
    holds R m' (ixs dims) (b_ptr b) (ats (b_stride b)) (fun w => DFTs R t (if inv then 1 else -1)%Z dims X w * ofR R sc)%cr /\
    changed R m m' (fun c => elements b c \/ storage ib (in_cells (be_planner be)) c).
Proof. exact C71_in_place_lemma. Qed.
Example C71_in_place_ex : outc [0; 1; 2; 3; 4; 5; 6; 7]%Z (with_be (fft_create 8 32 C2C true 0 [4] 1) (fun be =>
    fft_in_place 8 Zring ref be [4] (Inter 8) true 3%Z (Blk (Inter 0) [0] [4] [2]%Z true)
      (zmem [] ([(1, 0); (7, 7); (2, 1); (7, 7); (0, 3); (7, 7); (4, 0); (7, 7)]%Z ++ fresh 4)))) =
  Some (map Some [(21, 12); (7, 7); (0, -15); (7, 7); (-15, 6); (7, 7); (6, -3); (7, 7)]%Z).
Proof. vm_compute. reflexivity. Qed.
Print Assumptions C71_in_place.

(** The transform of every row or column; the views may be distributed along
    the other dimension in the same way, then each process transforms its own. *)
Theorem C71_many_complex : forall (R : CRing) (t : trig R) ssz AL va (exec : plan -> ptr -> ptr -> st R -> option (st R)) inv axis rows cols number be ib ob ne1 sc par k bi bo X m,
  config ssz AL va -> documented R t ssz va exec -> axis < 2 ->
  let n := nth axis [rows; cols] 0 in
  0 < n -> (Z.of_nat n < 2147483648)%Z -> k <= nth (1 - axis) [rows; cols] 0 ->
  fftm_create ssz AL C2C inv axis rows cols number = Some be ->
  (par = None \/ exists d, par = Some ((1, 1), (d, d))) ->
  sized bi (line axis n k) -> sized bo (line axis n k) -> cpx_ptr (b_ptr bi) -> cpx_ptr (b_ptr bo) -> array_of_complex ib -> array_of_complex ob ->
  memory R ssz m bi bo ib (in_cells (be_planner be)) ob (out_cells (be_planner be)) ->
  holds R m (ixs (line axis n k)) (b_ptr bi) (ats (b_stride bi)) X -> (ne1 = false -> sc = 1%cr) ->
  exists m', fftm_by_reference ssz R exec be axis [rows; cols] ib ob ne1 sc [rows; cols] [rows; cols] par bi bo m = Some m' /\
    (forall h, h < k -> holds R m' (ixs [n]) (b_ptr bo) (fun w => ats (b_stride bo) (line axis (nth 0 w 0) h))
       (fun w => DFTs R t (if inv then 1 else -1)%Z [n] (fun i => X (line axis (nth 0%nat i 0%nat) h)) w * ofR R sc)%cr) /\
    changed R m m' (fun c => elements bo c \/ storage ib (in_cells (be_planner be)) c \/ storage ob (out_cells (be_planner be)) c).
Proof. exact C71_many_complex_lemma. Qed.
Example C71_many_complex_ex : outc [8; 9; 10; 11; 12; 13; 14; 15]%Z (with_be (fftm_create 8 32 C2C false 1 2 4 1) (fun be =>
    fftm_by_reference 8 Zring ref be 1 [2; 4] (Inter 16) (Inter 24) true 2%Z [2; 4] [2; 4] None (cols24 (Inter 0)) (rows24 (Inter 8)) (zmem [] (data ++ fresh 24)))) =
  Some (map Some [(16, 0); (2, 6); (-12, 0); (2, -6); (8, 10); (-4, -6); (-4, -2); (0, 6)]%Z).
Proof. vm_compute. reflexivity. Qed.
Print Assumptions C71_many_complex.

(** Real rows or columns. *)
Theorem C71_many_real_to_complex : forall (R : CRing) (t : trig R) ssz AL va (exec : plan -> ptr -> ptr -> st R -> option (st R)) inv axis rows cols number be ib ob ne1 sc k bi bo x m,
  config ssz AL va -> documented R t ssz va exec -> axis < 2 ->
  let n := nth axis [rows; cols] 0 in
  0 < n -> (Z.of_nat n < 2147483648)%Z -> k <= nth (1 - axis) [rows; cols] 0 ->
  fftm_create ssz AL R2C inv axis rows cols number = Some be ->
  sized bi (line axis n k) -> sized bo (line axis (n / 2 + 1) k) -> real_ptr (b_ptr bi) -> cpx_ptr (b_ptr bo) -> real_ptr ib -> array_of_complex ob ->
  memory R ssz m bi bo ib (in_cells (be_planner be)) ob (out_cells (be_planner be)) ->
  holds R m (ixs (line axis n k)) (b_ptr bi) (ats (b_stride bi)) (fun i => ofR R (x i)) -> (ne1 = false -> sc = 1%cr) ->
  exists m', fftm_by_reference ssz R exec be axis [rows; cols] ib ob ne1 sc [rows; cols] (half_at axis [rows; cols]) None bi bo m = Some m' /\
    (forall h, h < k -> holds R m' (ixs [n / 2 + 1]) (b_ptr bo) (fun w => ats (b_stride bo) (line axis (nth 0 w 0) h))
       (fun w => DFTs R t (-1)%Z [n] (fun i => ofR R (x (line axis (nth 0%nat i 0%nat) h))) w * ofR R sc)%cr) /\
    changed R m m' (fun c => elements bo c \/ storage ib (in_cells (be_planner be)) c \/ storage ob (out_cells (be_planner be)) c).
Proof. exact C71_many_real_to_complex_lemma. Qed.
Example C71_many_real_to_complex_ex : outc [0; 1; 2; 3; 4; 5]%Z (with_be (fftm_create 8 32 R2C false 1 2 4 1) (fun be =>
    fftm_by_reference 8 Zring ref be 1 [2; 4] (Real 8) (Inter 6) true 2%Z [2; 4] [2; 3] None (cols24 (Real 0)) (rows23 (Inter 0))
      (zmem ([1; 2; 3; 5; 8; 13; 21; 34] ++ repeat 9 8)%Z (fresh 16)))) =
  Some (map Some [(66, 0); (-14, 36); (-30, 0); (108, 0); (-22, 58); (-48, 0)]%Z).
Proof. vm_compute. reflexivity. Qed.
Print Assumptions C71_many_real_to_complex.

(** Complex-to-real transforms of rows or columns. *)
Theorem C71_many_complex_to_real : forall (R : CRing) (t : trig R) ssz AL va (exec : plan -> ptr -> ptr -> st R -> option (st R)) inv axis rows cols number be ib ob ne1 sc k bi bo X m,
  config ssz AL va -> documented R t ssz va exec -> axis < 2 ->
  let n := nth axis [rows; cols] 0 in
  0 < n -> (Z.of_nat n < 2147483648)%Z -> k <= nth (1 - axis) [rows; cols] 0 ->
  fftm_create ssz AL C2R inv axis rows cols number = Some be ->
  sized bi (line axis (n / 2 + 1) k) -> sized bo (line axis n k) -> cpx_ptr (b_ptr bi) -> real_ptr (b_ptr bo) -> array_of_complex ib -> real_ptr ob ->
  memory R ssz m bi bo ib (in_cells (be_planner be)) ob (out_cells (be_planner be)) ->
  (forall h, h < k -> hermitian R [n] (fun i => X (line axis (nth 0 i 0) h))) ->
  holds R m (ixs (line axis (n / 2 + 1) k)) (b_ptr bi) (ats (b_stride bi)) X -> (ne1 = false -> sc = 1%cr) ->
  exists m', fftm_by_reference ssz R exec be axis [rows; cols] ib ob ne1 sc (half_at axis [rows; cols]) [rows; cols] None bi bo m = Some m' /\
    (forall h, h < k -> holds R m' (ixs [n]) (b_ptr bo) (fun w => ats (b_stride bo) (line axis (nth 0 w 0) h))
       (fun w => ofR R (fst (DFTs R t 1%Z [n] (fun i => X (line axis (nth 0%nat i 0%nat) h)) w) * sc)%cr)) /\
    changed R m m' (fun c => elements bo c \/ storage ib (in_cells (be_planner be)) c \/ storage ob (out_cells (be_planner be)) c).
Proof. exact C71_many_complex_to_real_lemma. Qed.
Example C71_many_complex_to_real_ex : outr [0; 1; 2; 3; 4; 5; 6; 7]%Z (with_be (fftm_create 8 32 C2R false 1 2 4 1) (fun be =>
    fftm_by_reference 8 Zring ref be 1 [2; 4] (Inter 6) (Real 8) true 2%Z [2; 3] [2; 4] None (rows23 (Inter 0)) (cols24 (Real 0))
      (zmem (repeat 9 16)%Z ([(33, 0); (-7, 18); (-15, 0); (54, 0); (-11, 29); (-24, 0)]%Z ++ fresh 10)))) =
  Some (map Some [8; 16; 24; 40; 64; 104; 168; 272]%Z).
Proof. vm_compute. reflexivity. Qed.
Print Assumptions C71_many_complex_to_real.

(** Rows or columns in place. *)
Theorem C71_many_in_place : forall (R : CRing) (t : trig R) ssz AL va (exec : plan -> ptr -> ptr -> st R -> option (st R)) inv axis rows cols number be ib ne1 sc par k b X m,
  config ssz AL va -> documented R t ssz va exec -> axis < 2 ->
  let n := nth axis [rows; cols] 0 in
  0 < n -> (Z.of_nat n < 2147483648)%Z -> k <= nth (1 - axis) [rows; cols] 0 ->
  fftm_create ssz AL C2C inv axis rows cols number = Some be ->
  (par = None \/ par = Some 1) ->
  sized b (line axis n k) -> cpx_ptr (b_ptr b) -> array_of_complex ib ->
  memory1 R ssz m b ib (in_cells (be_planner be)) ->
  holds R m (ixs (line axis n k)) (b_ptr b) (ats (b_stride b)) X -> (ne1 = false -> sc = 1%cr) ->
  exists m', fftm_in_place ssz R exec be [rows; cols] ib ne1 sc [rows; cols] par b m = Some m' /\
    (forall h, h < k -> holds R m' (ixs [n]) (b_ptr b) (fun w => ats (b_stride b) (line axis (nth 0 w 0) h))
       (fun w => DFTs R t (if inv then 1 else -1)%Z [n] (fun i => X (line axis (nth 0%nat i 0%nat) h)) w * ofR R sc)%cr) /\
    changed R m m' (fun c => elements b c \/ storage ib (in_cells (be_planner be)) c).
Proof. exact C71_many_in_place_lemma. Qed.
Example C71_many_in_place_ex : outc [0; 1; 2; 3; 4; 5; 6; 7]%Z (with_be (fftm_create 8 32 C2C true 0 4 2 1) (fun be =>
    fftm_in_place 8 Zring ref be [4; 2] (Inter 8) true 2%Z [4; 2] None (Blk (Inter 0) [0; 1] [4; 2] [2; 1]%Z true) (zmem [] (data ++ fresh 24)))) =
  Some (map Some [(16, 0); (8, 10); (2, -6); (0, 6); (-12, 0); (-4, -2); (2, 6); (-4, -6)]%Z).
Proof. vm_compute. reflexivity. Qed.
Print Assumptions C71_many_in_place.

(** Arguments of the wrong sizes are refused. *)
Theorem C71_refused : forall (R : CRing) ssz AL (exec : plan -> ptr -> ptr -> st R -> option (st R)) k inv A dims number be ib ob ne1 sc bi bo m,
  1 <= length dims <= 3 -> A < length dims -> fft_create ssz AL k inv A dims number = Some be ->
  b_size bi <> match k with C2R => half_at A dims | _ => dims end \/ b_size bo <> match k with R2C => half_at A dims | _ => dims end ->
  fft_by_reference ssz R exec be A dims ib ob ne1 sc bi bo m = None /\
  (b_size bi <> dims -> fft_in_place ssz R exec be dims ib ne1 sc bi m = None).
Proof. exact C71_refused_lemma. Qed.
Example C71_refused_ex : with_be (fft_create 8 32 R2C false 1 [2; 4] 1) (fun be =>
    fft_by_reference 8 Zring ref be 1 [2; 4] (Real 8) (Inter 8) false 1%Z (cols24 (Real 0)) (rows24 (Inter 0)) (zmem (repeat 9 16)%Z (fresh 24))) = None.
Proof. vm_compute. reflexivity. Qed.
Print Assumptions C71_refused.

(** So are views that are distributed along the rows to transform, or differently. *)
Theorem C71_many_refused : forall (R : CRing) ssz AL (exec : plan -> ptr -> ptr -> st R -> option (st R)) k inv axis rows cols number be ib ob ne1 sc gi go bi bo m,
  axis < 2 -> fftm_create ssz AL k inv axis rows cols number = Some be ->
  (forall par, gi <> match k with C2R => half_at axis [rows; cols] | _ => [rows; cols] end \/ go <> match k with R2C => half_at axis [rows; cols] | _ => [rows; cols] end ->
     fftm_by_reference ssz R exec be axis [rows; cols] ib ob ne1 sc gi go par bi bo m = None) /\
  (forall si so di do, si <> 1 \/ so <> 1 \/ di <> do ->
     fftm_by_reference ssz R exec be axis [rows; cols] ib ob ne1 sc gi go (Some ((si, so), (di, do))) bi bo m = None) /\
  (forall par, gi <> [rows; cols] \/ (exists s, par = Some s /\ s <> 1) ->
     fftm_in_place ssz R exec be [rows; cols] ib ne1 sc gi par bi m = None).
Proof. exact C71_many_refused_lemma. Qed.
Example C71_many_refused_ex : with_be (fftm_create 8 32 C2C false 1 2 4 1) (fun be =>
    fftm_by_reference 8 Zring ref be 1 [2; 4] (Inter 16) (Inter 24) true 2%Z [2; 4] [2; 4] (Some ((2, 1), ([(0, 2); (0, 4)], [(0, 2); (0, 4)])))
      (cols24 (Inter 0)) (rows24 (Inter 8)) (zmem [] (data ++ fresh 24))) = None /\
  with_be (fftm_create 8 32 C2C false 1 2 4 1) (fun be =>
    fftm_by_reference 8 Zring ref be 1 [2; 4] (Inter 16) (Inter 24) true 2%Z [2; 4] [2; 4] (Some ((1, 1), ([(0, 2); (0, 4)], [(0, 2); (0, 4)])))
      (cols24 (Inter 0)) (rows24 (Inter 8)) (zmem [] (data ++ fresh 24))) <> None.
Proof. split; [vm_compute; reflexivity|vm_compute; discriminate]. Qed.
Print Assumptions C71_many_refused.

(** How much effort goes into planning follows from the number of uses
    announced; 0 means many. *)
Theorem C71_rigor : forall ssz AL k inv A dims number be,
  (0 <= number < 4294967296)%Z ->
  fft_create ssz AL k inv A dims number = Some be \/ fftm_create ssz AL k inv A (nth 0 dims 0) (nth 1 dims 0) number = Some be ->
  f_rigor (pl_flags (op_plan (be_planner be))) =
    if ((number =? 0) || (31 <? number))%Z then PATIENT else if (11 <? number)%Z then MEASURE else ESTIMATE.
Proof. exact C71_rigor_lemma. Qed.
Example C71_rigor_ex : map (fun number => option_map (fun be => f_rigor (pl_flags (op_plan (be_planner be)))) (fft_create 8 32 C2C false 0 [4] number)) [0; 1; 11; 12; 31; 32]%Z =
  map Some [PATIENT; ESTIMATE; ESTIMATE; MEASURE; MEASURE; PATIENT].
Proof. vm_compute. reflexivity. Qed.
Print Assumptions C71_rigor.

(** The lengths given to FFTW are ints.  A transform of 2^32 + 4 elements is
    planned, without an error, for 4 elements; the rest of the output keeps
    what it held (here 1, for an input of zeros). *)
Theorem C71_long_refuted : forall (t : trig Zring) va exec, config 8 32 va -> documented Zring t 8 va exec ->
  exists n be bi bo ib ob m m', Z.of_nat n = 4294967300%Z /\
    fft_create 8 32 C2C false 0 [n] 1 = Some be /\ sized bi [n] /\ sized bo [n] /\
    cpx_ptr (b_ptr bi) /\ cpx_ptr (b_ptr bo) /\ array_of_complex ib /\ array_of_complex ob /\
    memory Zring 8 m bi bo ib (in_cells (be_planner be)) ob (out_cells (be_planner be)) /\
    holds Zring m (ixs [n]) (b_ptr bi) (ats (b_stride bi)) (fun _ => 0%cr) /\
    fft_by_reference 8 Zring exec be 0 [n] ib ob false 1%cr bi bo m = Some m' /\
    get Zring m' (b_ptr bo) (ats (b_stride bo) [5]) = Some 1%cr /\ DFTs Zring t (-1) [n] (fun _ => 0%cr) [5] = 0%cr.
Proof. exact C71_long_refuted_lemma. Qed.
Print Assumptions C71_long_refuted.

(** Rows of a distributed matrix cannot be transformed from real to complex or
    back, although they are complete on one process: the domains of input and
    output are required to be equal, and for rows of 3 elements or more the
    half spectrum is shorter. *)
Theorem C71_distributed_real_refuted : forall (R : CRing) ssz AL (exec : plan -> ptr -> ptr -> st R -> option (st R)) k inv axis rows cols number kk be ib ob ne1 sc gi go si so di do bi bo m,
  axis < 2 -> k <> C2C -> fftm_create ssz AL k inv axis rows cols number = Some be ->
  let n := nth axis [rows; cols] 0 in 3 <= n ->
  map snd di = line axis (match k with C2R => n / 2 + 1 | _ => n end) kk ->
  map snd do = line axis (match k with R2C => n / 2 + 1 | _ => n end) kk ->
  fftm_by_reference ssz R exec be axis [rows; cols] ib ob ne1 sc gi go (Some ((si, so), (di, do))) bi bo m = None.
Proof. exact C71_distributed_real_refuted_lemma. Qed.
Example C71_distributed_real_refuted_ex : with_be (fftm_create 8 32 R2C false 1 2 4 1) (fun be =>
    fftm_by_reference 8 Zring ref be 1 [2; 4] (Real 8) (Inter 6) true 2%Z [2; 4] [2; 3] (Some ((1, 1), ([(0, 2); (0, 4)], [(0, 2); (0, 3)])))
      (cols24 (Real 0)) (rows23 (Inter 0)) (zmem (repeat 9 16)%Z (fresh 16))) = None.
Proof. vm_compute. reflexivity. Qed.
Print Assumptions C71_distributed_real_refuted.

(** The promise of FFTW's manual can be kept: a library that computes the sums keeps it. *)
Theorem C71_library : forall (R : CRing) (t : trig R) ssz va, documented R t ssz va (reference R t).
Proof. exact reference_documented. Qed.
Example C71_library_ex : outc [4; 5; 6; 7]%Z (reference Zring ztrig (Plan C2C [Dim 4 1 1] (-1) false (Flags ESTIMATE true true)) (Inter 0) (Inter 4)
    (zmem [] ([(1, 0); (2, 1); (0, 3); (4, 0)]%Z ++ fresh 4))) = Some (map Some [(7, 4); (2, -1); (-5, 2); (0, -5)]%Z).
Proof. vm_compute. reflexivity. Qed.
Print Assumptions C71_library.
