(** Lemmas about fast convolution. *)
From Coq Require Import ZArith List Bool Arith Lia Ring.
From Verif Require Import Base Dft DftProofs DftMulti DftInv Firbank FirbankProofs Fastconv.
Import ListNotations.
Local Open Scope nat_scope.

Section Fastconv.
Context {R : CRing} (t : trig R).
Notation C := (Cr R).
Add Ring Cc : (r_th (Cr R)).
Variables M N : nat.
Variable sc : R.
Hypothesis ex : exact R t N.
Hypothesis HN : 0 < N.
Hypothesis Hs : (nat_r R N * ofR R sc)%cr = (1%cr : C).
Notation state := (@state R).

(** One pulse. *)
Definition once (h x : nat -> C) (n : nat) : C := sum (fun k => (h k * x ((n + N - k) mod N))%cr) N.
Lemma line (h g x : nat -> C) (y : nat -> C) n : (forall w, w < N -> g w = DFT R t (-1) N h w) ->
  (forall w, w < N -> y w = (fft t N (-1) r1 x w * g w)%cr) -> n < N -> fft t N 1 sc y n = once h x n.
Proof.
  intros Hg Hy Hn. unfold fft. rewrite (DFT_ext t 1 N y (fun w => (DFT R t (-1) N x w * DFT R t (-1) N h w)%cr)).
  - rewrite convolution by assumption. unfold once. set (S := sum _ N). transitivity ((nat_r R N * ofR R sc) * S)%cr; [ring|]. rewrite Hs. ring.
  - intros w Hw. rewrite Hy, Hg by exact Hw. unfold fft. change (ofR R r1) with (1%cr : C). ring.
Qed.
(** What a body does to the data. *)
Definition does (hs : nat -> nat -> C) (body : state -> option state) : Prop :=
  forall s, exists s', body s = Some s' /\ forall p n, p < M -> n < N -> data s' p n = once (hs p) (data s p) n.
Lemma convolved_ext h l : forall (x y : nat -> C), (forall n, n < N -> x n = y n) -> forall n, n < N -> convolved N h l x n = convolved N h l y n.
Proof.
  induction l as [|l IH]; intros x y H n Hn; cbn [convolved]; [apply H; exact Hn|]. apply IH; [|exact Hn]. intros m Hm. apply (sum_ext (Cr R)). intros k Hk.
  rewrite H by (apply Nat.mod_upper_bound; lia). reflexivity.
Qed.
Lemma repeated_does hs body : does hs body -> forall loops s,
  exists s', repeated body loops s = Some s' /\ forall p n, p < M -> n < N -> data s' p n = convolved N (hs p) loops (data s p) n.
Proof.
  intros D loops. unfold repeated. generalize 0 at 1. induction loops as [|l IH]; intros i s; cbn [loop]; [exists s; split; reflexivity|].
  destruct (D s) as (s1 & E & H1). rewrite E. cbn [bind]. destruct (IH (i + 1) s1) as (s' & E' & H'). exists s'. split; [exact E'|]. intros p n Hp Hn.
  rewrite H' by assumption. cbn [convolved]. apply convolved_ext; [|exact Hn]. intros m Hm. apply H1; assumption.
Qed.
(** A loop over the rows of the data, each from its old value only. *)
Lemma row_loop (f : nat -> state -> option state) (Q : nat -> (nat -> C) -> (nat -> C) -> Prop) :
  (forall p s, p < M -> exists r v, f p s = Some (St (set_row (data s) p r) v) /\ Q p (data s p) r) ->
  forall s, exists s', loop f 0 M s = Some s' /\ forall p, p < M -> Q p (data s p) (data s' p).
Proof.
  intros H s.
  assert (G : forall m i s1, i + m = M -> (forall p, p < i -> Q p (data s p) (data s1 p)) -> (forall p, i <= p -> data s1 p = data s p) ->
    exists s', loop f i m s1 = Some s' /\ forall p, p < M -> Q p (data s p) (data s' p)).
  { induction m as [|m IH]; intros i s1 Hi H1 H2; cbn [loop]; [exists s1; split; [reflexivity|]; intros p Hp; apply H1; lia|].
    destruct (H i s1) as (r & v & E & HQ); [lia|]. rewrite E. cbn [bind]. apply IH; [lia| |]; cbn [data]; unfold set_row; intros p Hp; destruct (Nat.eqb_spec p i) as [Ep | Np].
    - subst p. rewrite H2 in HQ by lia. exact HQ.
    - apply H1. lia.
    - lia.
    - apply H2. lia. }
  apply (G M 0 s); [reflexivity | lia | reflexivity].
Qed.
Lemma on_rows_in f (old : nat -> nat -> C) p : p < M -> on_rows M f old p = f p.
Proof. intros H. unfold on_rows. rewrite (proj2 (Nat.ltb_lt p M) H). reflexivity. Qed.
Lemma set_row_same (d : nat -> nat -> C) p r : set_row d p r p = r.
Proof. unfold set_row. rewrite Nat.eqb_refl. reflexivity. Qed.

(** Particular replicas. *)
Lemma impulse l : forall x n, n < N -> convolved N (fun k => if k =? 0 then (1%cr : C) else 0%cr) l x n = x n.
Proof.
  induction l as [|l IH]; intros x n Hn; cbn [convolved]; [reflexivity|]. rewrite IH by exact Hn. rewrite (sum_one R _ N 0).
  - cbn [Nat.eqb]. rewrite Nat.sub_0_r. replace ((n + N) mod N) with n; [ring|]. rewrite <- (Nat.mul_1_l N) at 1. rewrite Nat.mod_add by lia. symmetry. apply Nat.mod_small. exact Hn.
  - exact HN.
  - intros i _ Hi. rewrite (proj2 (Nat.eqb_neq i 0) Hi). ring.
Qed.
Lemma silence l : forall x n, 0 < l -> n < N -> convolved N (fun _ => (0%cr : C)) l x n = 0%cr.
Proof.
  assert (Z : forall y : nat -> C, sum (fun k => (0 * y k)%cr) N = (0%cr : C)).
  { intros y. rewrite (sum_one R _ N 0 HN); [ring|]. intros i _ _. ring. }
  induction l as [|l IH]; intros x n Hl Hn; [lia|]. cbn [convolved]. destruct l as [|l]; [cbn [convolved]; apply Z|]. apply IH; [lia | exact Hn].
Qed.
Lemma zeros w : DFT R t (-1) N (fun _ => (0%cr : C)) w = 0%cr.
Proof. unfold DFT. rewrite (sum_one R _ N 0 HN); [ring|]. intros i _ _. ring. Qed.
Lemma round_trip x n : n < N -> fft t N 1 sc (fft t N (-1) r1 x) n = x n.
Proof.
  intros Hn. unfold fft. rewrite (DFT_ext t 1 N _ (DFT R t (-1) N x)).
  - change (-1)%Z with (- (1))%Z. rewrite DFT_inv; [|exact ex|left; reflexivity|exact Hn]. transitivity ((nat_r R N * ofR R sc) * x n)%cr; [ring|]. rewrite Hs. ring.
  - intros w Hw. change (ofR R r1) with (1%cr : C). ring.
Qed.
Lemma flat w : w < N -> DFT R t (-1) N (fun k => if k =? 0 then (1%cr : C) else 0%cr) w = 1%cr.
Proof.
  intros Hw. unfold DFT. rewrite (sum_one R _ N 0 HN).
  - cbn [Nat.eqb]. replace (-1 * Z.of_nat 0 * Z.of_nat w)%Z with 0%Z by lia. rewrite (ex_0 _ _ _ ex). ring.
  - intros i _ Hi. rewrite (proj2 (Nat.eqb_neq i 0) Hi). ring.
Qed.

Variables (h g : nat -> C).
Hypothesis Hg : forall w, w < N -> g w = DFT R t (-1) N h w.
Lemma phased_does : does (fun _ => h) (phased t M N sc g).
Proof.
  intros s. eexists. split; [reflexivity|]. intros p n Hp Hn. cbn [data tmp]. rewrite !on_rows_in by exact Hp. eapply line; [exact Hg | | exact Hn].
  intros w Hw. cbv beta. rewrite ?on_rows_in by exact Hp. ring.
Qed.
Lemma phased_in_place_does : does (fun _ => h) (phased_in_place t M N sc g).
Proof.
  intros s. eexists. split; [reflexivity|]. intros p n Hp Hn. cbn [data tmp]. rewrite !on_rows_in by exact Hp. eapply line; [exact Hg | | exact Hn].
  intros w Hw. cbv beta. rewrite ?on_rows_in by exact Hp. ring.
Qed.
Lemma one_line_matrix_does (hs gs : nat -> nat -> C) : (forall p w, p < M -> w < N -> gs p w = DFT R t (-1) N (hs p) w) -> does hs (one_line_matrix t M N sc gs).
Proof.
  intros Hgs s. eexists. split; [reflexivity|]. intros p n Hp Hn. cbn [data tmp]. rewrite on_rows_in by exact Hp. unfold fftm.
  eapply line; [intros w Hw; apply (Hgs p w Hp Hw) | | exact Hn]. intros w Hw. cbv beta. ring.
Qed.
Lemma one_line_does : does (fun _ => h) (one_line t M N sc g).
Proof. exact (one_line_matrix_does (fun _ => h) (fun _ => g) (fun _ w _ => Hg w)). Qed.
Lemma interleaved_does : does (fun _ => h) (interleaved t M N sc g).
Proof.
  intros s. destruct (row_loop (fun p s => let v := set_row (tmp s) 0 (fft t N (-1) r1 (data s p)) in
    let v := set_row v 0 (fun w => (v 0%nat w * g w)%cr) in Some (St (set_row (data s) p (fft t N 1 sc (v 0%nat))) v))
    (fun p old new => forall n, n < N -> new n = once h old n)) with (s := s) as (s' & E & H).
  - intros p s0 Hp. cbv zeta. eexists _, _. split; [reflexivity|]. intros n Hn. eapply line; [exact Hg | | exact Hn]. intros w Hw. rewrite !set_row_same. reflexivity.
  - exists s'. split; [exact E|]. intros p n Hp Hn. apply H; assumption.
Qed.
Lemma interleaved_in_tmp_does : does (fun _ => h) (interleaved_in_tmp t M N sc g).
Proof.
  intros s. unfold interleaved_in_tmp. match goal with |- exists s', loop ?f 0 M s = _ /\ _ => destruct (row_loop f (fun p old new => forall n, n < N -> new n = once h old n)) with (s := s) as (s' & E & H) end.
  - intros p s0 Hp. cbv zeta. eexists _, _. split; [reflexivity|]. intros n Hn. rewrite set_row_same. eapply line; [exact Hg | | exact Hn]. intros w Hw. rewrite !set_row_same. reflexivity.
  - exists s'. split; [exact E|]. intros p n Hp Hn. apply H; assumption.
Qed.
Lemma set_row_twice (d : nat -> nat -> C) p r r' : set_row (set_row d p r) p r' = fun i n => if i =? p then r' n else set_row d p r i n.
Proof. reflexivity. Qed.
Lemma row_loop' (f : nat -> state -> option state) (Q : nat -> (nat -> C) -> (nat -> C) -> Prop) :
  (forall p s, p < M -> exists s', f p s = Some s' /\ Q p (data s p) (data s' p) /\ forall q, q <> p -> data s' q = data s q) ->
  forall s, exists s', loop f 0 M s = Some s' /\ forall p, p < M -> Q p (data s p) (data s' p).
Proof.
  intros H s.
  assert (G : forall m i s1, i + m = M -> (forall p, p < i -> Q p (data s p) (data s1 p)) -> (forall p, i <= p -> data s1 p = data s p) ->
    exists s', loop f i m s1 = Some s' /\ forall p, p < M -> Q p (data s p) (data s' p)).
  { induction m as [|m IH]; intros i s1 Hi H1 H2; cbn [loop]; [exists s1; split; [reflexivity|]; intros p Hp; apply H1; lia|].
    destruct (H i s1) as (s2 & E & HQ & Hr); [lia|]. rewrite E. cbn [bind]. apply IH; [lia| |]; intros p Hp; destruct (Nat.eq_dec p i) as [Ep | Np].
    - subst p. rewrite H2 in HQ by lia. exact HQ.
    - rewrite Hr by exact Np. apply H1. lia.
    - lia.
    - rewrite Hr by exact Np. apply H2. lia. }
  apply (G M 0 s); [reflexivity | lia | reflexivity].
Qed.
Lemma interleaved_in_place_does : does (fun _ => h) (interleaved_in_place t M N sc g).
Proof.
  intros s. unfold interleaved_in_place. match goal with |- exists s', loop ?f 0 M s = _ /\ _ => destruct (row_loop' f (fun p old new => forall n, n < N -> new n = once h old n)) with (s := s) as (s' & E & H) end.
  - intros p s0 Hp. cbv zeta. eexists. split; [reflexivity|]. cbn [data]. split.
    + intros n Hn. rewrite set_row_same. eapply line; [exact Hg | | exact Hn]. intros w Hw. rewrite !set_row_same. reflexivity.
    + intros q Hq. unfold set_row. rewrite (proj2 (Nat.eqb_neq q p) Hq). reflexivity.
  - exists s'. split; [exact E|]. intros p n Hp Hn. apply H; assumption.
Qed.
Lemma plain_loop (F : (nat -> C) -> nat -> C) (d : nat -> nat -> C) :
  exists d', loop (fun p d => Some (set_row d p (F (d p)))) 0 M d = Some d' /\ forall p, p < M -> d' p = F (d p).
Proof.
  assert (G : forall m i d1, i + m = M -> (forall p, p < i -> d1 p = F (d p)) -> (forall p, i <= p -> d1 p = d p) ->
    exists d', loop (fun p d => Some (set_row d p (F (d p)))) i m d1 = Some d' /\ forall p, p < M -> d' p = F (d p)).
  { induction m as [|m IH]; intros i d1 Hi H1 H2; cbn [loop]; [exists d1; split; [reflexivity|]; intros p Hp; apply H1; lia|].
    cbn [bind]. apply IH; [lia| |]; intros p Hp; unfold set_row; destruct (Nat.eqb_spec p i) as [Ep | Np].
    - subst p. rewrite H2 by lia. reflexivity.
    - apply H1. lia.
    - lia.
    - apply H2. lia. }
  apply (G M 0 d); [reflexivity | lia | reflexivity].
Qed.
Lemma phased_rows_does : does (fun _ => h) (phased_rows t M N sc g).
Proof.
  intros s. unfold phased_rows. destruct (plain_loop (fft t N (-1) r1) (data s)) as (d1 & E1 & H1). rewrite E1. cbn [bind]. cbv zeta.
  destruct (plain_loop (fft t N 1 sc) (on_rows M (fun p w => (g w * d1 p w)%cr) d1)) as (d2 & E2 & H2). rewrite E2. cbn [bind].
  eexists. split; [reflexivity|]. cbn [data]. intros p n Hp Hn. rewrite H2 by exact Hp. rewrite on_rows_in by exact Hp. eapply line; [exact Hg | | exact Hn].
  intros w Hw. cbv beta. rewrite H1 by exact Hp. ring.
Qed.
Lemma phased_rows_tmp_does : does (fun _ => h) (phased_rows_tmp t M N sc g).
Proof.
  intros s. unfold phased_rows_tmp.
  match goal with |- exists s', (s0 <- loop ?f 0 M s ;; _) = _ /\ _ => destruct (row_loop f (fun p old new => new = fft t N (-1) r1 old)) with (s := s) as (s1 & E1 & H1) end.
  { intros p s0 Hp. cbv zeta. eexists _, _. split; [reflexivity|]. apply set_row_same. }
  rewrite E1. cbn [bind]. cbv zeta.
  match goal with |- exists s', loop ?f 0 M ?s2 = _ /\ _ => destruct (row_loop f (fun p old new => new = fft t N 1 sc old)) with (s := s2) as (s3 & E3 & H3) end.
  { intros p s0 Hp. cbv zeta. eexists _, _. split; [reflexivity|]. apply set_row_same. }
  exists s3. split; [exact E3|]. intros p n Hp Hn. rewrite H3 by exact Hp. cbn [data]. rewrite on_rows_in by exact Hp. eapply line; [exact Hg | | exact Hn].
  intros w Hw. cbv beta. rewrite H1 by exact Hp. ring.
Qed.
End Fastconv.
