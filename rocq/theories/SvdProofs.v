(** Proofs about the singular value decomposition. *)
From Coq Require Import ZArith List Lia Bool Arith.
From Verif Require Import Base Fir FirProofs Freqswap FreqswapProofs Conv ConvProofs Matvec MatvecProofs Solver SolverProofs Svd.
Import ListNotations.
Local Open Scope nat_scope.

Section P.
Context {K : CRing} (conj : K -> K).
Local Open Scope cr_scope.
Add Ring Kring : (r_th K).
Implicit Types m : mem K.
Notation buf := (list K).
Hypothesis CJ : conj_ok conj.
Let adjm := adj_mmul conj CJ.
Let SD := @sum_delta K conj (fun _ _ => None).
Let SDr := @sum_delta_r K conj (fun _ _ => None).

(** ** Unitary matrices *)
Lemma unit_mul n Q W : unitary conj n Q -> unitary conj n W -> unitary conj n (mmul n Q W).
Proof.
  intros [Q1 Q2] [W1 W2]. split; intros i j Hi Hj.
  - transitivity (mmul n (adj conj W) (mmul n (mmul n (adj conj Q) Q) W) i j).
    { rewrite (mmul_ext n _ (mmul n (adj conj W) (adj conj Q)) _ (mmul n Q W)) by (intros; try reflexivity; apply adjm).
      rewrite <- mmul_assoc. apply mmul_ext; [reflexivity|]. intros k Hk. apply mmul_assoc. }
    rewrite (mmul_ext n _ (adj conj W) _ W); [apply W1; assumption|reflexivity|].
    intros k Hk. rewrite (mmul_ext n _ delta _ W); [|intros l Hl; apply Q1; assumption|reflexivity]. exact (SD (fun l => W l j) n k Hk).
  - transitivity (mmul n Q (mmul n (mmul n W (adj conj W)) (adj conj Q)) i j).
    { rewrite (mmul_ext n _ (mmul n Q W) _ (mmul n (adj conj W) (adj conj Q))) by (intros; try reflexivity; apply adjm).
      rewrite <- mmul_assoc. apply mmul_ext; [reflexivity|]. intros k Hk. apply mmul_assoc. }
    rewrite (mmul_ext n _ Q _ (adj conj Q)); [apply Q2; assumption|reflexivity|].
    intros k Hk. rewrite (mmul_ext n _ delta _ (adj conj Q)); [|intros l Hl; apply W2; assumption|reflexivity]. exact (SD (fun l => adj conj Q l j) n k Hk).
Qed.

(** Qb in the first p rows and columns, the identity elsewhere. *)
Definition bd (p : nat) (Qb : nat -> nat -> K) : nat -> nat -> K := fun i j => if ((i <? p) && (j <? p))%nat then Qb i j else delta i j.
Lemma bd_in p Qb i j : (i < p)%nat -> (j < p)%nat -> bd p Qb i j = Qb i j.
Proof. intros A B. unfold bd. rewrite (proj2 (Nat.ltb_lt _ _) A), (proj2 (Nat.ltb_lt _ _) B). reflexivity. Qed.
Lemma bd_out p Qb i j : (p <= i \/ p <= j)%nat -> bd p Qb i j = delta i j.
Proof. intros A. unfold bd. destruct (Nat.ltb_spec i p), (Nat.ltb_spec j p); try reflexivity. lia. Qed.
Lemma delta_eq i : @delta K i i = 1.
Proof. unfold delta. rewrite Nat.eqb_refl. reflexivity. Qed.
Lemma delta_ne i j : i <> j -> @delta K i j = 0.
Proof. intros H. unfold delta. destruct (Nat.eqb_spec i j); [contradiction|reflexivity]. Qed.
Lemma delta_sym i j : @delta K i j = delta j i.
Proof. unfold delta. rewrite Nat.eqb_sym. reflexivity. Qed.
Lemma conj_delta i j : conj (delta i j) = delta i j.
Proof. unfold delta. destruct (i =? j)%nat; [apply conj_1; exact CJ|apply conj_0; exact CJ]. Qed.
Lemma adj_bd p Qb i j : adj conj (bd p Qb) i j = bd p (adj conj Qb) i j.
Proof.
  unfold adj. destruct (le_lt_dec p i) as [A|A]; [|destruct (le_lt_dec p j) as [B|B]].
  - rewrite !bd_out by lia. rewrite conj_delta. apply delta_sym.
  - rewrite !bd_out by lia. rewrite conj_delta. apply delta_sym.
  - rewrite !bd_in by assumption. reflexivity.
Qed.
Lemma bd_mul n p X Y i j : (p <= n)%nat -> (i < n)%nat -> (j < n)%nat -> mmul n (bd p X) (bd p Y) i j = bd p (mmul p X Y) i j.
Proof.
  intros Hp Hi Hj. unfold mmul at 1. destruct (le_lt_dec p i) as [A|A]; [|destruct (le_lt_dec p j) as [B|B]].
  - rewrite bd_out by lia. rewrite (sum_ext K _ (fun k => delta i k * bd p Y k j)) by (intros; rewrite bd_out by lia; reflexivity).
    rewrite (SD (fun k => bd p Y k j) n i Hi). apply bd_out. lia.
  - rewrite bd_out by lia. rewrite (sum_ext K _ (fun k => bd p X i k * delta k j)) by (intros; rewrite (bd_out p Y) by lia; reflexivity).
    rewrite (SDr (fun k => bd p X i k) n j Hj). apply bd_out. lia.
  - rewrite bd_in by assumption. rewrite (sum_trunc _ n p Hp).
    + apply sum_ext. intros k Hk. rewrite !bd_in by assumption. reflexivity.
    + intros k Hk. rewrite bd_out by lia. rewrite delta_ne by lia. ring.
Qed.
Lemma bd_unitary n p Qb : (p <= n)%nat -> unitary conj p Qb -> unitary conj n (bd p Qb).
Proof.
  intros Hp [A B]. split; intros i j Hi Hj.
  - rewrite (mmul_ext n _ (bd p (adj conj Qb)) _ (bd p Qb)) by (intros; try reflexivity; apply adj_bd). rewrite bd_mul by assumption.
    destruct (le_lt_dec p i) as [C|C]; [apply bd_out; lia|]. destruct (le_lt_dec p j) as [D|D]; [apply bd_out; lia|]. rewrite bd_in by assumption. apply A; assumption.
  - rewrite (mmul_ext n _ (bd p Qb) _ (bd p (adj conj Qb))) by (intros; try reflexivity; apply adj_bd). rewrite bd_mul by assumption.
    destruct (le_lt_dec p i) as [C|C]; [apply bd_out; lia|]. destruct (le_lt_dec p j) as [D|D]; [apply bd_out; lia|]. rewrite bd_in by assumption. apply B; assumption.
Qed.
(** The columns of Q bd(Qb). *)
Lemma mul_bd_in n p Q Qb i j : (p <= n)%nat -> (j < p)%nat -> mmul n Q (bd p Qb) i j = sum (fun k => Q i k * Qb k j) p.
Proof.
  intros Hp Hj. unfold mmul. rewrite (sum_trunc _ n p Hp).
  - apply sum_ext. intros k Hk. rewrite bd_in by assumption. reflexivity.
  - intros k Hk. rewrite bd_out by lia. rewrite delta_ne by lia. ring.
Qed.
Lemma mul_bd_out n p Q Qb i j : (p <= j)%nat -> (j < n)%nat -> mmul n Q (bd p Qb) i j = Q i j.
Proof.
  intros Hp Hj. unfold mmul. rewrite (sum_ext K _ (fun k => Q i k * delta k j)) by (intros; rewrite bd_out by lia; reflexivity).
  exact (SDr (fun k => Q i k) n j Hj).
Qed.

(** ** The product of the two steps *)
Lemma svd_formula M N p (A Q P Qb Pb B : nat -> nat -> K) (S : nat -> K) i j : (p <= M)%nat -> (p <= N)%nat ->
  A i j = sum (fun k => sum (fun l => Q i k * B k l * conj (P j l)) p) p ->
  (forall k l, (k < p)%nat -> (l < p)%nat -> B k l = sum (fun r => Qb k r * S r * conj (Pb l r)) p) ->
  A i j = sum (fun r => mmul M Q (bd p Qb) i r * S r * conj (mmul N P (bd p Pb) j r)) p.
Proof.
  intros HM HN E EB. rewrite E.
  rewrite (sum_ext K _ (fun k => sum (fun r => sum (fun l => Q i k * Qb k r * S r * (conj (P j l) * conj (Pb l r))) p) p)).
  2: { intros k Hk. rewrite sum_swap. apply sum_ext. intros l Hl. rewrite EB by assumption.
       rewrite <- (sum_mul_l K (Q i k)). rewrite <- sum_mul_r. apply sum_ext. intros r _. ring. }
  rewrite sum_swap. apply sum_ext. intros r Hr. rewrite !mul_bd_in by assumption.
  rewrite (conj_sum conj) by exact CJ. rewrite <- !sum_mul_r. apply sum_ext. intros k Hk. rewrite <- sum_mul_l. apply sum_ext. intros l Hl.
  rewrite (conj_mul _ CJ). ring.
Qed.

(** ** The object *)
Variable gebrd : nat -> nat -> buf -> nat -> option (buf * list K * list K * list K * list K).
Variable gbr : vect -> nat -> nat -> nat -> buf -> nat -> list K -> option buf.
Variable bdsqr : bool -> nat -> nat -> nat -> list K -> list K -> buf -> nat -> buf -> nat -> option (list K * buf * buf).
Variable sv : list K -> Prop.
Let upd_in := @update_in K conj (fun _ _ => None).

Definition shaped M N ust vst (s : svd (K:=K)) : Prop :=
  (1 <= M)%nat /\ (1 <= N)%nat /\ s_m s = M /\ s_n s = N /\ s_ust s = ust /\ s_vst s = vst /\
  length (s_q s) = (kept ust M M * kept ust M (Nat.min M N))%nat /\
  length (s_pt s) = (kept vst N (Nat.min M N) * kept vst N N)%nat.
Definition holds_uv M N ust vst (U V : nat -> nat -> K) (s : svd (K:=K)) : Prop :=
  (forall i j, (i < M)%nat -> (j < kept ust M (Nat.min M N))%nat -> elt (s_q s) M i j = U i j) /\
  (forall i j, (i < kept vst N (Nat.min M N))%nat -> (j < N)%nat -> elt (s_pt s) (kept vst N (Nat.min M N)) i j = conj (V j i)).

Lemma svd_new_ok M N ust vst : (1 <= M)%nat -> (1 <= N)%nat -> exists s, svd_new M N ust vst = Some s /\ shaped M N ust vst s.
Proof.
  intros HM HN. unfold svd_new. rewrite (proj2 (Nat.ltb_lt 0 M)), (proj2 (Nat.ltb_lt 0 N)) by lia. cbn [andb]. eexists. split; [reflexivity|].
  unfold shaped. cbn [s_m s_n s_ust s_vst s_q s_pt]. rewrite !repeat_length. repeat split; try assumption; destruct ust; destruct vst; reflexivity.
Qed.
Lemma sub_assign_ok (dst : buf) ldd M N (src : buf) lds : fits dst ldd M N = true -> fits src lds M N = true -> (M <= ldd)%nat ->
  exists l, sub_assign dst ldd M N src lds = Some l /\ length l = length dst /\ forall i j, (i < M)%nat -> (j < N)%nat -> elt l ldd i j = elt src lds i j.
Proof.
  intros F1 F2 H. unfold sub_assign. rewrite F1, F2. eexists. split; [reflexivity|]. split; [apply update_length|].
  intros i j Hi Hj. rewrite upd_in; [reflexivity| | | |]; assumption.
Qed.
Lemma make_q_ok M N ust vst s data tauq (Q : nat -> nat -> K) : shaped M N ust vst s -> length data = (M * N)%nat ->
  (forall c q, (Nat.min M N <= c <= M)%nat -> length q = (M * c)%nat -> (forall i j, (i < M)%nat -> (j < Nat.min M N)%nat -> elt q M i j = elt data M i j) ->
     exists q', gbr VQ M c N q M tauq = Some q' /\ length q' = (M * c)%nat /\ forall i j, (i < M)%nat -> (j < c)%nat -> elt q' M i j = Q i j) ->
  exists q, make_q gbr s data tauq = Some q /\ length q = (kept ust M M * kept ust M (Nat.min M N))%nat /\
    forall i j, (i < M)%nat -> (j < kept ust M (Nat.min M N))%nat -> elt q M i j = Q i j.
Proof.
  intros (HM & HN & E1 & E2 & E3 & E4 & L1 & L2) LD G. unfold make_q. rewrite E1, E2, E3. unfold s_p. rewrite E1, E2.
  destruct (saved ust) eqn:Sv.
  2: { destruct ust; try discriminate. exists (s_q s). split; [reflexivity|]. split; [exact L1|]. intros i j _ Hj. cbn in Hj. lia. }
  set (c := match ust with uvfull => M | _ => Nat.min M N end).
  assert (Ec : kept ust M (Nat.min M N) = c) by (destruct ust; [discriminate|reflexivity|reflexivity]).
  assert (Ek : kept ust M M = M) by (destruct ust; [discriminate|reflexivity|reflexivity]).
  assert (Hc : (Nat.min M N <= c <= M)%nat) by (unfold c; destruct ust; lia).
  rewrite Ec, Ek in *.
  assert (A : exists q, (if (N <=? M)%nat then sub_assign (s_q s) M M N data M else assert (c =? M)%nat ;; sub_assign (s_q s) M M M data M) = Some q /\
    length q = (M * c)%nat /\ forall i j, (i < M)%nat -> (j < Nat.min M N)%nat -> elt q M i j = elt data M i j).
  { destruct (Nat.leb_spec N M) as [Le|Gt].
    - destruct (sub_assign_ok (s_q s) M M N data M) as (q & Eq & Lq & Hq); [apply (fits_sub _ M M c M N); [lia|lia|apply fits_mat; exact L1]|apply fits_mat; exact LD|lia|].
      exists q. split; [exact Eq|]. split; [congruence|]. intros i j Hi Hj. apply Hq; lia.
    - assert (c = M) by (unfold c; destruct ust; lia). rewrite (proj2 (Nat.eqb_eq c M)) by assumption.
      destruct (sub_assign_ok (s_q s) M M M data M) as (q & Eq & Lq & Hq); [apply (fits_sub _ M M c M M); [lia|lia|apply fits_mat; exact L1]|apply (fits_sub _ M M N M M); [lia|lia|apply fits_mat; exact LD]|lia|].
      exists q. split; [exact Eq|]. split; [congruence|]. intros i j Hi Hj. apply Hq; lia. }
  destruct A as (q & -> & Lq & Hq). cbn [bind]. exact (G c q Hc Lq Hq).
Qed.
Lemma make_pt_ok M N ust vst s data taup (P : nat -> nat -> K) : shaped M N ust vst s -> length data = (M * N)%nat ->
  (forall r pt, (Nat.min M N <= r <= N)%nat -> length pt = (r * N)%nat -> (forall i j, (i < Nat.min M N)%nat -> (j < N)%nat -> elt pt r i j = elt data M i j) ->
     exists pt', gbr VP r N M pt r taup = Some pt' /\ length pt' = (r * N)%nat /\ forall i j, (i < r)%nat -> (j < N)%nat -> elt pt' r i j = conj (P j i)) ->
  exists pt, make_pt gbr s data taup = Some pt /\ length pt = (kept vst N (Nat.min M N) * kept vst N N)%nat /\
    forall i j, (i < kept vst N (Nat.min M N))%nat -> (j < N)%nat -> elt pt (kept vst N (Nat.min M N)) i j = conj (P j i).
Proof.
  intros (HM & HN & E1 & E2 & E3 & E4 & L1 & L2) LD G. unfold make_pt. rewrite E1, E2, E4. unfold s_p. rewrite E1, E2.
  destruct (saved vst) eqn:Sv.
  2: { destruct vst; try discriminate. exists (s_pt s). split; [reflexivity|]. split; [exact L2|]. intros i j Hi. cbn in Hi. lia. }
  set (r := match vst with uvfull => N | _ => Nat.min M N end).
  assert (Ec : kept vst N (Nat.min M N) = r) by (destruct vst; [discriminate|reflexivity|reflexivity]).
  assert (Ek : kept vst N N = N) by (destruct vst; [discriminate|reflexivity|reflexivity]).
  assert (Hr : (Nat.min M N <= r <= N)%nat) by (unfold r; destruct vst; lia).
  rewrite Ec, Ek in *.
  assert (A : exists pt, (if (N <=? M)%nat then assert (r =? N)%nat ;; sub_assign (s_pt s) r N N data M else sub_assign (s_pt s) r M N data M) = Some pt /\
    length pt = (r * N)%nat /\ forall i j, (i < Nat.min M N)%nat -> (j < N)%nat -> elt pt r i j = elt data M i j).
  { destruct (Nat.leb_spec N M) as [Le|Gt].
    - assert (Er : r = N) by (unfold r; destruct vst; lia). rewrite (proj2 (Nat.eqb_eq r N)) by assumption.
      destruct (sub_assign_ok (s_pt s) r N N data M) as (q & Eq & Lq & Hq); [rewrite Er in *; apply fits_mat; exact L2|apply (fits_sub _ M M N N N); [lia|lia|apply fits_mat; exact LD]|lia|].
      exists q. split; [exact Eq|]. split; [congruence|]. intros i j Hi Hj. apply Hq; lia.
    - destruct (sub_assign_ok (s_pt s) r M N data M) as (q & Eq & Lq & Hq); [apply (fits_sub _ r r N M N); [lia|lia|apply fits_mat; exact L2]|apply fits_mat; exact LD|lia|].
      exists q. split; [exact Eq|]. split; [congruence|]. intros i j Hi Hj. apply Hq; lia. }
  destruct A as (q & -> & Lq & Hq). cbn [bind]. exact (G r q Hr Lq Hq).
Qed.

Lemma svd_decompose_ok M N ust vst s a dest A m : shaped M N ust vst s -> rows a = M -> cols a = N -> len dest = Nat.min M N ->
  holds2 m a A -> wf1 m dest -> gebrd_for conj gebrd gbr bdsqr sv M N A ->
  exists s' m' U V S, svd_decompose gebrd gbr bdsqr s a dest m = Some (s', m') /\ shaped M N ust vst s' /\ holds_uv M N ust vst U V s' /\
    only1 dest m m' /\ holds1 m' dest (fun r => nth r S 0) /\ sv S /\ length S = Nat.min M N /\ unitary conj M U /\ unitary conj N V /\
    forall i j, (i < M)%nat -> (j < N)%nat -> A i j = sum (fun r => U i r * nth r S 0 * conj (V j r)) (Nat.min M N).
Proof.
  intros SH Ra Ca Ld HA W G. pose proof SH as (HM & HN & E1 & E2 & E3 & E4 & L1 & L2).
  destruct (copy_in_ok M N a A m (eq_sym Ra) (eq_sym Ca) HA) as (data & Ed & Ll & El).
  destruct (G data (Logic.conj Ll El)) as (a' & d & e & tauq & taup & Q & P & Eg & La & UQ & UP & EA & BD & GQ & GP).
  destruct (make_q_ok M N ust vst s a' tauq Q SH La GQ) as (q & Eq & Lq & Hq).
  destruct (make_pt_ok M N ust vst s a' taup P SH La GP) as (pt & Ept & Lpt & Hpt).
  destruct BD as (Qb & Pb & S & UQb & UPb & SV & LS & EB & BDS).
  set (p := Nat.min M N) in *.
  set (nru := if saved ust then M else 0%nat). set (qld := if saved ust then M else 1%nat).
  set (ncvt := if saved vst then N else 0%nat). set (ptld := match vst with uvnos => 1%nat | uvpart => p | uvfull => N end).
  assert (Hp : (1 <= p)%nat) by (unfold p; lia).
  assert (BE := BDS ncvt nru pt ptld q qld).
  assert (Fv : fits pt ptld p ncvt = true).
  { unfold ptld, ncvt. destruct vst; cbn [saved kept] in *; [destruct p; [lia|reflexivity]|apply fits_mat; exact Lpt|apply (fits_sub _ N N N p N); [unfold p; lia|lia|apply fits_mat; exact Lpt]]. }
  assert (Fq : fits q qld nru p = true).
  { unfold qld, nru. destruct ust; cbn [saved kept] in *; [reflexivity|apply fits_mat; exact Lq|apply (fits_sub _ M M M M p); [lia|unfold p; lia|apply fits_mat; exact Lq]]. }
  specialize (BE ltac:(unfold ptld; destruct vst; lia) ltac:(unfold ncvt, ptld; destruct vst; cbn [saved]; lia) ltac:(unfold qld; destruct ust; cbn [saved]; lia) ltac:(unfold qld, nru; destruct ust; cbn [saved]; lia) Fv Fq).
  match type of BE with _ = Some (_, ?v, ?u) => set (vt' := v) in BE; set (u' := u) in BE end.
  destruct (writes1 dest p (fun r => nth r S 0) (fun i m => x <- bget S i ;; put1 m dest i x) m W ltac:(lia)) as (m' & Em & O & Hm).
  { intros i m1 Hi _. unfold bget. rewrite (nth_error_nth' S 0) by (rewrite LS; exact Hi). reflexivity. }
  exists {| s_m := M; s_n := N; s_ust := ust; s_vst := vst; s_q := u'; s_pt := vt' |}, m', (mmul M Q (bd p Qb)), (mmul N P (bd p Pb)), S.
  split; [|split; [|split; [|split; [|split; [|split; [|split; [|split; [|split]]]]]]]].
  - unfold svd_decompose. unfold s_p. rewrite E1, E2, E3, E4, Ra, Ca, Ld. fold p. rewrite !Nat.eqb_refl. cbn [andb]. rewrite Ed. cbn [bind]. rewrite Eg. cbn [bind].
    rewrite Eq. cbn [bind]. rewrite Ept. cbn [bind]. fold nru qld ncvt ptld. rewrite BE. cbn [bind]. rewrite Em. reflexivity.
  - unfold shaped. cbn [s_m s_n s_ust s_vst s_q s_pt]. fold p. unfold u', vt'. rewrite !update_length. repeat split; assumption.
  - unfold holds_uv. cbn [s_q s_pt]. fold p. split; intros i j Hi Hj.
    + assert (Sv : saved ust = true) by (destruct ust; [cbn in Hj; lia|reflexivity|reflexivity]).
      assert (Ek : kept ust M M = M) by (destruct ust; [discriminate|reflexivity|reflexivity]). rewrite Ek in Lq.
      assert (Kp : (p <= kept ust M p <= M)%nat) by (unfold p; destruct ust; cbn [kept]; [discriminate|lia|lia]).
      unfold u', nru, qld. rewrite Sv. rewrite update_elt; [|exact Hi|rewrite Lq; nia]. rewrite (proj2 (Nat.ltb_lt i M) Hi). cbn [andb].
      destruct (Nat.ltb_spec j p) as [A1|A1].
      * rewrite mul_bd_in by (unfold p in *; lia). apply sum_ext. intros k Hk. rewrite Hq by lia. reflexivity.
      * rewrite mul_bd_out by lia. apply Hq; assumption.
    + assert (Sv : saved vst = true) by (destruct vst; [cbn in Hi; lia|reflexivity|reflexivity]).
      assert (Ek : kept vst N N = N) by (destruct vst; [discriminate|reflexivity|reflexivity]). rewrite Ek in Lpt.
      assert (Kp : (p <= kept vst N p <= N)%nat) by (unfold p; destruct vst; cbn [kept]; [discriminate|lia|lia]).
      assert (El2 : ptld = kept vst N p) by (unfold ptld; destruct vst; [discriminate|reflexivity|reflexivity]).
      unfold vt', ncvt. rewrite Sv, El2. rewrite update_elt; [|exact Hi|rewrite Lpt; nia]. rewrite (proj2 (Nat.ltb_lt j N) Hj), andb_true_r.
      destruct (Nat.ltb_spec i p) as [A1|A1].
      * rewrite mul_bd_in by (unfold p in *; lia). rewrite (conj_sum conj) by exact CJ. apply sum_ext. intros k Hk. rewrite Hpt by lia. rewrite (conj_mul _ CJ). ring.
      * rewrite mul_bd_out by lia. apply Hpt; assumption.
  - apply only1_off; exact O.
  - intros n Hn. rewrite Hm by exact Hn. rewrite (proj2 (Nat.ltb_lt n p)) by lia. reflexivity.
  - exact SV.
  - exact LS.
  - apply unit_mul; [exact UQ|]. apply bd_unitary; [unfold p; lia|exact UQb].
  - apply unit_mul; [exact UP|]. apply bd_unitary; [unfold p; lia|exact UPb].
  - intros i j Hi Hj. apply (svd_formula M N p A Q P Qb Pb (bidiag (N <=? M)%nat d e)); [unfold p; lia|unfold p; lia|apply EA; assumption|exact EB].
Qed.

(** ** Products *)
Lemma r2_bufarg out m l ld M N (f : nat -> nat -> K) : (forall i j, (i < M)%nat -> (j < N)%nat -> (i + j * ld < length l)%nat /\ elt l ld i j = f i j) -> r2 out m (bufarg l ld M N) f.
Proof.
  intros H m1 i j Hi Hj _. cbn in *. destruct (H i j Hi Hj) as [A B]. unfold bget. rewrite (nth_error_nth' l 0) by exact A. unfold elt in B. rewrite B. reflexivity.
Qed.
Lemma r2_conj out m a (f : nat -> nat -> K) : r2 out m a f -> r2 out m (conj2 conj a) (fun i j => conj (f i j)).
Proof. intros R m1 i j Hi Hj O. cbn in *. rewrite (R m1 i j Hi Hj O). reflexivity. Qed.
Lemma r2_ext out m a (f g : nat -> nat -> K) : (forall i j, (i < arows a)%nat -> (j < acols a)%nat -> f i j = g i j) -> r2 out m a f -> r2 out m a g.
Proof. intros E R m1 i j Hi Hj O. rewrite (R m1 i j Hi Hj O), E by assumption. reflexivity. Qed.
Lemma r2_q M N ust vst U V s out m : shaped M N ust vst s -> holds_uv M N ust vst U V s -> r2 out m (q_arg s) U.
Proof.
  intros (HM & HN & E1 & E2 & E3 & E4 & L1 & L2) [HU _]. unfold q_arg, s_p. rewrite E1, E2, E3. apply r2_bufarg. intros i j Hi Hj.
  assert (Ek : (kept ust M M <= M)%nat) by (destruct ust; cbn; lia). change (i < kept ust M M)%nat in Hi. change (j < kept ust M (Nat.min M N))%nat in Hj.
  split; [|apply HU; lia]. rewrite L1. assert (kept ust M M = M) by (destruct ust; cbn in *; lia). nia.
Qed.
Lemma r2_v cplx M N ust vst U V s out m : (cplx = false -> forall u, conj u = u) -> shaped M N ust vst s -> holds_uv M N ust vst U V s -> r2 out m (trans_or_herm conj cplx (pt_arg s)) V.
Proof.
  intros RC (HM & HN & E1 & E2 & E3 & E4 & L1 & L2) [_ HV].
  assert (R : r2 out m (pt_arg s) (fun i j => conj (V j i))).
  { unfold pt_arg, s_p. rewrite E1, E2, E4. apply r2_bufarg. intros i j Hi Hj. change (i < kept vst N (Nat.min M N))%nat in Hi. change (j < kept vst N N)%nat in Hj.
    assert (Ek : kept vst N N = N) by (destruct vst; cbn in *; lia). rewrite Ek in *. change (select_dim vst N (Nat.min M N)) with (kept vst N (Nat.min M N)).
    split; [rewrite L2; nia|apply HV; assumption]. }
  apply r2_trans in R. unfold trans_or_herm. destruct cplx.
  - apply r2_conj in R. revert R. apply r2_ext. intros i j _ _. apply (conj_inv _ CJ).
  - revert R. apply r2_ext. intros i j _ _. apply (RC eq_refl).
Qed.
Lemma prod_uv_ok cplx tr (lside : bool) (uv : arg2) b x (X B : nat -> nat -> K) m :
  op_of_type cplx tr -> r2 x m uv X -> holds2 m b B -> wf2 m x -> disjoint2 x b ->
  (if lside then rows b = (if transposes tr then arows uv else acols uv) /\ rows x = (if transposes tr then acols uv else arows uv) /\ cols x = cols b
   else cols b = (if transposes tr then acols uv else arows uv) /\ cols x = (if transposes tr then arows uv else acols uv) /\ rows x = rows b) ->
  exists m', prod_uv conj cplx tr lside uv b x m = Some m' /\ only2 x m m' /\
    holds2 m' x (fun i j => if lside then sum (fun k => op_elem conj tr X i k * B k j) (rows b) else sum (fun k => B i k * op_elem conj tr X k j) (cols b)).
Proof.
  intros OT R HB W D SZ. pose proof (r2_plain x m b B D HB) as RB.
  assert (RT : r2 x m (if cplx then conj2 conj (trans2 uv) else trans2 uv) (fun i j => if cplx then conj (X j i) else X j i)).
  { apply r2_trans in R. destruct cplx; [apply r2_conj; exact R|exact R]. }
  destruct OT as [->| ->].
  - unfold prod_uv, prod_args. destruct lside; destruct SZ as (S1 & S2 & S3).
    + destruct (prod_mm_ok conj false x uv (plain2 b) X B m W S2 S3 (eq_sym S1) R RB) as (m' & E & O & H).
      exists m'. rewrite S1, S2, S3, !Nat.eqb_refl. cbn [arows acols plain2]. rewrite S1, Nat.eqb_refl. split; [exact E|]. split; [exact O|]. exact H.
    + destruct (prod_mm_ok conj false x (plain2 b) uv B X m W S3 S2 S1 RB R) as (m' & E & O & H).
      exists m'. rewrite S1, S2, S3, !Nat.eqb_refl. cbn [arows acols plain2]. rewrite S1, Nat.eqb_refl. split; [exact E|]. split; [exact O|]. cbn in H. rewrite S1 in H. exact H.
  - set (t := if cplx then conj2 conj (trans2 uv) else trans2 uv) in *.
    assert (At : arows t = acols uv) by (unfold t; destruct cplx; reflexivity). assert (Ct : acols t = arows uv) by (unfold t; destruct cplx; reflexivity).
    assert (TT : transposes (if cplx then mat_herm else mat_trans) = true) by (destruct cplx; reflexivity). rewrite TT in SZ.
    assert (OE : forall i j, op_elem conj (if cplx then mat_herm else mat_trans) X i j = (if cplx then conj (X j i) else X j i)) by (intros; destruct cplx; reflexivity).
    assert (PE : prod_uv conj cplx (if cplx then mat_herm else mat_trans) lside uv b x m =
      (if lside then assert (rows b =? arows uv)%nat ;; assert (rows x =? acols uv)%nat ;; assert (cols b =? cols x)%nat ;; assert (acols t =? @arows K (plain2 b))%nat ;; assign_prod conj false x t (plain2 b) m
         else assert (cols b =? acols uv)%nat ;; assert (cols x =? arows uv)%nat ;; assert (rows b =? rows x)%nat ;; assert (@acols K (plain2 b) =? arows t)%nat ;; assign_prod conj false x (plain2 b) t m)) by (unfold t; destruct cplx; reflexivity).
    rewrite PE.
    destruct lside; destruct SZ as (S1 & S2 & S3).
    + destruct (prod_mm_ok conj false x t (plain2 b) _ B m W ltac:(congruence) S3 ltac:(cbn; congruence) RT RB) as (m' & E & O & H).
      exists m'. rewrite S1, S2, S3, !Nat.eqb_refl. cbn [arows acols plain2]. rewrite Ct, S1, Nat.eqb_refl. split; [exact E|]. split; [exact O|].
      intros i j Hi Hj. rewrite (H i j Hi Hj). f_equal. rewrite Ct. apply sum_ext. intros k Hk. rewrite OE. reflexivity.
    + destruct (prod_mm_ok conj false x (plain2 b) t B _ m W S3 ltac:(congruence) ltac:(cbn; congruence) RB RT) as (m' & E & O & H).
      exists m'. rewrite S1, S2, S3, !Nat.eqb_refl. cbn [arows acols plain2]. rewrite At, S1, Nat.eqb_refl. split; [exact E|]. split; [exact O|].
      intros i j Hi Hj. rewrite (H i j Hi Hj). f_equal. cbn [acols plain2]. rewrite S1. apply sum_ext. intros k Hk. rewrite OE. reflexivity.
Qed.
(** x = a. *)
Lemma assign_arg_ok x a (f : nat -> nat -> K) m : wf2 m x -> rows x = arows a -> cols x = acols a -> r2 x m a f ->
  exists m', assign_arg x a m = Some m' /\ only2 x m m' /\ holds2 m' x f.
Proof.
  intros W Er Ec R. unfold assign_arg. rewrite Er, Ec, !Nat.eqb_refl. rewrite <- Er, <- Ec.
  destruct (nest_up conj x m f (fun i j m => y <- aget2 a m i j ;; put2 m x i j y) W) as (m' & E & O & H).
  - intros i j m1 Hi Hj O1 _. cbv beta. rewrite (R m1 i j) by (congruence || assumption). reflexivity.
  - exists m'. split; [exact E|]. split; [apply only2_off; exact O|exact H].
Qed.
Lemma svd_u_ok M N ust vst U V s low high u m : shaped M N ust vst s -> holds_uv M N ust vst U V s ->
  (low <= high)%nat -> (high < kept ust M (Nat.min M N))%nat -> rows u = M -> cols u = (high + 1 - low)%nat -> wf2 m u ->
  exists m', svd_u s low high u m = Some m' /\ only2 u m m' /\ holds2 m' u (fun i j => U i (low + j)%nat).
Proof.
  intros SH HUV HL HH Hr Hc W. pose proof (r2_q M N ust vst U V s u m SH HUV) as R. pose proof SH as (HM & HN & E1 & E2 & E3 & E4 & L1 & L2).
  assert (Sv : kept ust M M = M) by (destruct ust; cbn in *; lia).
  destruct (assign_arg_ok u (col_range (q_arg s) low (high + 1 - low)) (fun i j => U i (low + j)%nat) m W) as (m' & E & O & H).
  - cbn. rewrite Hr, E3, E1. symmetry. exact Sv.
  - exact Hc.
  - intros m1 i j Hi Hj O1. cbn in Hi, Hj |- *. apply (R m1 i (low + j)%nat); [exact Hi| |exact O1]. cbn. unfold s_p. rewrite E1, E2, E3. change (low + j < kept ust M (Nat.min M N))%nat. lia.
  - exists m'. split; [|split; assumption]. unfold svd_u, s_p. rewrite E1, E2, E3, Hr, Hc, !Nat.eqb_refl.
    replace (match ust with uvpart => (high <? Nat.min M N)%nat | uvfull => (high <? M)%nat | uvnos => false end) with true; [exact E|].
    destruct ust; cbn in HH; symmetry; [lia|apply Nat.ltb_lt; exact HH|apply Nat.ltb_lt; exact HH].
Qed.
Lemma svd_v_ok cplx M N ust vst U V s low high v m : (cplx = false -> forall u, conj u = u) -> shaped M N ust vst s -> holds_uv M N ust vst U V s ->
  (low <= high)%nat -> (high < kept vst N (Nat.min M N))%nat -> rows v = N -> cols v = (high + 1 - low)%nat -> wf2 m v ->
  exists m', svd_v conj cplx s low high v m = Some m' /\ only2 v m m' /\ holds2 m' v (fun i j => V i (low + j)%nat).
Proof.
  intros RC SH HUV HL HH Hr Hc W. pose proof (r2_v cplx M N ust vst U V s v m RC SH HUV) as R. pose proof SH as (HM & HN & E1 & E2 & E3 & E4 & L1 & L2).
  assert (Sv : kept vst N N = N) by (destruct vst; cbn in *; lia).
  destruct (assign_arg_ok v (trans_or_herm conj cplx (row_range (pt_arg s) low (high + 1 - low))) (fun i j => V i (low + j)%nat) m W) as (m' & E & O & H).
  - rewrite Hr. unfold trans_or_herm, pt_arg, s_p. rewrite E1, E2, E4. destruct cplx; cbn; symmetry; exact Sv.
  - rewrite Hc. destruct cplx; reflexivity.
  - intros m1 i j Hi Hj O1. specialize (R m1 i (low + j)%nat). unfold trans_or_herm, pt_arg, s_p in *. rewrite E1, E2, E4 in *.
    destruct cplx; cbn in Hi, Hj, R |- *; apply R; try exact Hi; try exact O1; change (low + j < kept vst N (Nat.min M N))%nat; lia.
  - exists m'. split; [|split; assumption]. unfold svd_v, s_p. rewrite E1, E2, E4, Hr, Hc, !Nat.eqb_refl.
    replace (match vst with uvpart => (high <? Nat.min M N)%nat | uvfull => (high <? N)%nat | uvnos => false end) with true; [exact E|].
    destruct vst; cbn in HH; symmetry; [lia|apply Nat.ltb_lt; exact HH|apply Nat.ltb_lt; exact HH].
Qed.
Lemma q_arg_shape M N ust vst s : shaped M N ust vst s -> ust <> uvnos -> arows (q_arg s) = M /\ acols (q_arg s) = kept ust M (Nat.min M N).
Proof. intros (HM & HN & E1 & E2 & E3 & E4 & L1 & L2) H. unfold q_arg, s_p. rewrite E1, E2, E3. destruct ust; [contradiction| |]; split; reflexivity. Qed.
Lemma v_arg_shape cplx M N ust vst s : shaped M N ust vst s -> vst <> uvnos ->
  arows (trans_or_herm conj cplx (pt_arg s)) = N /\ acols (trans_or_herm conj cplx (pt_arg s)) = kept vst N (Nat.min M N).
Proof. intros (HM & HN & E1 & E2 & E3 & E4 & L1 & L2) H. unfold trans_or_herm, pt_arg, s_p. rewrite E1, E2, E4. destruct cplx; (destruct vst; [contradiction| |]; split; reflexivity). Qed.

Lemma svd_obj_shaped M N ust vst s : svd_obj conj gebrd gbr bdsqr sv M N ust vst s -> shaped M N ust vst s.
Proof.
  induction 1 as [s E|s s' a dest A m m' Ho IH Ra Ca Ld HA W G E].
  - assert (H : (1 <= M)%nat /\ (1 <= N)%nat). { unfold svd_new in E. destruct (Nat.ltb_spec 0 M), (Nat.ltb_spec 0 N); cbn in E; try discriminate; lia. }
    destruct (svd_new_ok M N ust vst) as (s1 & E1 & S1); [lia|lia|]. congruence.
  - destruct (svd_decompose_ok M N ust vst s a dest A m IH Ra Ca Ld HA W G) as (s1 & m1 & U & V & S & E1 & SH & _). congruence.
Qed.
Lemma prod_uv_shape cplx tr lside (uv : arg2) b x (X B : nat -> nat -> K) m : op_of_type cplx tr -> r2 x m uv X -> holds2 m b B -> wf2 m x -> disjoint2 x b ->
  prod_shape tr lside (arows uv) (acols uv) b x ->
  exists m', prod_uv conj cplx tr lside uv b x m = Some m' /\ only2 x m m' /\ holds2 m' x (prod_elem conj tr lside (arows uv) (acols uv) X B).
Proof.
  intros OT R HB W D SZ.
  destruct (prod_uv_ok cplx tr lside uv b x X B m OT R HB W D) as (m' & E & O & H).
  - destruct OT as [->| ->]; [|destruct cplx]; destruct lside; cbn in *; intuition congruence.
  - exists m'. split; [exact E|]. split; [exact O|]. intros i j Hi Hj. rewrite (H i j Hi Hj). f_equal.
    unfold prod_shape, prod_elem in *. destruct (op_shape tr (arows uv) (acols uv)) as [h w]. destruct lside; destruct SZ as (S1 & _); rewrite S1; reflexivity.
Qed.
Lemma produ_ok cplx M N ust vst U V s tr lside b x (B : nat -> nat -> K) m : shaped M N ust vst s -> holds_uv M N ust vst U V s -> ust <> uvnos ->
  op_of_type cplx tr -> holds2 m b B -> wf2 m x -> disjoint2 x b -> prod_shape tr lside M (kept ust M (Nat.min M N)) b x ->
  exists m', svd_produ conj cplx tr lside s b x m = Some m' /\ only2 x m m' /\ holds2 m' x (prod_elem conj tr lside M (kept ust M (Nat.min M N)) U B).
Proof.
  intros SH HUV NS OT HB W D SZ. destruct (q_arg_shape M N ust vst s SH NS) as [A1 A2]. 
  pose proof (prod_uv_shape cplx tr lside (q_arg s) b x U B m OT (r2_q M N ust vst U V s x m SH HUV) HB W D) as H. rewrite A1, A2 in H. exact (H SZ).
Qed.
Lemma prodv_ok cplx M N ust vst U V s tr lside b x (B : nat -> nat -> K) m : (cplx = false -> forall u, conj u = u) -> shaped M N ust vst s -> holds_uv M N ust vst U V s -> vst <> uvnos ->
  op_of_type cplx tr -> holds2 m b B -> wf2 m x -> disjoint2 x b -> prod_shape tr lside N (kept vst N (Nat.min M N)) b x ->
  exists m', svd_prodv conj cplx tr lside s b x m = Some m' /\ only2 x m m' /\ holds2 m' x (prod_elem conj tr lside N (kept vst N (Nat.min M N)) V B).
Proof.
  intros RC SH HUV NS OT HB W D SZ. destruct (v_arg_shape cplx M N ust vst s SH NS) as [A1 A2].
  pose proof (prod_uv_shape cplx tr lside _ b x V B m OT (r2_v cplx M N ust vst U V s x m RC SH HUV) HB W D) as H. rewrite A1, A2 in H. exact (H SZ).
Qed.
(** The matrix made by the by-value functions has the size of the product. *)
Lemma sizes_ok cplx M N ust vst s tr lside (b x : block2) : shaped M N ust vst s -> op_of_type cplx tr ->
  (ust <> uvnos -> prod_shape tr lside M (kept ust M (Nat.min M N)) b x -> produ_size s tr lside b = (rows x, cols x)) /\
  (vst <> uvnos -> prod_shape tr lside N (kept vst N (Nat.min M N)) b x -> prodv_size s tr lside b = (rows x, cols x)).
Proof.
  intros (HM & HN & E1 & E2 & E3 & E4 & L1 & L2) OT.
  split; intros NS SZ; unfold produ_size, prodv_size, s_p; rewrite E1, E2; [rewrite E3; destruct ust; [contradiction| |]|rewrite E4; destruct vst; [contradiction| |]];
    destruct OT as [->| ->]; try destruct cplx; destruct lside; cbn in SZ |- *; destruct SZ as (S1 & S2 & S3); rewrite S2, S3; reflexivity.
Qed.

(** ** Refused requests *)
Lemma prod_uv_refused cplx tr lside (uv : arg2) b x m : op_of_type cplx tr -> ~ prod_shape tr lside (arows uv) (acols uv) b x -> prod_uv conj cplx tr lside uv b x m = None.
Proof.
  intros OT NS. unfold prod_uv, prod_args, prod_shape in *.
  destruct OT as [->| ->]; [|destruct cplx]; destruct lside; cbn [op_shape negb] in *;
  repeat match goal with |- (if (?p =? ?q)%nat then _ else _) = None => destruct (Nat.eqb_spec p q); [|reflexivity] end;
  exfalso; apply NS; repeat split; congruence.
Qed.
Lemma svd_refused cplx M N ust vst s : shaped M N ust vst s ->
  (forall M N ust vst, M = 0%nat \/ N = 0%nat -> svd_new (K := K) M N ust vst = None) /\
  (forall (a : block2) (dest : block1) (m : mem K), rows a <> M \/ cols a <> N \/ len dest <> Nat.min M N -> svd_decompose gebrd gbr bdsqr s a dest m = None) /\
  (forall low high (x : block2) (m : mem K), (kept ust M (Nat.min M N) <= high)%nat \/ rows x <> M \/ cols x <> (high + 1 - low)%nat -> svd_u s low high x m = None) /\
  (forall low high (x : block2) (m : mem K), (kept vst N (Nat.min M N) <= high)%nat \/ rows x <> N \/ cols x <> (high + 1 - low)%nat -> svd_v conj cplx s low high x m = None) /\
  (forall tr (lside : bool) (b x : block2) (m : mem K), op_of_type cplx tr -> ust <> uvnos ->
     ~ prod_shape tr lside M (kept ust M (Nat.min M N)) b x -> svd_produ conj cplx tr lside s b x m = None) /\
  (forall tr (lside : bool) (b x : block2) (m : mem K), op_of_type cplx tr -> vst <> uvnos ->
     ~ prod_shape tr lside N (kept vst N (Nat.min M N)) b x -> svd_prodv conj cplx tr lside s b x m = None).
Proof.
  intros SH. pose proof SH as (HM & HN & E1 & E2 & E3 & E4 & L1 & L2). split; [|split; [|split; [|split; [|split]]]].
  - intros M1 N1 u1 v1 H. unfold svd_new. destruct (Nat.ltb_spec 0 M1), (Nat.ltb_spec 0 N1); cbn [andb]; try reflexivity; lia.
  - intros a dest m H. unfold svd_decompose, s_p. rewrite E1, E2. destruct (Nat.eqb_spec (rows a) M), (Nat.eqb_spec (cols a) N), (Nat.eqb_spec (len dest) (Nat.min M N)); cbn [andb]; try reflexivity. lia.
  - intros low high x m H. unfold svd_u, s_p. rewrite E1, E2, E3. destruct (Nat.eqb_spec (rows x) M), (Nat.eqb_spec (cols x) (high + 1 - low));
      (destruct ust; cbn [kept] in *; [reflexivity|destruct (Nat.ltb_spec high (Nat.min M N)); try reflexivity; lia|destruct (Nat.ltb_spec high M); try reflexivity; lia]).
  - intros low high x m H. unfold svd_v, s_p. rewrite E1, E2, E4. destruct (Nat.eqb_spec (rows x) N), (Nat.eqb_spec (cols x) (high + 1 - low));
      (destruct vst; cbn [kept] in *; [reflexivity|destruct (Nat.ltb_spec high (Nat.min M N)); try reflexivity; lia|destruct (Nat.ltb_spec high N); try reflexivity; lia]).
  - intros tr lside b x m OT NS SZ. destruct (q_arg_shape M N ust vst s SH NS) as [A1 A2]. apply prod_uv_refused; [exact OT|]. rewrite A1, A2. exact SZ.
  - intros tr lside b x m OT NS SZ. destruct (v_arg_shape cplx M N ust vst s SH NS) as [A1 A2]. apply prod_uv_refused; [exact OT|]. rewrite A1, A2. exact SZ.
Qed.
End P.
