(** Lemmas about the FFTW backend: what the constructors plan. *)
From Coq Require Import ZArith List Bool Arith Lia.
From Verif Require Import Base Layout LayoutProofs Dft DftProofs Fftw FftwProofs FftwLayout FftwWs.
Import ListNotations.
Local Open Scope nat_scope.

Lemma to_int_id z : (0 <= z < 2147483648)%Z -> to_int z = z.
Proof.
  intros H. unfold to_int. rewrite Z.mod_small by lia. destruct (Z.ltb_spec z 2147483648); lia.
Qed.
Definition small (ns : list nat) : Prop := (prod ns < 2147483648)%Z.

Lemma prod_pos ns : positive ns -> (0 < prod ns)%Z.
Proof. unfold positive, prod, zs. induction 1 as [|n ns P F IH]; cbn [map fold_right]; nia. Qed.
Lemma prod_half A ns : positive ns -> (prod (half_at A ns) <= prod ns)%Z.
Proof.
  intros P. revert A. induction P as [|n ns Hn P IH]; intros A; [cbn; lia|].
  pose proof (prod_pos ns P) as Q. destruct A as [|A].
  - rewrite half_0. unfold prod, zs in *. cbn [map fold_right]. pose proof (half_le n Hn). nia.
  - rewrite half_cons. specialize (IH A). unfold prod, zs in *. cbn [map fold_right]. nia.
Qed.
Lemma small_rowmajor ns : 1 <= length ns <= 3 -> positive ns -> small ns -> map to_int (rowmajor ns) = rowmajor ns /\ map to_int (zs ns) = zs ns.
Proof.
  unfold small, prod. intros L P S.
  destruct ns as [|a [|b [|c [|d ns]]]]; cbn [length] in L; try lia; fa; unfold zs in *; cbn [map fold_right rowmajor] in *.
  - rewrite !to_int_id by lia. auto.
  - rewrite !to_int_id by nia. auto.
  - assert (0 < Z.of_nat b * Z.of_nat c)%Z by nia. assert (0 < Z.of_nat a * Z.of_nat b)%Z by nia. assert (0 < Z.of_nat a * Z.of_nat c)%Z by nia.
    rewrite !to_int_id by nia. auto.
Qed.

Section Plan.
  Context (ssz AL va : Z) (Cf : config ssz AL va).
  Lemma ssz_pos : (0 < ssz)%Z. Proof. apply Cf. Qed.
  Lemma AL_pos : (0 < AL)%Z. Proof. apply Cf. Qed.
  Lemma AL_ssz : (AL mod ssz = 0)%Z. Proof. exact (elem_AL ssz AL ssz_pos (Real 0) va Cf). Qed.

  Lemma plan_layout_ok fl dom : 1 <= length dom <= 3 -> length dom = 1 \/ f_unaligned fl = true ->
    exists a, plan_layout ssz AL fl dom = Some a /\ strides a (length dom) = rowmajor dom /\ total_size a = prod dom.
  Proof.
    intros L H. unfold plan_layout.
    pose proof ssz_pos as Sp. pose proof AL_pos as Ap.
    assert (O : ord (length dom) (rt_order (rtl AL fl (seq 0 (length dom))))) by (apply seq_ord, L).
    assert (K : rt_ok (rtl AL fl (seq 0 (length dom))) ssz) by (apply rtl_ok; [exact Ap|exact AL_ssz]).
    destruct (copy_facts _ dom ssz O Sp K) as (a & Ea & _). exists a. split; [exact Ea|].
    unfold make_rt in Ea. rewrite zs_len in Ea. destruct (Z.eqb_spec ssz 0); [lia|]. cbn [negb] in Ea.
    match type of Ea with (if ?c then _ else _) = _ => destruct c; [|discriminate Ea] end.
    assert (Pd : length dom = 1 \/ forall s, rt_pad (rtl AL fl (seq 0 (length dom))) ssz s = Some s).
    { destruct H as [H|H]; [left; exact H|right]. intros s. unfold rt_pad, rtl. rewrite H. reflexivity. }
    destruct dom as [|x [|y [|z [|u dom]]]]; cbn [length] in *; try lia.
    - injection Ea as <-. split; [reflexivity|]. unfold prod, rtl, dim_, at_, zs. cbn. ring.
    - destruct Pd as [Pd|Pd]; [discriminate|]. rewrite Pd in Ea. injection Ea as <-. split; [reflexivity|]. unfold prod, rtl, dim_, at_, zs. cbn. ring.
    - destruct Pd as [Pd|Pd]; [discriminate|]. rewrite Pd in Ea. injection Ea as <-. split; [reflexivity|]. unfold prod, rtl, dim_, at_, zs. cbn. ring.
  Qed.

  Lemma fill_ok dom il ol D domi domo : length dom = D -> length domi = D -> length domo = D -> 1 <= D <= 3 ->
    positive dom -> positive domi -> positive domo -> small dom -> small domi -> small domo ->
    strides il D = rowmajor domi -> strides ol D = rowmajor domo ->
    let ds := fill_dims dom il ol in
    length ds = D /\ map (fun d => Z.to_nat (d_n d)) ds = dom /\ map d_is ds = rowmajor domi /\ map d_os ds = rowmajor domo /\
    Forall (fun d => 0 < d_n d)%Z ds.
  Proof.
    intros L Li Lo HD P Pi Po S Si So Ei Eo ds.
    assert (HL : 1 <= length dom <= 3 /\ 1 <= length domi <= 3 /\ 1 <= length domo <= 3) by lia. destruct HL as (H1 & H2 & H3).
    destruct (small_rowmajor dom H1 P S) as (_ & Yn). destruct (small_rowmajor domi H2 Pi Si) as (Yi & _). destruct (small_rowmajor domo H3 Po So) as (Yo & _).
    rewrite <- Ei in Yi |- *. rewrite <- Eo in Yo |- *. clear Ei Eo. unfold ds, fill_dims. rewrite L.
    destruct D as [|[|[|[|D]]]]; try lia; clear Li Lo; lists; unfold strides, at_, zs in *; cbn [seq map nth length d_n d_is d_os] in *; fa;
      injection Yn; injection Yi; injection Yo; intros; repeat match goal with H : to_int _ = _ |- _ => rewrite H; clear H end;
      rewrite ?Nat2Z.id; repeat (split; [reflexivity|]); repeat constructor; cbn [d_n]; lia.
  Qed.

  Definition size_in (k : kind) (A : nat) (dims : list nat) := match k with C2R => half_at A dims | _ => dims end.
  Definition size_out (k : kind) (A : nat) (dims : list nat) := match k with R2C => half_at A dims | _ => dims end.
  Definition the_order (k : kind) (D A : nat) := match k with C2C => seq 0 D | _ => axis_order D A end.
  Record planned (k : kind) (inv : bool) (A : nat) (dims : list nat) (pl : plan) (fl : flags) (same : bool) : Prop := {
    pd_kind : pl_kind pl = k;
    pd_sign : k = C2C -> pl_sign pl = if inv then 1%Z else (-1)%Z;
    pd_same : pl_same pl = same;
    pd_flags : pl_flags pl = fl;
    pd_len : length (pl_dims pl) = length dims;
    pd_ns : pl_ns pl = perm (the_order k (length dims) A) dims;
    pd_is : pl_is pl = rowmajor (perm (the_order k (length dims) A) (size_in k A dims));
    pd_os : pl_os pl = rowmajor (perm (the_order k (length dims) A) (size_out k A dims));
    pd_pos : Forall (fun d => 0 < d_n d)%Z (pl_dims pl) }.

  Lemma guru_ok k ds sign same fl : Forall (fun d => 0 < d_n d)%Z ds -> (k = C2R -> 1 < length ds -> f_preserve fl = false) ->
    plan_guru k ds sign same fl = Some (Plan k ds sign same fl).
  Proof.
    intros P H. unfold plan_guru.
    assert (X : forallb (fun d => 0 <? d_n d)%Z ds = true) by (apply forallb_forall; rewrite Forall_forall in P; intros d I; apply Z.ltb_lt, P, I).
    rewrite X. destruct k; try reflexivity. destruct (Nat.ltb_spec 1 (length ds)) as [Y|Y]; [|reflexivity]. rewrite (H eq_refl Y). reflexivity.
  Qed.

  Lemma mk_planner_ok k inv A fl dims : 1 <= length dims <= 3 -> A < length dims -> positive dims -> small dims ->
    length dims = 1 \/ f_unaligned fl = true -> (k = C2R -> 1 < length dims -> f_preserve fl = false) ->
    exists pr, mk_planner ssz AL k (exponent inv) A fl dims 1 = Some pr /\
      planned k inv A dims (op_plan pr) fl false /\
      (k = C2C -> exists ip, ip_plan pr = Some ip /\ planned C2C inv A dims ip fl true) /\
      in_cells pr = prod (size_in k A dims) /\ out_cells pr = prod (size_out k A dims).
  Proof.
    intros HD HA P S Hu Hp. set (D := length dims) in *. assert (LD : length dims = D) by reflexivity. clearbody D.
    pose proof (half_len A dims) as Lh. rewrite LD in Lh.
    pose proof (half_pos A dims P) as Ph. assert (Sh : small (half_at A dims)) by (pose proof (prod_half A dims P); unfold small in *; lia).
    pose proof (axis_ord D A HD) as O.
    assert (Hu' : forall dom, length dom = D -> exists a, plan_layout ssz AL fl dom = Some a /\ strides a D = rowmajor dom /\ total_size a = prod dom).
    { intros dom Ld. destruct (plan_layout_ok fl dom) as (a & X); [lia|rewrite Ld; exact Hu|]. rewrite Ld in X. eauto. }
    destruct k; unfold mk_planner, buffer_size; cbn [Nat.ltb Nat.leb].
    - destruct (Hu' dims LD) as (a & Ea & Sa & Ta). rewrite Ea. cbn [bind].
      destruct (fill_ok dims a a D dims dims LD LD LD HD P P P S S S Sa Sa) as (F0 & F1 & F2 & F3 & F4).
      rewrite !guru_ok by (first [exact F4|discriminate]). cbn [bind]. eexists. split; [reflexivity|]. cbn [op_plan ip_plan in_cells out_cells size_in size_out].
      assert (Pm : perm (seq 0 D) dims = dims) by (apply perm_seq; [exact LD|exact HD]).
      split; [|split; [|auto]].
      + constructor; cbn [pl_kind pl_sign pl_same pl_flags pl_dims the_order size_in size_out]; rewrite ?LD, ?Pm; auto.
      + intros _. eexists. split; [reflexivity|].
        constructor; cbn [pl_kind pl_sign pl_same pl_flags pl_dims the_order size_in size_out]; rewrite ?LD, ?Pm; auto.
    - rewrite (turn_perm D A dims HA LD HD). set (o := axis_order D A) in *.
      assert (Lo : length (perm o dims) = D) by (apply perm_len, O).
      assert (Eh : iosize (perm o dims) = perm o (half_at A dims)).
      { rewrite (iosize_half D _ Lo HD). symmetry. apply perm_half; auto. }
      rewrite Eh. destruct (Hu' _ Lo) as (a & Ea & Sa & Ta). destruct (Hu' (perm o (half_at A dims)) (perm_len _ _ _ O)) as (a' & Ea' & Sa' & Ta').
      rewrite Ea, Ea'. cbn [bind].
      assert (Po : positive (perm o dims)) by (apply (perm_pos D); auto). assert (Poh : positive (perm o (half_at A dims))) by (apply (perm_pos D); auto).
      assert (So : small (perm o dims)) by (unfold small; rewrite (perm_prod D); auto). assert (Soh : small (perm o (half_at A dims))) by (unfold small; rewrite (perm_prod D); auto).
      destruct (fill_ok (perm o dims) a a' D (perm o dims) (perm o (half_at A dims)) Lo Lo (perm_len _ _ _ O) HD Po Po Poh So So Soh Sa Sa') as (F0 & F1 & F2 & F3 & F4).
      rewrite !guru_ok by (first [exact F4|discriminate]). cbn [bind]. eexists. split; [reflexivity|]. cbn [op_plan ip_plan in_cells out_cells size_in size_out].
      split; [|split; [discriminate|]].
      + constructor; cbn [pl_kind pl_sign pl_same pl_flags pl_dims the_order size_in size_out]; rewrite ?LD; auto; discriminate.
      + rewrite Ta, Ta', !(perm_prod D) by auto. auto.
    - rewrite (turn_perm D A dims HA LD HD). set (o := axis_order D A) in *.
      assert (Lo : length (perm o dims) = D) by (apply perm_len, O).
      assert (Eh : iosize (perm o dims) = perm o (half_at A dims)).
      { rewrite (iosize_half D _ Lo HD). symmetry. apply perm_half; auto. }
      rewrite Eh. destruct (Hu' _ Lo) as (a & Ea & Sa & Ta). destruct (Hu' (perm o (half_at A dims)) (perm_len _ _ _ O)) as (a' & Ea' & Sa' & Ta').
      rewrite Ea, Ea'. cbn [bind].
      assert (Po : positive (perm o dims)) by (apply (perm_pos D); auto). assert (Poh : positive (perm o (half_at A dims))) by (apply (perm_pos D); auto).
      assert (So : small (perm o dims)) by (unfold small; rewrite (perm_prod D); auto). assert (Soh : small (perm o (half_at A dims))) by (unfold small; rewrite (perm_prod D); auto).
      destruct (fill_ok (perm o dims) a' a D (perm o (half_at A dims)) (perm o dims) Lo (perm_len _ _ _ O) Lo HD Po Poh Po So Soh So Sa' Sa) as (F0 & F1 & F2 & F3 & F4).
      rewrite !guru_ok by (first [exact F4|rewrite F0; exact Hp]). cbn [bind]. eexists. split; [reflexivity|]. cbn [op_plan ip_plan in_cells out_cells size_in size_out].
      split; [|split; [discriminate|]].
      + constructor; cbn [pl_kind pl_sign pl_same pl_flags pl_dims the_order size_in size_out]; rewrite ?LD; auto; discriminate.
      + rewrite Ta, Ta', !(perm_prod D) by auto. auto.
  Qed.

  (** An fft object. *)
  Lemma fft_create_ok k inv A dims number : 1 <= length dims <= 3 -> A < length dims -> positive dims -> small dims ->
    exists be fl, fft_create ssz AL k inv A dims number = Some be /\ be_kind be = k /\ be_axis be = None /\
      be_force be = (match k with C2R => 1 <? length dims | _ => false end) /\
      be_layout be = rtl AL fl (the_order k (length dims) A) /\
      (length dims = 1 \/ f_unaligned fl = true) /\
      (k = C2R -> f_preserve fl = negb (1 <? length dims)) /\
      planned k inv A dims (op_plan (be_planner be)) fl false /\
      (k = C2C -> exists ip, ip_plan (be_planner be) = Some ip /\ planned C2C inv A dims ip fl true) /\
      in_cells (be_planner be) = prod (size_in k A dims) /\ out_cells (be_planner be) = prod (size_out k A dims).
  Proof.
    intros HD HA P S. unfold fft_create.
    set (fl := if length dims =? 1 then _ else _).
    assert (U : length dims = 1 \/ f_unaligned fl = true).
    { unfold fl. destruct (Nat.eqb_spec (length dims) 1) as [E|E]; [left; exact E|right; reflexivity]. }
    assert (Pr : k = C2R -> f_preserve fl = negb (1 <? length dims)).
    { intros ->. unfold fl. destruct (Nat.eqb_spec (length dims) 1) as [E|E]; [rewrite E; reflexivity|].
      destruct (Nat.ltb_spec 1 (length dims)); [reflexivity|lia]. }
    assert (Hp : k = C2R -> 1 < length dims -> f_preserve fl = false).
    { intros E L. rewrite (Pr E). destruct (Nat.ltb_spec 1 (length dims)); [reflexivity|lia]. }
    clearbody fl. destruct (mk_planner_ok k inv A fl dims HD HA P S U Hp) as (pr & E & X). rewrite E. cbn [bind].
    eexists. exists fl. split; [reflexivity|]. cbn [be_kind be_axis be_force be_layout be_planner]. repeat (split; [reflexivity|]). auto.
  Qed.
End Plan.
