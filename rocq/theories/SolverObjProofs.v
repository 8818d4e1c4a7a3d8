(** Proofs about the life of solver objects. *)
From Coq Require Import ZArith List Lia Bool Arith.
From Verif Require Import Base Freqswap Conv Matvec Solver SolverProofs SolverObj.
Import ListNotations.
Local Open Scope nat_scope.

Section P.
Context {K : CRing} (conj : K -> K) (kdiv : K -> K -> option K).
Context (geqrf : nat -> nat -> list K -> nat -> option (list K * list K)).
Context (getrf : nat -> list K -> nat -> option (list K * list nat * bool)).
Context (potrf : bool -> nat -> list K -> nat -> option (list K * bool)).
Local Notation step := (step conj kdiv geqrf getrf potrf).
Local Notation reachable := (reachable conj kdiv geqrf getrf potrf).
Local Notation given := (given conj kdiv geqrf getrf potrf).
Local Notation state := (@state K).
Implicit Types st : state.

Lemma upd_eq {A} (f : nat -> A) k x : upd f k x k = x.
Proof. unfold upd. rewrite Nat.eqb_refl. reflexivity. Qed.
Lemma upd_ne {A} (f : nat -> A) k x i : i <> k -> upd f k x i = f i.
Proof. intros H. unfold upd. destruct (Nat.eqb_spec i k); [contradiction|reflexivity]. Qed.

(** A cell of the right kind for the header. *)
Definition shape (h : header) (d a : @cell K) : Prop :=
  match h, d, a with HLud _, Data _, Piv _ => True | HChold _ _, Data _, Piv _ => True | HQrd _ _ _, Data _, Tau _ => True | _, _, _ => False end.
Definition apart (o p : obj) : Prop := dat o <> dat p /\ dat o <> aux p /\ aux o <> dat p /\ aux o <> aux p.
Record inv st : Prop := {
  i_self : forall v o, vars st v = Some o -> dat o < next st /\ aux o < next st /\ dat o <> aux o /\
    exists d a, heap st (dat o) = Some d /\ heap st (aux o) = Some a /\ shape (hd o) d a;
  i_apart : forall v w o p, vars st v = Some o -> vars st w = Some p -> v <> w -> apart o p;
  i_own : forall i, heap st i <> None -> i < next st /\ exists v o, vars st v = Some o /\ (dat o = i \/ aux o = i) }.
Lemma inv_start m : inv (start m).
Proof. split; cbn; intros; try discriminate. contradiction. Qed.
Lemma parts_shape x : shape (fst (fst (parts x))) (snd (fst (parts x))) (snd (parts x)).
Proof. destruct x; exact I. Qed.
Lemma create_inv st st' v x : inv st -> create st v x = Some st' -> inv st' /\
  vars st v = None /\ vars st' v = Some (Obj (fst (fst (parts x))) (next st) (S (next st))) /\ (forall u, u <> v -> vars st' u = vars st u) /\
  heap st' (next st) = Some (snd (fst (parts x))) /\ heap st' (S (next st)) = Some (snd (parts x)) /\
  (forall i, i < next st -> heap st' i = heap st i) /\ smem st' = smem st.
Proof.
  intros [S A O] E. unfold create in E. destruct (vars st v) as [?|] eqn:Ev; [discriminate|]. pose proof (parts_shape x) as Sh.
  destruct (parts x) as [[h d] a]. cbn [fst snd] in *. injection E as <-. cbn.
  assert (L : forall i, i < next st -> upd (upd (heap st) (next st) (Some d)) (Datatypes.S (next st)) (Some a) i = heap st i) by (intros i Hi; rewrite !upd_ne by lia; reflexivity).
  split; [|split; [reflexivity|split; [apply upd_eq|split; [intros u Hu; apply upd_ne; exact Hu|split; [rewrite upd_ne by lia; apply upd_eq|split; [apply upd_eq|split; [exact L|reflexivity]]]]]]].
  split; cbn.
  - intros u o Hu. destruct (Nat.eq_dec u v) as [->|N].
    + rewrite upd_eq in Hu. injection Hu as <-. cbn. split; [lia|]. split; [lia|]. split; [lia|]. exists d, a. rewrite upd_eq, (upd_ne _ _ _ (next st)), upd_eq by lia. auto.
    + rewrite upd_ne in Hu by exact N. destruct (S u o Hu) as (B1 & B2 & B3 & d' & a' & D1 & D2 & D3). split; [lia|]. split; [lia|]. split; [exact B3|].
      exists d', a'. rewrite !L by assumption. auto.
  - intros u w o p Hu Hw N. destruct (Nat.eq_dec u v) as [->|Nu], (Nat.eq_dec w v) as [->|Nw]; try (exfalso; apply N; reflexivity).
    + rewrite upd_eq in Hu. rewrite upd_ne in Hw by exact Nw. injection Hu as <-. destruct (S w p Hw) as (B1 & B2 & _). unfold apart; cbn; lia.
    + rewrite upd_eq in Hw. rewrite upd_ne in Hu by exact Nu. injection Hw as <-. destruct (S u o Hu) as (B1 & B2 & _). unfold apart; cbn; lia.
    + rewrite upd_ne in Hu, Hw by assumption. apply (A u w); assumption.
  - intros i Hi. destruct (Nat.eq_dec i (Datatypes.S (next st))) as [->|N1]; [split; [lia|]; exists v; eexists; rewrite upd_eq; split; [reflexivity|]; cbn; auto|].
    rewrite upd_ne in Hi by exact N1. destruct (Nat.eq_dec i (next st)) as [->|N2]; [split; [lia|]; exists v; eexists; rewrite upd_eq; split; [reflexivity|]; cbn; auto|].
    rewrite upd_ne in Hi by exact N2. destruct (O i Hi) as (B & u & o & Hu & Q). split; [lia|]. exists u, o. split; [|exact Q]. rewrite upd_ne; [exact Hu|]. intros ->. congruence.
Qed.
Lemma create_load st st' v x : create st v x = Some st' -> load st' v = Some x.
Proof.
  unfold create. destruct (vars st v); [discriminate|]. destruct (parts x) as [[h d] a] eqn:P. intros E. injection E as <-.
  unfold load. cbn [vars heap]. rewrite upd_eq. cbn [bind dat aux hd]. rewrite (upd_ne _ _ _ (next st)), !upd_eq by lia. cbn [bind].
  destruct x as [[]|[]|[]]; cbn in P; injection P as <- <- <-; reflexivity.
Qed.
Lemma create_other st st' v x u : inv st -> create st v x = Some st' -> u <> v -> load st' u = load st u.
Proof.
  intros I E N. destruct (create_inv st st' v x I E) as (_ & _ & _ & Hu & _ & _ & L & _). unfold load. rewrite Hu by exact N.
  destruct (vars st u) as [o|] eqn:Eo; [|reflexivity]. cbn [bind]. destruct (i_self _ I u o Eo) as (B1 & B2 & _). rewrite !L by assumption. reflexivity.
Qed.

(** The header of the value an object has. *)
Lemma load_parts st v x : load st v = Some x -> exists o, vars st v = Some o /\ hd o = fst (fst (parts x)).
Proof.
  unfold load. destruct (vars st v) as [o|]; [|discriminate]. cbn [bind]. intros E. exists o. split; [reflexivity|].
  destruct (heap st (dat o)) as [d|]; [|discriminate]. destruct (heap st (aux o)) as [a|]; [|discriminate]. cbn [bind] in E.
  destruct (hd o), d, a; try discriminate; injection E as <-; reflexivity.
Qed.
Lemma decomposed_header x a m y : decomposed geqrf getrf potrf x a m = Some y -> fst (fst (parts y)) = fst (fst (parts x)).
Proof.
  destruct x as [l|c|q]; cbn [decomposed]; intros E.
  - destruct (lud_decompose getrf l a m) as [[l' ok]|] eqn:D; [|discriminate]. injection E as <-. unfold lud_decompose in D.
    destruct (_ && _); [|discriminate]. destruct (copy_in _ _ _ _); [|discriminate]. cbn [bind] in D. destruct (getrf _ _ _) as [[[? ?] ?]|]; [|discriminate]. injection D as <- _. reflexivity.
  - destruct (chold_decompose potrf c a m) as [[c' ok]|] eqn:D; [|discriminate]. injection E as <-. unfold chold_decompose in D.
    destruct (_ && _); [|discriminate]. destruct (copy_in _ _ _ _); [|discriminate]. cbn [bind] in D. destruct (potrf _ _ _ _) as [[? ?]|]; [|discriminate]. injection D as <- _. reflexivity.
  - destruct (qrd_decompose geqrf q a m) as [q'|] eqn:D; [|discriminate]. injection E as <-. unfold qrd_decompose in D.
    destruct (_ && _); [|discriminate]. destruct (copy_in _ _ _ _); [|discriminate]. cbn [bind] in D. destruct (geqrf _ _ _ _) as [[? ?]|]; [|discriminate]. injection D as <-. reflexivity.
Qed.
Lemma store_ok st st' v x o : inv st -> vars st v = Some o -> hd o = fst (fst (parts x)) -> store st v x = Some st' ->
  inv st' /\ vars st' = vars st /\ load st' v = Some x /\ (forall u, u <> v -> load st' u = load st u).
Proof.
  intros [S A O] Ho Hh E. unfold store in E. rewrite Ho in E. cbn [bind] in E. pose proof (parts_shape x) as Sh. destruct (parts x) as [[h d] a] eqn:P. cbn [fst snd] in *. subst h. injection E as <-.
  destruct (S v o Ho) as (B1 & B2 & B3 & _). split; [|split; [reflexivity|split]].
  - split; cbn.
    + intros u p Hu. destruct (S u p Hu) as (C1 & C2 & C3 & d' & a' & D1 & D2 & D3). split; [exact C1|]. split; [exact C2|]. split; [exact C3|].
      destruct (Nat.eq_dec u v) as [->|N].
      * rewrite Ho in Hu. injection Hu as <-. exists d, a. rewrite upd_eq, (upd_ne _ _ _ (dat o)), upd_eq by exact B3. auto.
      * destruct (A u v p o Hu Ho N) as (Q1 & Q2 & Q3 & Q4). exists d', a'. rewrite !upd_ne by assumption. auto.
    + exact A.
    + intros i Hi. apply O. intros Z. apply Hi. unfold upd. destruct (Nat.eqb_spec i (aux o)) as [->|].
      { destruct (S v o Ho) as (_ & _ & _ & d' & a' & D1 & D2 & _). congruence. }
      destruct (Nat.eqb_spec i (dat o)) as [->|]; [|exact Z]. destruct (S v o Ho) as (_ & _ & _ & d' & a' & D1 & D2 & _). congruence.
  - unfold load. cbn [vars heap]. rewrite Ho. cbn [bind]. rewrite upd_eq, (upd_ne _ _ _ (dat o)), upd_eq by exact B3. cbn [bind].
    destruct x as [[]|[]|[]]; cbn in P; injection P as P1 <- <-; rewrite <- P1; reflexivity.
  - intros u N. unfold load. cbn [vars heap]. destruct (vars st u) as [p|] eqn:Hu; [|reflexivity]. cbn [bind].
    destruct (A u v p o Hu Ho N) as (Q1 & Q2 & Q3 & Q4). rewrite !upd_ne by assumption. reflexivity.
Qed.
Lemma destroy_inv st st' v : inv st -> step st (Destroy v) = Some st' -> inv st' /\ (forall u, u <> v -> load st' u = load st u).
Proof.
  intros [S A O] E. cbn in E. destruct (vars st v) as [o|] eqn:Ho; [|discriminate]. cbn [bind] in E.
  destruct (heap st (dat o)) as [d|]; [|discriminate]. destruct (heap st (aux o)) as [a|]; [|discriminate]. cbn [bind] in E. injection E as <-.
  split.
  - split; cbn.
    + intros u p Hu. destruct (Nat.eq_dec u v) as [->|N]; [rewrite upd_eq in Hu; discriminate|]. rewrite upd_ne in Hu by exact N.
      destruct (S u p Hu) as (C1 & C2 & C3 & d' & a' & D). split; [exact C1|]. split; [exact C2|]. split; [exact C3|]. exists d', a'.
      destruct (A u v p o Hu Ho N) as (Q1 & Q2 & Q3 & Q4). rewrite !upd_ne by assumption. exact D.
    + intros u w p q Hu Hw N. unfold upd in Hu, Hw. destruct (u =? v); [discriminate|]. destruct (w =? v); [discriminate|]. apply (A u w); assumption.
    + intros i Hi. destruct (Nat.eq_dec i (aux o)) as [->|N1]; [rewrite upd_eq in Hi; contradiction|]. rewrite upd_ne in Hi by exact N1.
      destruct (Nat.eq_dec i (dat o)) as [->|N2]; [rewrite upd_eq in Hi; contradiction|]. rewrite upd_ne in Hi by exact N2.
      destruct (O i Hi) as (B & u & p & Hu & Q). split; [exact B|]. exists u, p. split; [|exact Q]. rewrite upd_ne; [exact Hu|]. intros ->. rewrite Ho in Hu. injection Hu as <-. destruct Q; congruence.
  - intros u N. unfold load. cbn [vars heap]. rewrite upd_ne by exact N. destruct (vars st u) as [p|] eqn:Hu; [|reflexivity]. cbn [bind].
    destruct (A u v p o Hu Ho N) as (Q1 & Q2 & Q3 & Q4). rewrite !upd_ne by assumption. reflexivity.
Qed.
Lemma with_mem_inv st m : inv st -> inv (with_mem st m) /\ forall u, load (with_mem st m) u = load st u.
Proof. intros [S A O]. split; [split; cbn; assumption|]. intros u. reflexivity. Qed.

Ltac inv_new E I :=
  match type of E with (_ <- ?n ;; _) = _ => destruct n as [?x|]; [cbn [bind] in E|discriminate E] end.
Ltac inv_use E I :=
  let y := fresh "y" in
  match type of E with (_ <- ?n ;; _) = _ => destruct n as [y|]; [cbn [bind] in E|discriminate E] end;
  destruct y; try discriminate E;
  match type of E with (_ <- ?n ;; _) = _ => destruct n as [?m'|]; [cbn [bind] in E|discriminate E] end; injection E as <-.
Lemma step_ok st st' o : inv st -> step st o = Some st' -> inv st' /\ forall u, target o <> Some u -> load st' u = load st u.
Proof.
  intros I E. destruct o; cbn [step target] in *; cbn [SolverObj.step] in E.
  - inv_new E I. split; [apply (create_inv _ _ _ _ I E)|]. intros u0 N. apply (create_other _ _ _ _ u0 I E). congruence.
  - inv_new E I. split; [apply (create_inv _ _ _ _ I E)|]. intros u0 N. apply (create_other _ _ _ _ u0 I E). congruence.
  - inv_new E I. split; [apply (create_inv _ _ _ _ I E)|]. intros u0 N. apply (create_other _ _ _ _ u0 I E). congruence.
  - inv_new E I. split; [apply (create_inv _ _ _ _ I E)|]. intros u0 N. apply (create_other _ _ _ _ u0 I E). congruence.
  - discriminate.
  - destruct (load st v) as [x|] eqn:L; [cbn [bind] in E|discriminate E]. destruct (decomposed _ _ _ x a (smem st)) as [y|] eqn:D; [cbn [bind] in E|discriminate E].
    destruct (load_parts st v x L) as (o & Ho & Hh). rewrite <- (decomposed_header x a _ y D) in Hh. destruct (store_ok st st' v y o I Ho Hh E) as (I' & _ & _ & Q).
    split; [exact I'|]. intros u0 N. apply Q. congruence.
  - inv_use E I. destruct (with_mem_inv st m' I) as [I' Q]. split; [exact I'|]. intros u0 _. apply Q.
  - inv_use E I. destruct (with_mem_inv st m' I) as [I' Q]. split; [exact I'|]. intros u0 _. apply Q.
  - inv_use E I. destruct (with_mem_inv st m' I) as [I' Q]. split; [exact I'|]. intros u0 _. apply Q.
  - inv_use E I. destruct (with_mem_inv st m' I) as [I' Q]. split; [exact I'|]. intros u0 _. apply Q.
  - injection E as <-. destruct (with_mem_inv st m I) as [I' Q]. split; [exact I'|]. intros u0 _. apply Q.
  - destruct (destroy_inv st st' v I E) as [I' Q]. split; [exact I'|]. intros u0 N. apply Q. congruence.
Qed.
Lemma reachable_inv st : reachable st -> inv st.
Proof. induction 1 as [m|st st' o R IH E]; [apply inv_start|]. apply (step_ok st st' o IH E). Qed.
Lemma given_reachable st v c M N A : given st v c M N A -> reachable st.
Proof.
  induction 1 as [st st' v o a A R Ho H E|st st' v w c M N A G IH E|st st' v o c M N A G IH E T]; (eapply reach_step; [|exact E]); assumption.
Qed.

(** What an object that was given A holds: the result of the factorization of
    the elements of A. *)
Definition factored (c : class) (M N : nat) (A : nat -> nat -> K) (x : value) : Prop :=
  exists d, stored M N A d /\
  match c, x with
  | Lud, VLud l => M = l_len l /\ N = l_len l /\ exists d' p ok, getrf (l_len l) d (l_len l) = Some (d', p, ok) /\
      (length d' = M * N -> l_data l = d') /\ (length p = N -> l_piv l = p)
  | Chold u, VChold k => u = c_upper k /\ M = c_len k /\ N = c_len k /\ exists d' ok, potrf (c_upper k) (c_len k) d (c_len k) = Some (d', ok) /\ (length d' = M * N -> c_data k = d')
  | Qrd, VQrd q => M = q_rows q /\ N = q_cols q /\ exists d' t, geqrf (q_rows q) (q_cols q) d (q_rows q) = Some (d', t) /\
      (length d' = M * N -> q_data q = d') /\ (length t = N -> q_tau q = t)
  | _, _ => False
  end.
Lemma nth_seq_all {A} (z : A) (l : list A) : map (fun i => nth i l z) (seq 0 (length l)) = l.
Proof.
  induction l as [|x l IH]; [reflexivity|]. cbn [length seq map nth]. f_equal. rewrite <- seq_shift, map_map. exact IH.
Qed.
Lemma first_all {A} (z : A) n (l : list A) : length l = n -> first z n l = l.
Proof. intros <-. apply nth_seq_all. Qed.
Lemma factored_copied c M N A x : factored c M N A x -> factored c M N A (copied x).
Proof.
  intros (d & S & H). exists d. split; [exact S|]. destruct c, x as [l|k|q]; cbn [copied] in *; try contradiction; cbn [l_len l_data l_piv c_len c_data c_upper q_rows q_cols q_store q_data q_tau].
  - destruct H as (-> & E2 & d' & p & ok & E & H1 & H2). split; [reflexivity|]. split; [exact E2|]. exists d', p, ok. split; [exact E|]. subst N. split; intros L.
    + rewrite (H1 L). apply first_all. exact L.
    + rewrite (H2 L). apply first_all. exact L.
  - destruct H as (E0 & E1 & E2 & d' & ok & E & H1). split; [exact E0|]. split; [exact E1|]. split; [exact E2|]. exists d', ok. split; [exact E|]. intros L. subst M. subst N.
    rewrite (H1 L). apply first_all. exact L.
  - destruct H as (E1 & E2 & d' & t & E & H1 & H2). split; [exact E1|]. split; [exact E2|]. exists d', t. split; [exact E|]. subst M N. split; intros L.
    + rewrite (H1 L). apply first_all. exact L.
    + rewrite (H2 L). apply first_all. exact L.
Qed.
Lemma class_parts o (x : @value K) : hd o = fst (fst (parts x)) -> class_of o = match x with VLud _ => Lud | VChold c => Chold (c_upper c) | VQrd _ => Qrd end.
Proof. intros H. unfold class_of. rewrite H. destruct x; reflexivity. Qed.
Lemma given_factored st v c M N A : given st v c M N A -> exists x, load st v = Some x /\ factored c M N A x.
Proof.
  induction 1 as [st st' v o a A R Ho H E|st st' v w c M N A G IH E|st st' v o c M N A G IH E T].
  - pose proof (reachable_inv st R) as I. cbn [SolverObj.step] in E. destruct (load st v) as [x|] eqn:L; [cbn [bind] in E|discriminate E].
    destruct (decomposed _ _ _ x a (smem st)) as [y|] eqn:D; [cbn [bind] in E|discriminate E].
    destruct (load_parts st v x L) as (o' & Ho' & Hh). rewrite Ho in Ho'. injection Ho' as <-. pose proof (decomposed_header x a _ y D) as Hy.
    destruct (store_ok st st' v y o I Ho (eq_trans Hh (eq_sym Hy)) E) as (_ & _ & L' & _). exists y. split; [exact L'|]. rewrite (class_parts o x Hh). clear L' E L Hh Hy Ho.
    destruct x as [l|k|q]; cbn [decomposed] in D.
    + unfold lud_decompose in D. destruct ((rows a =? l_len l) && (cols a =? l_len l)) eqn:B; [|discriminate]. apply andb_true_iff in B. destruct B as [B1 B2]. apply Nat.eqb_eq in B1, B2.
      destruct (copy_in_ok (l_len l) (l_len l) a A _ (eq_sym B1) (eq_sym B2) H) as (d & Ed & Ld & Hd). rewrite Ed in D. cbn [bind] in D.
      destruct (getrf (l_len l) d (l_len l)) as [[[d' p] ok]|] eqn:G; [|discriminate]. cbn [bind fst snd] in D. injection D as <-. exists d. rewrite B1, B2. split; [split; assumption|].
      cbn [l_len l_data l_piv]. split; [reflexivity|]. split; [reflexivity|]. exists d', p, ok. split; [exact G|]. split; reflexivity.
    + unfold chold_decompose in D. destruct ((rows a =? c_len k) && (cols a =? c_len k)) eqn:B; [|discriminate]. apply andb_true_iff in B. destruct B as [B1 B2]. apply Nat.eqb_eq in B1, B2.
      destruct (copy_in_ok (c_len k) (c_len k) a A _ (eq_sym B1) (eq_sym B2) H) as (d & Ed & Ld & Hd). rewrite Ed in D. cbn [bind] in D.
      destruct (potrf (c_upper k) (c_len k) d (c_len k)) as [[d' ok]|] eqn:G; [|discriminate]. cbn [bind fst snd] in D. injection D as <-. exists d. rewrite B1, B2. split; [split; assumption|].
      cbn [c_len c_data c_upper]. split; [reflexivity|]. split; [reflexivity|]. split; [reflexivity|]. exists d', ok. split; [exact G|]. reflexivity.
    + unfold qrd_decompose in D. destruct ((rows a =? q_rows q) && (cols a =? q_cols q)) eqn:B; [|discriminate]. apply andb_true_iff in B. destruct B as [B1 B2]. apply Nat.eqb_eq in B1, B2.
      destruct (copy_in_ok (q_rows q) (q_cols q) a A _ (eq_sym B1) (eq_sym B2) H) as (d & Ed & Ld & Hd). rewrite Ed in D. cbn [bind] in D.
      destruct (geqrf (q_rows q) (q_cols q) d (q_rows q)) as [[d' t]|] eqn:G; [|discriminate]. cbn [bind fst snd] in D. injection D as <-. exists d. rewrite B1, B2. split; [split; assumption|].
      cbn [q_rows q_cols q_data q_tau]. split; [reflexivity|]. split; [reflexivity|]. exists d', t. split; [exact G|]. split; reflexivity.
  - destruct IH as (x & L & F). cbn [SolverObj.step] in E. rewrite L in E. cbn [bind] in E. exists (copied x). split; [apply (create_load st st' v _ E)|]. apply factored_copied. exact F.
  - destruct IH as (x & L & F). exists x. split; [|exact F]. destruct (step_ok st st' o (reachable_inv st (given_reachable _ _ _ _ _ _ G)) E) as [_ Q]. rewrite Q by exact T. exact L.
Qed.

(** ** The solutions *)
Lemma given_lud st v n A : given st v Lud n n A -> getrf_for getrf n A ->
  exists l, load st v = Some (VLud l) /\ l_len l = n /\ is_lu n A (l_data l) (l_piv l).
Proof.
  intros G F. destruct (given_factored st v Lud n n A G) as (x & L & d & S & H). destruct x as [l|k|q]; try contradiction.
  destruct H as (E1 & _ & d' & p & ok & E & H1 & H2). exists l. split; [exact L|]. split; [auto|].
  destruct (F d S) as (d2 & p2 & ok2 & E' & Q). rewrite <- E1 in E. rewrite E in E'. injection E' as <- <- _. pose proof Q as (L1 & L2 & _). rewrite (H1 L1), (H2 L2). exact Q.
Qed.
Lemma given_chold st v u n A : given st v (Chold u) n n A -> potrf_for conj potrf u n A ->
  exists c, load st v = Some (VChold c) /\ c_upper c = u /\ c_len c = n /\ is_chol conj u n A (c_data c).
Proof.
  intros G F. destruct (given_factored st v (Chold u) n n A G) as (x & L & d & S & H). destruct x as [l|k|q]; try contradiction.
  destruct H as (E0 & E1 & _ & d' & ok & E & H1). exists k. split; [exact L|]. split; [auto|]. split; [auto|].
  destruct (F d S) as (d2 & E' & Q). rewrite <- E0, <- E1 in E. rewrite E in E'. injection E' as <- _. pose proof Q as (L1 & _). rewrite (H1 L1). exact Q.
Qed.
Lemma given_qrd st v M N A : given st v Qrd M N A -> geqrf_for conj geqrf M N A ->
  exists q, load st v = Some (VQrd q) /\ q_rows q = M /\ q_cols q = N /\ is_qr conj M N A (q_data q) (q_tau q).
Proof.
  intros G F. destruct (given_factored st v Qrd M N A G) as (x & L & d & S & H). destruct x as [l|k|q]; try contradiction.
  destruct H as (E0 & E1 & d' & t & E & H1 & H2). exists q. split; [exact L|]. split; [auto|]. split; [auto|].
  destruct (F d S) as (d2 & t2 & E' & Q). rewrite <- E0, <- E1 in E. rewrite E in E'. injection E' as <- <-. pose proof Q as (L1 & L2 & _). rewrite (H1 L1), (H2 L2). exact Q.
Qed.
Lemma lud_ok st v n A cplx tr b x B : conj_ok conj -> div_ok kdiv -> given st v Lud n n A -> 1 <= n -> getrf_for getrf n A -> full_column_rank n n A ->
  tr <> mat_conj -> (tr = mat_herm -> cplx = true) -> rows b = n -> rows x = n -> cols x = cols b -> holds2 (smem st) b B -> wf2 (smem st) x ->
  exists st' X, step st (LudSolve v cplx tr b x) = Some st' /\ only2 x (smem st) (smem st') /\ holds2 (smem st') x X /\
    forall i j, i < n -> j < cols b -> sum (fun k => op_elem conj tr A i k * X k j)%cr n = B i j.
Proof.
  intros CJ DV G P F FR Tr Th R1 R2 R3 HB W. destruct (given_lud st v n A G F) as (l & L & E & Q). pose proof (rank_lu conj kdiv n A _ _ Q FR) as FD. rewrite <- E in *.
  destruct (lud_solve_ok conj kdiv DV CJ cplx tr l A b x B (smem st)) as (m' & X & Em & O & H & Eq); try assumption; try congruence.
  exists (with_mem st m'), X. cbn [SolverObj.step]. rewrite L. cbn [bind]. rewrite Em. cbn [bind]. auto.
Qed.
Lemma chold_ok st v u n A b x B : conj_ok conj -> div_ok kdiv -> given st v (Chold u) n n A -> 1 <= n ->
  (forall i j, i < n -> j < n -> A i j = conj (A j i)) -> potrf_for conj potrf u n A -> full_column_rank n n A ->
  rows b = n -> rows x = n -> cols x = cols b -> holds2 (smem st) b B -> wf2 (smem st) x ->
  exists st' X, step st (CholdSolve v b x) = Some st' /\ only2 x (smem st) (smem st') /\ holds2 (smem st') x X /\
    forall i j, i < n -> j < cols b -> sum (fun k => A i k * X k j)%cr n = B i j.
Proof.
  intros CJ DV G P Hm F FR R1 R2 R3 HB W. destruct (given_chold st v u n A G F) as (c & L & E0 & E & Q). pose proof (rank_chol conj kdiv CJ u n A _ Q Hm FR) as FD. rewrite <- E, <- E0 in *.
  destruct (chold_solve_ok conj kdiv DV CJ c A b x B (smem st)) as (m' & X & Em & O & H & Eq); try assumption; try congruence.
  exists (with_mem st m'), X. cbn [SolverObj.step]. rewrite L. cbn [bind]. rewrite Em. cbn [bind]. auto.
Qed.
Lemma qrd_ok st v M N A cplx b x B : conj_ok conj -> div_ok kdiv -> given st v Qrd M N A -> 1 <= N <= M -> geqrf_for conj geqrf M N A -> full_column_rank M N A ->
  rows b = M -> rows x = N -> cols x = cols b -> holds2 (smem st) b B -> wf2 (smem st) x ->
  exists st' X, step st (QrdLsqsol v cplx b x) = Some st' /\ only2 x (smem st) (smem st') /\ holds2 (smem st') x X /\
    forall i j, i < N -> j < cols b -> mmul M (adj conj A) (mmul N A X) i j = mmul M (adj conj A) B i j.
Proof.
  intros CJ DV G P F FR R1 R2 R3 HB W. destruct (given_qrd st v M N A G F) as (q & L & E0 & E & Q). pose proof (rank_qr conj kdiv M N A _ _ Q FR) as FD. rewrite <- E, <- E0 in *.
  destruct (lsqsol_ok conj kdiv DV CJ cplx q A b x B (smem st) (Logic.conj P Q) FD) as (m' & X & Em & O & H & Eq); try assumption; try congruence.
  exists (with_mem st m'), X. cbn [SolverObj.step]. rewrite L. cbn [bind]. rewrite Em. cbn [bind]. auto.
Qed.
Lemma qrd_cov_ok st v M N A (cplx : bool) b x B : conj_ok conj -> div_ok kdiv -> (cplx = false -> forall u, conj u = u) -> given st v Qrd M N A -> 1 <= N <= M -> geqrf_for conj geqrf M N A -> full_column_rank M N A ->
  rows b = N -> rows x = N -> cols x = cols b -> holds2 (smem st) b B -> wf2 (smem st) x ->
  exists st' X, step st (QrdCovsol v cplx b x) = Some st' /\ only2 x (smem st) (smem st') /\ holds2 (smem st') x X /\
    forall i j, i < N -> j < cols b -> mmul N (mmul M (adj conj A) A) X i j = B i j.
Proof.
  intros CJ DV RC G P F FR R1 R2 R3 HB W. destruct (given_qrd st v M N A G F) as (q & L & E0 & E & Q). pose proof (rank_qr conj kdiv M N A _ _ Q FR) as FD. rewrite <- E, <- E0 in *.
  destruct (covsol_m_ok conj kdiv DV CJ cplx q A b x B (smem st) RC (Logic.conj P Q) FD) as (m' & X & Em & O & H & Eq); try assumption; try congruence.
  exists (with_mem st m'), X. cbn [SolverObj.step]. rewrite L. cbn [bind]. rewrite Em. cbn [bind]. auto.
Qed.
Lemma destroy_ok st v o : reachable st -> vars st v = Some o -> exists st', step st (Destroy v) = Some st' /\ heap st' (dat o) = None /\ heap st' (aux o) = None.
Proof.
  intros R Ho. destruct (i_self _ (reachable_inv st R) v o Ho) as (_ & _ & _ & d & a & D1 & D2 & _). cbn. rewrite Ho. cbn [bind]. rewrite D1, D2. cbn [bind].
  eexists. split; [reflexivity|]. cbn [heap]. split; [|apply upd_eq]. unfold upd. destruct (dat o =? aux o); [reflexivity|]. rewrite Nat.eqb_refl. reflexivity.
Qed.
Lemma no_leak st : reachable st -> (forall v, vars st v = None) -> forall i, heap st i = None.
Proof.
  intros R H i. destruct (heap st i) as [c|] eqn:E; [|reflexivity]. exfalso. destruct (i_own _ (reachable_inv st R) i) as (_ & v & o & Hv & _); [congruence|]. rewrite H in Hv. discriminate.
Qed.
(** Anything can be copied under a new name. *)
Lemma copy_ok st v w o : reachable st -> vars st w = Some o -> vars st v = None -> exists st', step st (Copy v w) = Some st'.
Proof.
  intros R Ho Hv. destruct (i_self _ (reachable_inv st R) w o Ho) as (_ & _ & _ & d & a & D1 & D2 & D3). cbn. unfold load. rewrite Ho. cbn [bind]. rewrite D1, D2. cbn [bind].
  unfold create. rewrite Hv. destruct (hd o), d, a; try contradiction; cbn; eexists; reflexivity.
Qed.
Lemma again_ok st v c M N A a A' : given st v c M N A -> rows a = M -> cols a = N -> holds2 (smem st) a A' ->
  match c with Lud => getrf_for getrf M A' | Chold u => potrf_for conj potrf u M A' | Qrd => geqrf_for conj geqrf M N A' end ->
  exists st', step st (Decompose v a) = Some st' /\ given st' v c M N A'.
Proof.
  intros G R1 R2 H F. pose proof (given_reachable _ _ _ _ _ _ G) as R. destruct (given_factored _ _ _ _ _ _ G) as (x & L & d & _ & Hx).
  destruct (load_parts st v x L) as (o & Ho & Hh). pose proof (class_parts o x Hh) as Hc.
  assert (Q : class_of o = c /\ exists y, decomposed geqrf getrf potrf x a (smem st) = Some y).
  { destruct c, x as [l|k|q]; try contradiction; (split; [destruct Hx as (-> & _); exact Hc || exact Hc|]); cbn [decomposed].
    - destruct Hx as (E1 & E2 & _). unfold lud_decompose. rewrite (proj2 (Nat.eqb_eq _ _) (eq_trans R1 E1)), (proj2 (Nat.eqb_eq _ _) (eq_trans R2 E2)). cbn [andb].
      destruct (copy_in_ok (l_len l) (l_len l) a A' (smem st)) as (d0 & Ed & S); [congruence|congruence|exact H|]. rewrite Ed. cbn [bind]. rewrite E1 in F. destruct (F d0 S) as (? & ? & ? & -> & _). eexists; reflexivity.
    - destruct Hx as (E0 & E1 & E2 & _). unfold chold_decompose. rewrite (proj2 (Nat.eqb_eq _ _) (eq_trans R1 E1)), (proj2 (Nat.eqb_eq _ _) (eq_trans R2 E2)). cbn [andb].
      destruct (copy_in_ok (c_len k) (c_len k) a A' (smem st)) as (d0 & Ed & S); [congruence|congruence|exact H|]. rewrite Ed. cbn [bind]. rewrite E1, E0 in F. destruct (F d0 S) as (? & -> & _). eexists; reflexivity.
    - destruct Hx as (E1 & E2 & _). unfold qrd_decompose. rewrite (proj2 (Nat.eqb_eq _ _) (eq_trans R1 E1)), (proj2 (Nat.eqb_eq _ _) (eq_trans R2 E2)). cbn [andb].
      destruct (copy_in_ok (q_rows q) (q_cols q) a A' (smem st)) as (d0 & Ed & S); [congruence|congruence|exact H|]. rewrite Ed. cbn [bind]. rewrite E1, E2 in F. destruct (F d0 S) as (? & ? & -> & _). eexists; reflexivity. }
  destruct Q as (<- & y & D). subst M N.
  assert (E : exists st', step st (Decompose v a) = Some st').
  { cbn [SolverObj.step]. rewrite L. cbn [bind]. rewrite D. cbn [bind]. unfold store. rewrite Ho. cbn [bind]. destruct (parts y) as [[? ?] ?]. eexists. reflexivity. }
  destruct E as (st' & E). exists st'. split; [exact E|]. apply (given_decompose conj kdiv geqrf getrf potrf st st' v o a A' R Ho H E).
Qed.
End P.
