(** C22, C23 and C24: complex storage formats, component views, user storage. *)
From Coq Require Import List Arith ZArith Lia Bool.
From Verif Require Import Base Domain Layout Views ViewsProofs Storage StorageProofs.
Import ListNotations.
Local Open Scope nat_scope.

(** C22: writing one component of one element changes nothing else. *)
Theorem C22_component_write {V} (m : mem V) p n c i x : is_array m p n -> i < n ->
  exists m', cput m p c i x = Some m' /\ cget m' p c i = Some x /\
    (forall c' j, j < n -> (c', j) <> (c, i) -> cget m' p c' j = cget m p c' j) /\
    (forall a, ~ In a (all_cells p n) -> m' a = m a).
Proof. exact (component_lemma m p n c i x). Qed.

(** The component is the real or imaginary part of the element. *)
Theorem C22_component_read {V} (m : mem V) p i v : sget m p i = Some v ->
  cget m p Re i = Some (fst v) /\ cget m p Im i = Some (snd v).
Proof. intros E. unfold cget. rewrite E. split; reflexivity. Qed.

(** The pointer and strides reported for a component of any view address
    that component. *)
Theorem C22_component_pointer {V} v i r k (m : mem V) p c x :
  wf v -> in_range (sizes v) i -> names v i r -> index (root_layout v) r = Some k ->
  sget m p (Z.to_nat k) = Some x ->
  mload m (cptr (soffset p (Z.to_nat (ptr v))) c +
           dot_strides (fun d => cstride (fmt_of p) (vstride v d)) 0 i)%Z = Some (extract c x).
Proof. exact (component_pointer_lemma v i r k m p c x). Qed.

(** C23: read over write, in every format. *)
Theorem C23_put_get {V} (m : mem V) p n i v : is_array m p n -> i < n ->
  exists m', sput m p i v = Some m' /\ sget m' p i = Some v /\
    (forall j, j < n -> j <> i -> sget m' p j = sget m p j) /\
    (forall a, ~ In a (all_cells p n) -> m' a = m a).
Proof. exact (format_lemma m p n i v). Qed.

(** The element is stored in the cells of its format. *)
Theorem C23_cells {V} (m : mem V) p i x y : sget m p i = Some (x, y) ->
  match p with
  | Arr a | Int a => m (a + 2 * Z.of_nat i)%Z = Some x /\ m (a + 2 * Z.of_nat i + 1)%Z = Some y
  | Spl r s => m (r + Z.of_nat i)%Z = Some x /\ m (s + Z.of_nat i)%Z = Some y
  end.
Proof. exact (cells_lemma m p i x y). Qed.

(** Converting from any format to any format keeps every element. *)
Theorem C23_conversion {V} (m : mem V) d s n : is_array m d n -> is_array m s n -> apart d s n ->
  exists m', loop (copy_step (Some d) (Some s)) 0 n m = Some m' /\
    (forall i, i < n -> sget m' d i = sget m s i /\ sget m' s i = sget m s i) /\
    (forall a, ~ In a (all_cells d n) -> m' a = m a).
Proof. exact (conversion_lemma m d s n). Qed.

(** Pointers whose format is chosen at run time ignore the index: writing
    element 1 changes element 0. *)
Theorem C23_any_format_refuted : exists (m m' : mem Z) p n,
  is_array m p n /\ 1 < n /\ any_put m p 1 (7, 8)%Z = Some m' /\
  any_get m' p 0 <> any_get m p 0 /\ sget m' p 1 <> Some (7, 8)%Z.
Proof.
  eexists (fun _ => Some 0%Z), _, (Arr 0), 2. split; [|split; [lia|split; [reflexivity|split; cbn; discriminate]]].
  split; [|intros a _; discriminate]. repeat constructor; cbn; intuition discriminate.
Qed.

(** C24: every history of a block created on user storage behaves as the
    rules of admit and release say: no operation fails, every value read
    whose value the rules determine is that value, the user's memory at the
    end is what the rules say, and no cell is written but the
    block's own and those of the arrays it was bound to. *)
Theorem C24_history {V} F OWN (m : mem V) n u fresh known l a' es :
  own_ok F m OWN -> In (fresh, n) OWN -> user_array m OWN u n -> Forall (op_ok m OWN) l ->
  (forall c x, known c = Some x -> m c = Some x /\ user_cell OWN c) ->
  spec_run (mka n false u unknown known) l = Some (a', es) ->
  exists s m' s' rs, make_user F n (Some u) fresh = Some s /\ run F m s l = Some (m', s', rs) /\
    Forall2 (fun e r => forall v, e = Some v -> r = Some v) es rs /\
    (forall c x, amem a' c = Some x -> m' c = Some x) /\
    (forall c, ~ In c (all_cells u n) -> user_cell OWN c -> ~ In c (footprint l) -> m' c = m c).
Proof. exact (history_lemma F OWN m n u fresh known l a' es). Qed.

(** Admitting twice, or releasing twice, has no effect. *)
Theorem C24_idempotent {V} (m : mem V) s b :
  (admitted s = true -> admit m s b = Some (m, s)) /\ (admitted s = false -> release m s b = Some (m, s)).
Proof. exact (idempotent_lemma m s b). Qed.

(** A block without user storage: release(true) writes through the absent
    user pointer, although nothing was ever bound. *)
Theorem C24_release_without_user_storage_refuted : exists (m m1 : mem Z) s n,
  is_array m (Arr 0) n /\ s = sync (make_plain n) (Arr 0) /\ mput m s 0 (1, 2)%Z = Some m1 /\
  release m1 s true = None.
Proof.
  eexists (fun _ => Some 0%Z), _, _, 1. split; [|split; [reflexivity|split; reflexivity]].
  split; [|intros a _; discriminate]. repeat constructor; cbn; intuition discriminate.
Qed.

(** A split block on an interleaved user array: fill, admit, change, release,
    rebind to split arrays (used in place), and back; the values are
    the expected ones. *)
Definition ex_m : mem Z := fun a => if ((0 <=? a) && (a <? 40))%Z then Some a else None.
Definition ex_own := [(Spl 10 12, 2); (Spl 14 17, 3)].
Definition ex_ops : list (@op Z) :=
  [UWrite (Int 0) 1 (100, 101)%Z; Admit true; Get 0; Get 1; Put 0 (5, 6)%Z; Release true; URead (Int 0) 0;
   UWrite (Spl 20 23) 2 (9, 9)%Z; Rebind (Spl 20 23) 3 (Spl 14 17); Admit true; Get 2; Put 2 (8, 8)%Z; URead (Arr 0) 0;
   Release true; URead (Spl 20 23) 2].
Example C24_ex : own_ok F_split ex_m ex_own /\ user_array ex_m ex_own (Int 0) 2 /\ Forall (op_ok ex_m ex_own) ex_ops /\
  option_map snd (spec_run (mka 2 false (Int 0) unknown (fun a => if (a <? 10)%Z then ex_m a else None)) ex_ops) =
    Some [None; None; Some (0, 1)%Z; Some (100, 101)%Z; None; None; Some (5, 6)%Z; None; None; None; Some (9, 9)%Z; None; Some (5, 6)%Z; None; Some (8, 8)%Z].
Proof.
  assert (ND : forall l : list Z, (fix nd l := match l with [] => true | x :: r => negb (existsb (Z.eqb x) r) && nd r end) l = true -> NoDup l).
  { induction l as [|x l IH]; intros H; [constructor|]. apply andb_prop in H as [H1 H2]. constructor; [|auto].
    intros Hi. apply Bool.negb_true_iff, Bool.not_true_iff_false in H1. apply H1, existsb_exists. exists x. split; [exact Hi|apply Z.eqb_refl]. }
  assert (IA : forall p n, forallb (fun c => match ex_m c with Some _ => true | None => false end) (all_cells p n) = true ->
     forall a, In a (all_cells p n) -> ex_m a <> None).
  { intros p n H a Ha. rewrite forallb_forall in H. specialize (H a Ha). destruct (ex_m a); [discriminate|discriminate H]. }
  assert (UC : forall c, existsb (fun hk => existsb (Z.eqb c) (all_cells (fst hk) (snd hk))) ex_own = false -> user_cell ex_own c).
  { intros c H h k Hi Hc. apply Bool.not_true_iff_false in H. apply H, existsb_exists. exists (h, k). split; [exact Hi|].
    apply existsb_exists. exists c. split; [exact Hc|apply Z.eqb_refl]. }
  assert (CC : forall l, forallb (fun c => negb (existsb (fun hk => existsb (Z.eqb c) (all_cells (fst hk) (snd hk))) ex_own)) l = true ->
     forall c, In c l -> user_cell ex_own c).
  { intros l H c Hc. apply UC. rewrite forallb_forall in H. specialize (H c Hc). apply Bool.negb_true_iff in H. exact H. }
  assert (CM : forall l, forallb (fun c => match ex_m c with Some _ => true | None => false end) l = true -> forall c, In c l -> ex_m c <> None).
  { intros l H c Hc. rewrite forallb_forall in H. specialize (H c Hc). destruct (ex_m c); [discriminate|discriminate H]. }
  split; [|split; [|split]].
  - intros h n [E|[E|[]]]; injection E as <- <-; (split; [reflexivity|]); (split; [apply ND; reflexivity|apply IA; reflexivity]).
  - split; [split; [apply ND; reflexivity|apply IA; reflexivity]|apply CC; reflexivity].
  - repeat (apply Forall_cons; [first [exact I
      | split; [apply ND; reflexivity|intros c Hc; split; [revert c Hc; apply CM; reflexivity|revert c Hc; apply CC; reflexivity]]
      | split; [split; [split; [apply ND; reflexivity|apply IA; reflexivity]|apply CC; reflexivity]|cbn; auto]]|]). constructor.
  - reflexivity.
Qed.
Example C22_ex : is_array ex_m (Spl 10 20) 3 /\
  option_map (fun m => (cget m (Spl 10 20) Im 1, cget m (Spl 10 20) Re 1)) (cput ex_m (Spl 10 20) Im 1 99%Z) = Some (Some 99%Z, Some 11%Z).
Proof.
  split; [|reflexivity]. split; [|intros a Ha; cbn in Ha; decompose [or] Ha; subst; try contradiction; discriminate].
  repeat constructor; cbn; intuition discriminate.
Qed.
Example C23_ex : apart (Int 0) (Spl 10 20) 3 /\
  option_map (fun m => sget m (Int 0) 2) (loop (copy_step (Some (Int 0)) (Some (Spl 10 20))) 0 3 ex_m) = Some (Some (12, 22)%Z).
Proof. split; [intros a Ha Hb; cbn in Ha, Hb; lia|reflexivity]. Qed.

Print Assumptions C22_component_write.
Print Assumptions C22_component_pointer.
Print Assumptions C23_put_get.
Print Assumptions C23_conversion.
Print Assumptions C24_history.
Print Assumptions C24_idempotent.
