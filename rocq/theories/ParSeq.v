(** * Distributed expressions and programs of distributed statements

    Model of the assignment of an expression to a distributed view
    (src/ovxx/assign.hpp, src/ovxx/parallel/assign.hpp, expr.hpp,
    map_subset_block.hpp, assign_block_vector.hpp) and of programs in which
    every processor executes the same statements one after the other, with
    no synchronisation between them but the messages the statements
    themselves exchange.  Each view owns its storage.  The contents of a
    non-blocking message are read when it is sent; messages between two
    processors stay in order; whether a wait may end before the message has
    been received is left open. *)
From Coq Require Import List Arith ZArith Lia Bool.
From Verif Require Import Base Dist Domain Traversal Map ParAssign.
Import ListNotations.
Local Open Scope nat_scope.

(** ** Several blocks, several statements: what a processor can do *)

(** One element of an elementwise evaluation on local blocks: reads of the
    processor's own storage, constants and operations. *)
Inductive rexpr (V : Type) :=
| RRead (v : nat) (o : Z)
| RConst (x : V)
| RUn (f : V -> V) (a : rexpr V)
| RBin (f : V -> V -> V) (a b : rexpr V)
| RTern (f : V -> V -> V -> V) (a b c : rexpr V).
Arguments RRead {V}. Arguments RConst {V}. Arguments RUn {V}. Arguments RBin {V}. Arguments RTern {V}.

Fixpoint reval {V} (m : nat -> Z -> V) (e : rexpr V) : V :=
  match e with
  | RRead v o => m v o
  | RConst x => x
  | RUn f a => f (reval m a)
  | RBin f a b => f (reval m a) (reval m b)
  | RTern f a b c => f (reval m a) (reval m b) (reval m c)
  end.

(** The actions of ParAssign with the blocks they concern, the local
    evaluation of an expression into a block, and whatever the program does
    itself with elements of a block in its own storage. *)
Inductive gact (V : Type) :=
| GSend (src q : nat) (offs : list Z)
| GCopy (src dst : nat) (from to : list Z)
| GRecv (dst p : nat) (offs : list Z)
| GWait (q : nat)
| GEval (dst : nat) (elts : list (Z * rexpr V))
| GWork (blk : nat) (offs : list Z) (f : list V -> list V).
Arguments GSend {V}. Arguments GCopy {V}. Arguments GRecv {V}. Arguments GWait {V}. Arguments GEval {V}. Arguments GWork {V}.

Section Exec.
Context {V : Type}.

(** gmem r v o: offset o of block v in the storage of processor r. *)
Record gstate := {
  gprog : nat -> list (gact V);
  gmem : nat -> nat -> Z -> V;
  gchan : nat -> nat -> list (list V)
}.

(** Element by element: [lhs.put(i, rhs.get(i))]. *)
Definition eval_one (dst : nat) (m : nat -> Z -> V) (x : Z * rexpr V) : nat -> Z -> V :=
  upd m dst (wr (m dst) (fst x, reval m (snd x))).
Definition eval_all (dst : nat) (l : list (Z * rexpr V)) (m : nat -> Z -> V) : nat -> Z -> V :=
  fold_left (eval_one dst) l m.

(** The next state if processor [r] can make a step.  [eager r q k]: the
    transport buffers the message from r to q whose wait comes k actions
    before the end of r's program, so that this wait can end at once. *)
Definition pstep (eager : nat -> nat -> nat -> bool) (r : nat) (s : gstate) : option gstate :=
  match gprog s r with
  | [] => None
  | a :: k =>
      let p' := upd (gprog s) r k in
      let m := gmem s r in
      match a with
      | GSend src q offs =>
          Some {| gprog := p'; gmem := gmem s;
                  gchan := upd2 (gchan s) r q (gchan s r q ++ [map (m src) offs]) |}
      | GCopy src dst from to =>
          Some {| gprog := p';
                  gmem := upd (gmem s) r (upd m dst (wrs (m dst) (combine to (map (m src) from))));
                  gchan := gchan s |}
      | GRecv dst p offs =>
          match gchan s p r with
          | [] => None
          | msg :: c =>
              assert (length msg =? length offs) ;;
              Some {| gprog := p';
                      gmem := upd (gmem s) r (upd m dst (wrs (m dst) (combine offs msg)));
                      gchan := upd2 (gchan s) p r c |}
          end
      | GWait q =>
          if eager r q (length k) || (match gchan s r q with [] => true | _ => false end)
          then Some {| gprog := p'; gmem := gmem s; gchan := gchan s |}
          else None
      | GEval dst elts =>
          Some {| gprog := p'; gmem := upd (gmem s) r (eval_all dst elts m); gchan := gchan s |}
      | GWork blk offs f =>
          Some {| gprog := p';
                  gmem := upd (gmem s) r (upd m blk (wrs (m blk) (combine offs (f (map (m blk) offs)))));
                  gchan := gchan s |}
      end
  end.

(** Any interleaving of the processors. *)
Inductive gsteps (eager : nat -> nat -> nat -> bool) : nat -> gstate -> gstate -> Prop :=
| gs_0 s : gsteps eager 0 s s
| gs_S n r s t u : pstep eager r s = Some t -> gsteps eager n t u -> gsteps eager (S n) s u.

(** ** Blocks, expressions and statements *)

(** A distributed block: its map, the strides of the local subblock on each
    processor, and whether the map is of the type
    Map<Block_dist, Block_dist, Block_dist>. *)
Record var := { v_map : amap; v_st : nat -> list Z; v_bbb : bool }.

(** The right-hand side of an assignment: distributed blocks, scalars,
    generators (ramp and the like: a function of the global index) and
    elementwise operations. *)
Inductive pexpr :=
| PVar (v : nat)
| PScal (x : V)
| PGen (f : list nat -> V)
| PUn (f : V -> V) (a : pexpr)
| PBin (f : V -> V -> V) (a b : pexpr)
| PTern (f : V -> V -> V -> V) (a b c : pexpr).

(** [lhs = e]; [temps] are the blocks that hold the reorganized operands
    (Expr_block's dst_block_, expr.hpp 60-61, 74), one per distributed
    leaf of the expression, should they be needed. *)
Record stmt := { s_lhs : nat; s_rhs : pexpr; s_temps : list nat }.

Section Compile.
Variable D : nat -> var.

(** map_equal (map.hpp 1177-1182, replicated_map.hpp 245-261) for maps built
    by the constructors and applied to the same domain; maps of different
    type are different (map_traits.hpp 40-44). *)
Definition same_map (a b : amap) : bool :=
  Bool.eqb (a_rep a) (a_rep b) && dists_eq (map fst (a_dims a)) (map fst (a_dims b))
  && list_eqb (a_pvec a) (a_pvec b).

(** has_same_map (map_traits.hpp 57-61, unary.hpp 225-230, binary.hpp 321-331,
    ternary.hpp 325-338; scalar_map.hpp 133-137: scalars always match;
    a generator's map never equals another map). *)
Fixpoint has_same_map (m : amap) (e : pexpr) : bool :=
  match e with
  | PVar v => same_map m (v_map (D v))
  | PScal _ => true
  | PGen _ => false
  | PUn _ a => has_same_map m a
  | PBin _ a b => has_same_map m a && has_same_map m b
  | PTern _ a b c => has_same_map m a && has_same_map m b && has_same_map m c
  end.

(** All indices of a box, row by row. *)
Fixpoint box_indices (b : list (nat * nat)) : list (list nat) :=
  match b with
  | [] => [[]]
  | (f, n) :: b' => flat_map (fun i => map (cons i) (box_indices b')) (seq f n)
  end.

(** get_local_block of the right-hand side when all maps are equal: the
    local subblocks of the operands (unary.hpp 195-203, binary.hpp 283-294,
    ternary.hpp 280-294, scalar.hpp 108). *)
Fixpoint local_elem (r : nat) (l : list nat) (e : pexpr) : option (rexpr V) :=
  match e with
  | PVar v => Some (RRead v (off (v_st (D v) r) l))
  | PScal x => Some (RConst x)
  | PGen f => Some (RConst (f l))
  | PUn f a => x <- local_elem r l a ;; Some (RUn f x)
  | PBin f a b => x <- local_elem r l a ;; y <- local_elem r l b ;; Some (RBin f x y)
  | PTern f a b c =>
      x <- local_elem r l a ;; y <- local_elem r l b ;; z <- local_elem r l c ;; Some (RTern f x y z)
  end.

(** parallel/assign.hpp 32-48, 69-85: same maps, local assignment over the
    whole local block. *)
Definition local_assign (s : stmt) (r : nat) : option (list (gact V)) :=
  match a_subblock (v_map (D (s_lhs s))) r with
  | None => Some []
  | Some sb =>
      ext <- a_lext (v_map (D (s_lhs s))) sb ;;
      es <- collectL (box_indices (map (fun n => (0, n)) ext)) (fun l =>
        x <- local_elem r l (s_rhs s) ;; Some [(off (v_st (D (s_lhs s)) r) l, x)]) ;;
      Some [GEval (s_lhs s) es]
  end.

(** ** Block-vector assignment (assign_block_vector.hpp) *)

(** One-dimensional maps with a Block_dist or Whole_dist dimension
    (assign_fwd.hpp 28-41, map.hpp 1199-1208; a Replicated_map is none). *)
Definition is_block_dist (a : amap) : bool :=
  match a_dims a with
  | [(Whole, _)] | [(Block _, _)] => negb (a_rep a)
  | _ => false
  end.
Definition is_blkvec (lhs rhs : amap) : bool := is_block_dist lhs && is_block_dist rhs.

(** domain(first(ldom) + (first(intr) - first(gdom)), extent(intr)), l.328-331,
    422-425. *)
Definition part (ldom gdom intr : dom) : dom :=
  mkdom (dfirst ldom + (dfirst intr - dfirst gdom)) 1 (dlen intr).

(** The one patch of a subblock: OVXX_PRECONDITION(num_patches == 1). *)
Definition one_patch (a : amap) (sb : nat) : option (dom * dom) :=
  k <- a_num_patches a sb ;; assert (k =? 1) ;;
  g <- a_gdom a sb 0 ;; l <- a_ldom a sb 0 ;;
  match g, l with
  | [g], [l] => Some (mkdom (Z.of_nat (fst g)) 1 (Z.of_nat (snd g)),
                      mkdom (Z.of_nat (fst l)) 1 (Z.of_nat (snd l)))
  | _, _ => None
  end.

(** build_send_list, l.283-363: records (processor, first, length). *)
Definition bv_send_list (lhs rhs : amap) (rank : nat) : option (list (nat * dom)) :=
  match a_subblock rhs rank with
  | None => Some []
  | Some rsb =>
      f <- a_first rhs rsb ;;
      if f =? rank then
        rd <- one_patch rhs rsb ;;
        collectL (a_ranks lhs) (fun proc =>
          if proc =? rank then Some []
          else match a_subblock lhs proc with
               | None => Some []
               | Some lsb =>
                   has <- processor_has_block rhs proc rsb ;;
                   if (has : bool) then Some [] else
                   ld <- one_patch lhs lsb ;;
                   i <- intersect (fst rd) (fst ld) ;;
                   match i with
                   | None => Some []
                   | Some intr => Some [(proc, part (snd rd) (fst rd) intr)]
                   end
               end)
      else Some []
  end.
(** build_recv_list, l.370-455. *)
Definition bv_recv_list (lhs rhs : amap) (rank : nat) : option (list (nat * dom)) :=
  match a_subblock lhs rank with
  | None => Some []
  | Some lsb =>
      ld <- one_patch lhs lsb ;;
      collectL (a_ranks rhs) (fun proc =>
        if proc =? rank then Some []
        else match a_subblock rhs proc with
             | None => Some []
             | Some rsb =>
                 f <- a_first rhs rsb ;;
                 if f =? proc then
                   has <- processor_has_block rhs rank rsb ;;
                   if (has : bool) then Some [] else
                   rd <- one_patch rhs rsb ;;
                   i <- intersect (fst ld) (fst rd) ;;
                   match i with
                   | None => Some []
                   | Some intr => Some [(proc, part (snd ld) (fst ld) intr)]
                   end
                 else Some []
             end)
  end.
(** build_copy_list, l.459-509. *)
Definition bv_copy_list (lhs rhs : amap) (rank : nat) : option (list (dom * dom)) :=
  match a_subblock lhs rank, a_subblock rhs rank with
  | Some lsb, Some rsb =>
      ld <- one_patch lhs lsb ;;
      rd <- one_patch rhs rsb ;;
      i <- intersect (fst rd) (fst ld) ;;
      match i with
      | None => Some []
      | Some intr => Some [(part (snd rd) (fst rd) intr, part (snd ld) (fst ld) intr)]
      end
  | _, _ => Some []
  end.

(** The offsets of a local domain. *)
Definition cells (d : dom) (st : Z) : list Z := record (dfirst d * st) st (dlen d).

(** The program of one processor.  Source: Persistent_data with a dense
    layout gives the elements in order, through a copy if the local block's
    stride is not 1.  Destination (l.63-64, 155-156): the receive goes to
    the local block if its stride is 1 (is_compatible, accessor.hpp 68-70);
    otherwise to a buffer [buf], which is not copied back: the backend of
    Persistent_data is an Accessor for dda::in (persistent.hpp 27), whose
    sync_out does nothing (accessor.hpp 428-431, 589-593). *)
Definition bv_program (buf src dst : nat) (r : nat) : option (list (gact V)) :=
  let lhs := v_map (D dst) in
  let rhs := v_map (D src) in
  let rst := zdim (v_st (D src) r) 0 in
  let lst := zdim (v_st (D dst) r) 0 in
  s <- bv_send_list lhs rhs r ;;
  c <- bv_copy_list lhs rhs r ;;
  v <- bv_recv_list lhs rhs r ;;
  Some (map (fun m => GSend src (fst m) (cells (snd m) rst)) s ++
        map (fun m => GCopy src dst (cells (fst m) rst) (cells (snd m) lst)) c ++
        map (fun m => if (lst =? 1)%Z then GRecv dst (fst m) (cells (snd m) 1)
                      else GRecv buf (fst m) (cells (snd m) 1)) v ++
        map (fun m => GWait (fst m)) s).

(** The chained assignment (ParAssign) between blocks [src] and [dst]. *)
Definition tag (src dst : nat) (a : action) : gact V :=
  match a with
  | ASend q offs => GSend src q offs
  | ACopy from to => GCopy src dst from to
  | ARecv p offs => GRecv dst p offs
  | AWait q => GWait q
  end.
(** [O]: the dimension order of the destination's layout. *)
Variable O : nat -> list nat.
Variable buf : nat.
Definition assign_program (src dst : nat) (r : nat) : option (list (gact V)) :=
  if is_blkvec (v_map (D dst)) (v_map (D src)) then bv_program buf src dst r
  else p <- program (O dst) (v_map (D dst)) (v_map (D src)) (v_st (D src) r) (v_st (D dst) r) r ;;
       Some (map (tag src dst) p).

(** ** General parallel expressions (expr.hpp) *)

(** choose_local_block (expr.hpp 168-185): the local part of a generator is
    the sub-block over the global domain of patch 0 for replicated maps and
    maps of three Block_dists, and a map_subset_block otherwise
    (map_subset_block.hpp 45-77). *)
Definition remap_index (d : var) (sb : nat) (l : list nat) : option (list nat) :=
  let a := v_map d in
  if a_rep a || v_bbb d
  then g <- a_gdom a sb 0 ;; Some (domain_nth g l)
  else a_gfl a sb l.
(** Every processor builds that local part, also one without a subblock
    (create_subblock, expr.hpp 145-164); a map then gives an empty domain
    (map.hpp 899-919, 987-994), a replicated map requires subblock 0
    (replicated_map.hpp 159-162). *)
Fixpoint has_gen (e : pexpr) : bool :=
  match e with
  | PVar _ | PScal _ => false
  | PGen _ => true
  | PUn _ a => has_gen a
  | PBin _ a b => has_gen a || has_gen b
  | PTern _ a b c => has_gen a || has_gen b || has_gen c
  end.
Definition gen_built (a : amap) (e : pexpr) (r : nat) : bool :=
  negb (has_gen e && a_rep a && match a_subblock a r with Some _ => false | None => true end).

(** One element of the reorganized expression: distributed leaves are read
    from their temporaries, taken from [ts] from left to right. *)
Fixpoint remap_elem (d : var) (r sb : nat) (l : list nat) (e : pexpr) (ts : list nat)
    : option (rexpr V * list nat) :=
  match e with
  | PVar _ =>
      match ts with
      | t :: ts' => Some (RRead t (off (v_st (D t) r) l), ts')
      | [] => None
      end
  | PScal x => Some (RConst x, ts)
  | PGen f => g <- remap_index d sb l ;; Some (RConst (f g), ts)
  | PUn f e1 =>
      x <- remap_elem d r sb l e1 ts ;; Some (RUn f (fst x), snd x)
  | PBin f e1 e2 =>
      x <- remap_elem d r sb l e1 ts ;;
      y <- remap_elem d r sb l e2 (snd x) ;;
      Some (RBin f (fst x) (fst y), snd y)
  | PTern f e1 e2 e3 =>
      x <- remap_elem d r sb l e1 ts ;;
      y <- remap_elem d r sb l e2 (snd x) ;;
      z <- remap_elem d r sb l e3 (snd y) ;;
      Some (RTern f (fst x) (fst y) (fst z), snd z)
  end.

(** exec_expr (expr.hpp 266-275) visits the leaves from left to right; a
    distributed leaf's exec() assigns it to its temporary (l.82). *)
Fixpoint leaf_vars (e : pexpr) : list nat :=
  match e with
  | PVar v => [v]
  | PScal _ | PGen _ => []
  | PUn _ a => leaf_vars a
  | PBin _ a b => leaf_vars a ++ leaf_vars b
  | PTern _ a b c => leaf_vars a ++ leaf_vars b ++ leaf_vars c
  end.
Definition reorg (s : stmt) (r : nat) : option (list (gact V)) :=
  assert (length (s_temps s) =? length (leaf_vars (s_rhs s))) ;;
  collectL (combine (leaf_vars (s_rhs s)) (s_temps s)) (fun vt => assign_program (fst vt) (snd vt) r).

(** Expression::operator() (expr.hpp 312-345): reorganize, then assign the
    local views patch by patch. *)
Definition expr_assign (s : stmt) (r : nat) : option (list (gact V)) :=
  let d := D (s_lhs s) in
  let a := v_map d in
  assert (gen_built a (s_rhs s) r) ;;
  ra <- reorg s r ;;
  ev <- match a_subblock a r with
        | None => Some []
        | Some sb =>
            k <- a_num_patches a sb ;;
            collect 0 k (fun p =>
              dom <- a_ldom a sb p ;;
              es <- collectL (box_indices dom) (fun l =>
                x <- remap_elem d r sb l (s_rhs s) (s_temps s) ;;
                Some [(off (v_st (D (s_lhs s)) r) l, fst x)]) ;;
              Some [GEval (s_lhs s) es])
        end ;;
  Some (ra ++ ev).

(** The dispatch on the right-hand side (assign.hpp 36-75, parallel/assign.hpp
    26-93). *)
Definition stmt_program (s : stmt) (r : nat) : option (list (gact V)) :=
  if has_same_map (v_map (D (s_lhs s))) (s_rhs s) then local_assign s r
  else match s_rhs s with
       | PVar v => assign_program v (s_lhs s) r
       | _ => expr_assign s r
       end.

(** Every processor executes the statements in order. *)
Definition spmd (ss : list stmt) (r : nat) : option (list (gact V)) :=
  collectL ss (fun s => stmt_program s r).
End Compile.

(** * Specification *)

(** The value of an expression at a global index, given the global contents
    of all blocks. *)
Fixpoint geval (X : nat -> list nat -> V) (g : list nat) (e : pexpr) : V :=
  match e with
  | PVar v => X v g
  | PScal x => x
  | PGen f => f g
  | PUn f a => f (geval X g a)
  | PBin f a b => f (geval X g a) (geval X g b)
  | PTern f a b c => f (geval X g a) (geval X g b) (geval X g c)
  end.

(** What a sequential program does to the global contents. *)
Definition run_stmt (X : nat -> list nat -> V) (s : stmt) : nat -> list nat -> V :=
  fun v g => if v =? s_lhs s then geval X g (s_rhs s) else X v g.
Definition run (X : nat -> list nat -> V) (ss : list stmt) : nat -> list nat -> V :=
  fold_left run_stmt ss X.

(** A block of a program on [n] processors: a map over some of them, an
    order of its dimensions, and subblocks whose elements have cells of
    their own. *)
Record var_ok (n : nat) (O : list nat) (d : var) : Prop := {
  vo_map : amap_ok (v_map d);
  vo_procs : Forall (fun p => p < n) (a_pvec (v_map d));
  vo_order : order_valid (length (a_dims (v_map d))) O = true;
  vo_st : forall r, length (v_st d r) = length (a_dims (v_map d));
  vo_cell : forall r sb ext, a_subblock (v_map d) r = Some sb -> a_lext (v_map d) sb = Some ext ->
    own_cell ext (v_st d r);
  vo_bbb : v_bbb d = true -> a_rep (v_map d) = false /\
    Forall (fun x => exists k, fst x = Block k) (a_dims (v_map d))
}.

(** The local subblocks of a one-dimensional block are contiguous. *)
Definition unit_stride (d : var) : Prop := length (a_dims (v_map d)) = 1 -> forall r, v_st d r = [1%Z].

(** A statement of a program with the blocks [U], executed when the blocks
    [I] have values: it reads these, between blocks of the same size; unless a
    single block is assigned, the temporaries are distributed like the destination, dense, and used for
    nothing else; a block-vector destination is contiguous; every processor
    is in a replicated destination of a generator. *)
Record stmt_ok (n : nat) (D : nat -> var) (O : nat -> list nat) (U : nat -> Prop) (I : list nat) (s : stmt) : Prop := {
  so_lhs : U (s_lhs s);
  so_reads : forall v, In v (leaf_vars (s_rhs s)) -> In v I;
  so_size : forall v, In v (leaf_vars (s_rhs s)) ->
    a_ext (v_map (D v)) = a_ext (v_map (D (s_lhs s)));
  so_temps : (forall v, s_rhs s <> PVar v) -> length (s_temps s) = length (leaf_vars (s_rhs s)) /\ NoDup (s_temps s);
  so_temp : (forall v, s_rhs s <> PVar v) -> forall t, In t (s_temps s) -> ~ U t /\ var_ok n (O t) (D t) /\
    v_map (D t) = v_map (D (s_lhs s)) /\ unit_stride (D t);
  so_direct : forall v, s_rhs s = PVar v -> is_blkvec (v_map (D (s_lhs s))) (v_map (D v)) = true ->
    unit_stride (D (s_lhs s));
  so_gen : has_gen (s_rhs s) = true -> a_rep (v_map (D (s_lhs s))) = true ->
    forall r, r < n -> In r (a_pvec (v_map (D (s_lhs s))))
}.
Inductive prog_ok (n : nat) (D : nat -> var) (O : nat -> list nat) (U : nat -> Prop)
    : list nat -> list stmt -> Prop :=
| po_nil I : prog_ok n D O U I []
| po_cons I s ss : stmt_ok n D O U I s -> prog_ok n D O U (s_lhs s :: I) ss ->
    prog_ok n D O U I (s :: ss).
End Exec.
Arguments gstate : clear implicits.
Arguments pexpr : clear implicits.
Arguments stmt : clear implicits.
