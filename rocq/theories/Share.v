(** Contexts shared by threads. Error objects live in context objects, which any thread may be given a reference to or move; what
    belongs to a thread is its pointers to the innermost slots (config/tls_cpp11.hpp:26-68) and its current error id. *)
From Verif Require Export Mem.
Open Scope Z_scope.

Notation tid := nat.

Section move.
Context (G : cfg).

(** slot::slot(slot &&), error.hpp:123-128, with optional(optional &&), optional.hpp:37-45; for dynamic_allocator error.hpp:269-277 and
    capture_list.hpp:71-75 *)
Definition sty_move (c c' : cid) (t : sty) (m : mem) : res mem :=
  match t with
  | SE T =>
      let! s := deref (hp m !! inl (c, T)) in
      let! _ := assert G (bool_decide (e_prev s = None)) in
      Ok (set_hp (<[inl (c, T) := ESlot 0 (e_val s) (e_prev s)]> (<[inl (c', T) := ESlot (e_key s) (e_val s) None]> (hp m))) m)
  | SDA =>
      let! d := deref (dhp m !! c) in
      let! _ := (if g_asserts G && negb (d_key d =? 0) && negb (d_last d) then Fail UAF else Ok tt) in
      let! _ := assert G (bool_decide (d_prev d = None)) in
      Ok (set_dhp (<[c := DSlot 0 [] true (d_prev d)]> (<[c' := DSlot (d_key d) (d_nodes d) (d_last d) None]> (dhp m))) m)
  end.

(** context::context(context &&), context.hpp:309-314 *)
Definition mmove (c : cid) (m : mem) : res (cid * mem) :=
  let! k := deref (ctxs m !! c) in
  let c' := nc m in
  let! m1 := for_tup (sty_move c c') (k_tup k) m in
  let! _ := assert G (negb (k_act k)) in
  Ok (c', set_ctxs (<[c' := CCtx (k_tup k) false]> (ctxs m1)) (set_nc (S c') m1)).

End move.

(** The memory of a process: slots and contexts, and for each thread what is thread_local. [x_thr]: thread_id_ of a context that is active
    (context.hpp:279-281). *)
Record shared := Shared {
  x_hp : gmap addr eslot; x_dhp : gmap cid dslot; x_ctxs : gmap cid cctx; x_nc : cid; x_na : nat; x_thr : gmap cid tid;
  x_tls : tid -> gmap ety addr; x_tlsd : tid -> option cid; x_glob : tid -> glob }.

(** No contexts; [g]: the state of the threads otherwise. *)
Definition shared0 (g : tid -> glob) : shared := Shared ∅ ∅ ∅ 0%nat 0%nat ∅ (fun _ => ∅) (fun _ => None) g.

Definition upd {A} (t : tid) (a : A) (f : tid -> A) : tid -> A := fun u => if decide (u = t) then a else f u.

(** What thread t sees, and the memory after thread t has changed it. *)
Definition view (t : tid) (X : shared) : mem := Mem (x_hp X) (x_dhp X) (x_tls X t) (x_tlsd X t) (x_ctxs X) (x_nc X) (x_na X).
Definition back (t : tid) (m : mem) (g : glob) (X : shared) : shared :=
  Shared (hp m) (dhp m) (ctxs m) (nc m) (na m) (x_thr X) (upd t (tls m) (x_tls X)) (upd t (tlsd m) (x_tlsd X)) (upd t g (x_glob X)).
Definition set_thr (h : gmap cid tid) (X : shared) : shared :=
  Shared (x_hp X) (x_dhp X) (x_ctxs X) (x_nc X) (x_na X) h (x_tls X) (x_tlsd X) (x_glob X).

(** What a thread can do with contexts. *)
Inductive top :=
| TNew (l : list ety)                 (* context<l...>(), context.hpp:316-319 *)
| TMove (c : cid)                     (* context(std::move(c)) *)
| TAct (c : cid)                      (* c.activate() *)
| TDeact (c : cid)                    (* c.deactivate() *)
| TUnload (c : cid) (id : Z)          (* c.unload(id) *)
| TLoad (id : Z) (T : ety) (v : val)  (* id.load(v) *)
| TDestroy (c : cid).                 (* ~context() *)

Definition xstep (G : cfg) (t : tid) (o : top) (X : shared) : res shared :=
  let m := view t X in
  let g := x_glob X t in
  match o with
  | TNew l => Ok (back t (snd (mnew G (map SE l) m)) g X)
  | TMove c => let! cm := mmove G c m in Ok (back t (snd cm) g X)
  | TAct c => let! m1 := mact G c m in Ok (set_thr (<[c := t]> (x_thr X)) (back t m1 g X))    (* context.hpp:336-345 *)
  | TDeact c =>                                                                               (* context.hpp:347-357 *)
      let! _ := assert G (bool_decide (x_thr X !! c = Some t)) in
      let! m1 := mdeact G c m in Ok (set_thr (delete c (x_thr X)) (back t m1 g X))
  | TUnload c id => let! mg := munload G c id m g in Ok (back t (fst mg) (snd mg) X)
  | TLoad id T v => let! mg := mload G false id (IVal T v) m g in Ok (back t (fst mg) (snd mg) X)
  | TDestroy c => let! m1 := mdestroy G c m in Ok (back t m1 g X)
  end.

(** Any interleaving of the operations of any number of threads. *)
Fixpoint xrun (G : cfg) (l : list (tid * top)) (X : shared) : res shared :=
  match l with [] => Ok X | (t, o) :: l' => let! X1 := xstep G t o X in xrun G l' X1 end.
