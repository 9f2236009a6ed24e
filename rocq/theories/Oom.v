(** The library when memory runs out: some of its new-expressions throw std::bad_alloc.

    The library contains two new-expressions (error.hpp:286 and 305). The functions in which they are used, and what becomes of the exception:

    - on_error (dynamic_load<true> and dynamic_load_accumulate<true>, error.hpp:357-397) catches and drops it;
    - new_error, load (load_item, error.hpp:499-524), import_error_code (601), context::unload (context.hpp:197, 359) and try_capture_all
      (handle_errors.hpp:719, 780, 812) are noexcept: std::terminate is called;
    - the unloading of a captured result (capture_list.hpp:86-96, result.hpp:315, 590-596) lets it pass. How a program goes on from there is not modelled: 
      its run ends here as if std::terminate was called. *)
From Verif Require Export Interp.
Open Scope Z_scope.

(** Which allocations fail: f_node by the number of the attempt ([na] counts the attempts), f_exn (for the node with an exception) by the context
    try_capture_all uses, which is a new one for each call. *)
Record fails := Fails { f_node : nat -> bool; f_exn : cid -> bool }.

Section oom.
Context (G : cfg) (F : fails).

(** dynamic_allocator::dynamic_load, error.hpp:279-289. False: new has thrown; no node was made (line 286 throws before the node's constructor
    is entered), the assertions (283-285) have been made. *)
Definition oda_load (c : cid) (id : Z) (T : ety) (v : val) (m : mem) : res (bool * mem) :=
  if f_node F (na m) then
    let! d := deref (dhp m !! c) in
    let! _ := (if d_last d || negb (g_asserts G) then Ok tt else Fail UAF) in
    let! _ := assert G (bool_decide (tls m !! T = None)) in
    Ok (false, set_na (S (na m)) m)
  else let! m1 := da_load G c id T v m in Ok (true, m1).

(** dynamic_load_, error.hpp:333-343: slot<dynamic_allocator>::load (341) has happened when new throws *)
Definition odyn_load (id : Z) (T : ety) (v : val) (m : mem) : res (bool * mem) :=
  match tlsd m with
  | None => Ok (true, m)
  | Some c =>
      let! d := deref (dhp m !! c) in
      if negb (d_key d =? 0) then oda_load c id T v m
      else let! m1 := dslot_load G c id m in oda_load c id T v m1
  end.
(** dynamic_accumulate_, error.hpp:345-355: the function is not called if new throws *)
Definition odyn_accumulate (id : Z) (T : ety) (tag : Z) (f : val -> val) (m : mem) (g : glob) : res (bool * (mem * glob)) :=
  match tlsd m with
  | None => Ok (true, (m, g))
  | Some c =>
      let! d := deref (dhp m !! c) in
      let! m1 := (if d_key d =? id then Ok m else dslot_load G c id m) in
      let! bm := oda_load c id T (f (g_def G T)) m1 in
      if fst bm then Ok (true, (snd bm, emit (EvAcc tag) g)) else Ok (false, (snd bm, g))
  end.

(** dynamic_load<OnError>, dynamic_load_accumulate<OnError>, error.hpp:357-397: on_error catches; otherwise the exception meets a noexcept *)
Definition caught_if (onerr : bool) {A} (r : res (bool * A)) : res A :=
  let! x := r in if fst x || onerr then Ok (snd x) else Fail Assert (* std::terminate *).

(** load_slot, load_slot_deferred, load_slot_accumulate, error.hpp:428-486: as in Mem.v, with the above in place of dyn_load and dyn_accumulate *)
Definition oload (onerr : bool) (id : Z) (it : item) (m : mem) (g : glob) : res (mem * glob) :=
  match it with
  | IVal T v =>
      match tls m !! T with
      | Some _ => mload G onerr id it m g
      | None => if g_capture G then let! m1 := caught_if onerr (odyn_load id T v m) in Ok (m1, g) else Ok (m, g)
      end
  | IDef T tag gf =>
      match tls m !! T with
      | Some _ => mload G onerr id it m g
      | None => if g_capture G then let! m1 := caught_if onerr (odyn_load id T (gf (tr g)) m) in Ok (m1, emit (EvDefer tag) g) else Ok (m, g)
      end
  | IAcc T tag f =>
      match tls m !! T with
      | Some _ => mload G onerr id it m g
      | None => if g_capture G then caught_if onerr (odyn_accumulate id T tag f m g) else Ok (m, g)
      end
  | IVoid tag => mload G onerr id it m g
  end.

(** An operation which ends the run if one of its allocations fails: those numbered from [na m] on. *)
Definition unless_fails {A} (p : A -> mem) (m : mem) (r : res A) : res A :=
  let! a := r in if existsb (f_node F) (seq (na m) (na (p a) - na m)) then Fail Assert else Ok a.

(** The library *)
Definition omach : machine :=
  Machine mem oload
    (fun id l m g => unless_fails fst m (mcap_unload G id l m g))
    (mnew G) (mact G) (mdeact G) misact (mdestroy G) (mdrop G)
    (fun c id m g => unless_fails fst m (munload G c id m g))
    (mget G) mset (mprint G) (mdetails G)
    (fun c id b m => if b && f_exn F c then Fail Assert else mextract G c id b m).

(** Builds without exceptions: on_error has no try block (error.hpp:357-397 without the lines under BOOST_LEAF_NO_EXCEPTIONS). Where new fails nothing can catch the exception: 
    the program ends, wherever that is. *)
Definition oloadN (onerr : bool) (id : Z) (it : item) (m : mem) (g : glob) : res (mem * glob) :=
  match it with
  | IVal T _ | IDef T _ _ | IAcc T _ _ => match tls m !! T with Some _ => mload G onerr id it m g | None => oload false id it m g end
  | IVoid _ => mload G onerr id it m g
  end.
Definition omachN : machine :=
  Machine mem oloadN
    (fun id l m g => unless_fails fst m (mcap_unload G id l m g))
    (mnew G) (mact G) (mdeact G) misact (mdestroy G) (mdrop G)
    (fun c id m g => unless_fails fst m (munload G c id m g))
    (mget G) mset (mprint G) (mdetails G) (mextract G).
End oom.

Definition plenty : fails := Fails (fun _ => false) (fun _ => false).
