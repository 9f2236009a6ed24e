(** The pointer machine: LEAF's storage of error objects for one thread, function by function. *)
From Verif Require Export Prog.
Open Scope Z_scope.

(** Address of a slot<E>: member of a context object's tuple, identified by context and type,
    or a heap node (error.hpp:286). Context identities and node numbers are never reused. *)
Notation addr := ((cid * ety) + nat)%type.

(** slot<E>, error.hpp:106-165; optional<E>, optional.hpp:18-22 (the value is meaningful if the key is not 0). *)
Record eslot := ESlot { e_key : Z; e_val : val; e_prev : option addr }.

(** slot<dynamic_allocator>; the nodes of the capture_list in order, each with its type and address;
    [d_last] is false when last_ (error.hpp:258) points into a freed node. *)
Record dslot := DSlot { d_key : Z; d_nodes : list (ety * nat); d_last : bool; d_prev : option cid }.

(** context<...>, context.hpp:275-277. *)
Record cctx := CCtx { k_tup : list sty; k_act : bool }.

Record mem := Mem {
  hp : gmap addr eslot;      (* living slot<E> objects *)
  dhp : gmap cid dslot;      (* living slot<dynamic_allocator> objects, by the context they belong to *)
  tls : gmap ety addr;       (* tls::read_ptr<slot<E>>() when not null *)
  tlsd : option cid;         (* tls::read_ptr<slot<dynamic_allocator>>() *)
  ctxs : gmap cid cctx;      (* living context objects *)
  nc : cid;                  (* next context identity *)
  na : nat }.                (* next node number *)

Definition set_hp (h : gmap addr eslot) (m : mem) := Mem h (dhp m) (tls m) (tlsd m) (ctxs m) (nc m) (na m).
Definition set_dhp (d : gmap cid dslot) (m : mem) := Mem (hp m) d (tls m) (tlsd m) (ctxs m) (nc m) (na m).
Definition set_tls (t : gmap ety addr) (m : mem) := Mem (hp m) (dhp m) t (tlsd m) (ctxs m) (nc m) (na m).
Definition set_tlsd (t : option cid) (m : mem) := Mem (hp m) (dhp m) (tls m) t (ctxs m) (nc m) (na m).
Definition set_ctxs (c : gmap cid cctx) (m : mem) := Mem (hp m) (dhp m) (tls m) (tlsd m) c (nc m) (na m).
Definition set_nc (n : cid) (m : mem) := Mem (hp m) (dhp m) (tls m) (tlsd m) (ctxs m) n (na m).
Definition set_na (n : nat) (m : mem) := Mem (hp m) (dhp m) (tls m) (tlsd m) (ctxs m) (nc m) n.

Definition mem0 : mem := Mem ∅ ∅ ∅ None ∅ 0%nat 0%nat.

Definition deref {A} (o : option A) : res A := match o with Some a => Ok a | None => Fail UAF end.

Section mem.
Context (G : cfg).

(** tls::write_ptr<slot<E>>(p) *)
Definition tls_write (T : ety) (p : option addr) (m : mem) : mem :=
  set_tls (partial_alter (fun _ => p) T (tls m)) m.

(** slot<E>::activate, error.hpp:135-139 *)
Definition slot_activate (a : addr) (T : ety) (m : mem) : res mem :=
  let! s := deref (hp m !! a) in
  Ok (tls_write T (Some a) (set_hp (<[a := ESlot (e_key s) (e_val s) (tls m !! T)]> (hp m)) m)).

(** slot<E>::deactivate, error.hpp:141-144 *)
Definition slot_deactivate (a : addr) (T : ety) (m : mem) : res mem :=
  let! s := deref (hp m !! a) in
  Ok (tls_write T (e_prev s) m).

(** slot<E>::~slot, error.hpp:130-133, and end of the object's life *)
Definition slot_free (a : addr) (T : ety) (m : mem) : res mem :=
  let! _ := deref (hp m !! a) in
  let! _ := assert G (bool_decide (tls m !! T ≠ Some a)) in
  Ok (set_hp (delete a (hp m)) m).

(** optional<E>::load(key, v), optional.hpp:109-134 *)
Definition slot_load (a : addr) (id : Z) (v : val) (m : mem) : res mem :=
  let! s := deref (hp m !! a) in
  let! _ := assert G (negb (id =? 0)) in
  Ok (set_hp (<[a := ESlot id v (e_prev s)]> (hp m)) m).

(** optional<E>::reset, optional.hpp:100-107 *)
Definition slot_reset (a : addr) (m : mem) : res mem :=
  let! s := deref (hp m !! a) in
  Ok (set_hp (<[a := ESlot 0 (e_val s) (e_prev s)]> (hp m)) m).

(** A list of nodes, one after the other (capture_list::for_each, capture_list.hpp:56-61). *)
Fixpoint for_nodes (f : ety -> nat -> mem -> res mem) (l : list (ety * nat)) (m : mem) : res mem :=
  match l with
  | [] => Ok m
  | (T, n) :: l' => let! m1 := f T n m in for_nodes f l' m1
  end.

(** slot<dynamic_allocator>::activate, error.hpp:135-139 *)
Definition dslot_activate (c : cid) (m : mem) : res mem :=
  let! d := deref (dhp m !! c) in
  Ok (set_tlsd (Some c) (set_dhp (<[c := DSlot (d_key d) (d_nodes d) (d_last d) (tlsd m)]> (dhp m)) m)).

(** slot<dynamic_allocator>::deactivate, error.hpp:317-323 with dynamic_allocator::deactivate 291-298 *)
Definition dslot_deactivate (c : cid) (m : mem) : res mem :=
  let! d := deref (dhp m !! c) in
  let! m1 := (if d_key d =? 0 then Ok m
              else for_nodes (fun T n => slot_deactivate (inr n) T) (d_nodes d) m) in
  Ok (set_tlsd (d_prev d) m1).

(** optional<dynamic_allocator>::reset: destroys the capture list, capture_list.hpp:76-84 *)
Definition dslot_reset (c : cid) (m : mem) : res mem :=
  let! d := deref (dhp m !! c) in
  let! m1 := (if d_key d =? 0 then Ok m
              else for_nodes (fun T n => slot_free (inr n) T) (d_nodes d) m) in
  Ok (set_dhp (<[c := DSlot 0 [] true (d_prev d)]> (dhp m1)) m1).

(** optional<dynamic_allocator>::load(key), optional.hpp:109-116; constructor error.hpp:262-267 *)
Definition dslot_load (c : cid) (id : Z) (m : mem) : res mem :=
  let! _ := assert G (negb (id =? 0)) in
  let! m1 := dslot_reset c m in
  let! d := deref (dhp m1 !! c) in
  Ok (set_dhp (<[c := DSlot id [] true (d_prev d)]> (dhp m1)) m1).

(** slot<dynamic_allocator>::~slot *)
Definition dslot_free (c : cid) (m : mem) : res mem :=
  let! _ := deref (dhp m !! c) in
  let! _ := assert G (bool_decide (tlsd m ≠ Some c)) in
  let! m1 := dslot_reset c m in
  Ok (set_dhp (delete c (dhp m1)) m1).

(** dynamic_allocator::dynamic_load, error.hpp:279-289, on the allocator in slot c;
    capture_list::node::node (capture_list.hpp:47-53) writes through last_. *)
Definition da_load (c : cid) (id : Z) (T : ety) (v : val) (m : mem) : res mem :=
  let! d := deref (dhp m !! c) in
  let! _ := (if d_last d then Ok tt else Fail UAF) in
  let! _ := assert G (bool_decide (tls m !! T = None)) in
  let! _ := assert G (negb (id =? 0)) in
  let n := na m in
  let m1 := set_na (S n) (set_hp (<[inr n := ESlot id v None]> (hp m)) m) in
  let m2 := set_dhp (<[c := DSlot (d_key d) (d_nodes d ++ [(T, n)]) true (d_prev d)]> (dhp m1)) m1 in
  slot_activate (inr n) T m2.

(** dynamic_load_, error.hpp:333-343 (dynamic_load 357-376 adds nothing: allocation does not fail) *)
Definition dyn_load (id : Z) (T : ety) (v : val) (m : mem) : res mem :=
  match tlsd m with
  | None => Ok m
  | Some c =>
      let! d := deref (dhp m !! c) in
      if negb (d_key d =? 0) then da_load c id T v m
      else let! m1 := dslot_load c id m in da_load c id T v m1
  end.

(** dynamic_accumulate_, error.hpp:345-355: c is asked for has_value(err_id), not has_value_any_key() *)
Definition dyn_accumulate (id : Z) (T : ety) (tag : Z) (f : val -> val) (m : mem) (g : glob) : res (mem * glob) :=
  match tlsd m with
  | None => Ok (m, g)
  | Some c =>
      let! d := deref (dhp m !! c) in
      let! m1 := (if d_key d =? id then Ok m else dslot_load c id m) in
      let! m2 := da_load c id T (f (g_def G T)) m1 in
      Ok (m2, emit (EvAcc tag) g)
  end.

(** load_slot, error.hpp:428-445 *)
Definition load_slot (onerr : bool) (id : Z) (T : ety) (v : val) (m : mem) : res mem :=
  match tls m !! T with
  | Some p =>
      let! s := deref (hp m !! p) in
      if negb onerr || negb (e_key s =? id) then slot_load p id v m else Ok m
  | None => if g_capture G then dyn_load id T v m else Ok m
  end.

(** load_slot_deferred, error.hpp:447-465: with capture enabled the function is called before it is known
    whether there is an allocator (462) *)
Definition load_slot_deferred (onerr : bool) (id : Z) (T : ety) (tag : Z) (gf : list ev -> val) (m : mem) (g : glob)
    : res (mem * glob) :=
  match tls m !! T with
  | Some p =>
      let! s := deref (hp m !! p) in
      if negb onerr || negb (e_key s =? id) then
        let! m1 := slot_load p id (gf (tr g)) m in Ok (m1, emit (EvDefer tag) g)
      else Ok (m, g)
  | None =>
      if g_capture G then let! m1 := dyn_load id T (gf (tr g)) m in Ok (m1, emit (EvDefer tag) g)
      else Ok (m, g)
  end.

(** load_slot_accumulate, error.hpp:467-486 *)
Definition load_slot_accumulate (id : Z) (T : ety) (tag : Z) (f : val -> val) (m : mem) (g : glob)
    : res (mem * glob) :=
  match tls m !! T with
  | Some p =>
      let! s := deref (hp m !! p) in
      let v := if e_key s =? id then e_val s else g_def G T in
      let! m1 := slot_load p id (f v) m in Ok (m1, emit (EvAcc tag) g)
  | None => if g_capture G then dyn_accumulate id T tag f m g else Ok (m, g)
  end.

(** load_item::load_ (error.hpp:499-524) when [onerr] is false, preloaded_item / deferred_item / accumulating_item
    ::trigger (on_error.hpp:90-164) when it is true *)
Definition mload (onerr : bool) (id : Z) (it : item) (m : mem) (g : glob) : res (mem * glob) :=
  match it with
  | IVal T v => let! m1 := load_slot onerr id T v m in Ok (m1, g)
  | IDef T tag gf => load_slot_deferred onerr id T tag gf m g
  | IAcc T tag f => load_slot_accumulate id T tag f m g
  | IVoid tag => Ok (m, emit (EvDefer tag) g)
  end.

(** The receiving half of slot<E>::unload, error.hpp:417-425, for an object v held for id.
    The boolean says whether the object was moved out of the source. *)
Definition unload_to (id : Z) (T : ety) (v : val) (m : mem) : res (bool * mem) :=
  match tls m !! T with
  | Some p =>
      let! s := deref (hp m !! p) in
      if negb (e_key s =? id) then let! m1 := slot_load p id v m in Ok (true, m1) else Ok (false, m)
  | None => if g_capture G then let! m1 := dyn_load id T v m in Ok (true, m1) else Ok (false, m)
  end.

(** slot<E>::unload, error.hpp:411-426 *)
Definition slot_unload (a : addr) (T : ety) (id : Z) (m : mem) : res mem :=
  let! _ := assert G (negb (id =? 0)) in
  let! s := deref (hp m !! a) in
  if negb (e_key s =? id) then Ok m
  else if (id =? 0) && g_capture G && bool_decide (tls m !! T = None) then Fail UAF (* 424: moves from an empty optional *)
  else
    let! bm := unload_to id T (e_val s) m in
    if fst bm then slot_reset a (snd bm) else Ok (snd bm).

(** slot<dynamic_allocator>::unload, error.hpp:325-331, with capture_list::unload, capture_list.hpp:86-96:
    the nodes are moved out, the current id is set, each node is unloaded, then all nodes are destroyed.
    first_ becomes null but last_ is not touched. *)
Definition dslot_unload (c : cid) (id : Z) (m : mem) (g : glob) : res (mem * glob) :=
  let! _ := assert G (negb (id =? 0)) in
  let! d := deref (dhp m !! c) in
  if d_key d =? 0 then Ok (m, g)
  else
    let last := match d_nodes d with [] => d_last d | _ => false end in
    let m1 := set_dhp (<[c := DSlot (d_key d) [] last (d_prev d)]> (dhp m)) m in
    let! m2 := for_nodes (fun T n => slot_unload (inr n) T id) (d_nodes d) m1 in
    let! m3 := for_nodes (fun T n => slot_free (inr n) T) (d_nodes d) m2 in
    Ok (m3, set_cur id g).

(** capture_list::unload, capture_list.hpp:86-96, on the list owned by a result, up to the exception node:
    each capturing_slot_node::unload (error.hpp:206-209) *)
Fixpoint cap_unload_nodes (id : Z) (l : list cnode) (m : mem) : res mem :=
  match l with
  | [] => Ok m
  | (T, (k, v)) :: l' =>
      let! _ := assert G (negb (id =? 0)) in
      let! m1 := (if negb (k =? id) then Ok m else let! bm := unload_to id T v m in Ok (snd bm)) in
      cap_unload_nodes id l' m1
  end.
Definition mcap_unload (id : Z) (l : list cnode) (m : mem) (g : glob) : res (mem * glob) :=
  let! m1 := cap_unload_nodes id l m in Ok (m1, set_cur id g).

(** ** Contexts *)

(** construction of the members of a context *)
Fixpoint new_slots (c : cid) (tup : list sty) (m : mem) : mem :=
  match tup with
  | [] => m
  | SE T :: tup' => new_slots c tup' (set_hp (<[inl (c, T) := ESlot 0 (g_def G T) None]> (hp m)) m)
  | SDA :: tup' => new_slots c tup' (set_dhp (<[c := DSlot 0 [] true None]> (dhp m)) m)
  end.

(** context(), context.hpp:316-319 *)
Definition mnew (tup : list sty) (m : mem) : cid * mem :=
  let c := nc m in
  (c, set_ctxs (<[c := CCtx tup false]> (ctxs m)) (set_nc (S c) (new_slots c tup m))).

(** tuple_for_each, context.hpp:180-223 *)
Fixpoint for_tup (f : sty -> mem -> res mem) (tup : list sty) (m : mem) : res mem :=
  match tup with
  | [] => Ok m
  | t :: tup' => let! m1 := f t m in for_tup f tup' m1
  end.

Definition sty_activate (c : cid) (t : sty) (m : mem) : res mem :=
  match t with SE T => slot_activate (inl (c, T)) T m | SDA => dslot_activate c m end.
Definition sty_deactivate (c : cid) (t : sty) (m : mem) : res mem :=
  match t with SE T => slot_deactivate (inl (c, T)) T m | SDA => dslot_deactivate c m end.
Definition sty_free (c : cid) (t : sty) (m : mem) : res mem :=
  match t with SE T => slot_free (inl (c, T)) T m | SDA => dslot_free c m end.

(** context::activate, context.hpp:336-345 (first to last, 183-188) *)
Definition mact (c : cid) (m : mem) : res mem :=
  let! k := deref (ctxs m !! c) in
  let! _ := assert G (negb (k_act k)) in
  let! m1 := for_tup (sty_activate c) (k_tup k) m in
  Ok (set_ctxs (<[c := CCtx (k_tup k) true]> (ctxs m1)) m1).

(** context::deactivate, context.hpp:347-357 (last to first, 190-195) *)
Definition mdeact (c : cid) (m : mem) : res mem :=
  let! k := deref (ctxs m !! c) in
  let! _ := assert G (k_act k) in
  let! m1 := for_tup (sty_deactivate c) (rev (k_tup k)) m in
  Ok (set_ctxs (<[c := CCtx (k_tup k) false]> (ctxs m1)) m1).

(** context::is_active, context.hpp:365-368 *)
Definition misact (c : cid) (m : mem) : res bool :=
  let! k := deref (ctxs m !! c) in Ok (k_act k).

(** context::~context, context.hpp:321-324, and the destructors of its slots *)
Definition mdestroy (c : cid) (m : mem) : res mem :=
  let! k := deref (ctxs m !! c) in
  let! _ := assert G (negb (k_act k)) in
  let! m1 := for_tup (sty_free c) (rev (k_tup k)) m in
  Ok (set_ctxs (delete c (ctxs m1)) m1).

(** the end of a scope whose context is not deactivated first: destructors run on the active slots
    (a bare slot<dynamic_allocator> as in try_capture_all has no is_active flag to check) *)
Definition mdrop (c : cid) (m : mem) : res mem :=
  let! k := deref (ctxs m !! c) in
  let! m1 := for_tup (sty_free c) (rev (k_tup k)) m in
  Ok (set_ctxs (delete c (ctxs m1)) m1).

(** tuple_for_each::unload, context.hpp:197-204 (last to first; the list is already reversed) *)
Fixpoint tup_unload (c : cid) (id : Z) (tup : list sty) (m : mem) (g : glob) : res (mem * glob) :=
  match tup with
  | [] => Ok (m, g)
  | t :: tup' =>
      let! _ := assert G (negb (id =? 0)) in
      let! mg := (match t with
                  | SE T => let! m1 := slot_unload (inl (c, T)) T id m in Ok (m1, g)
                  | SDA => dslot_unload c id m g
                  end) in
      tup_unload c id tup' (fst mg) (snd mg)
  end.

(** context::unload, context.hpp:359-363 *)
Definition munload (c : cid) (id : Z) (m : mem) (g : glob) : res (mem * glob) :=
  let! k := deref (ctxs m !! c) in
  let! _ := assert G (negb (k_act k)) in
  tup_unload c id (rev (k_tup k)) m g.

(** peek_tuple::peek, context::get (handle_errors.hpp:246-260, context.hpp:384-389): has_value(id) of the slot, if the context has it *)
Definition mget (c : cid) (T : ety) (id : Z) (m : mem) : res (option val) :=
  let! k := deref (ctxs m !! c) in
  if bool_decide (SE T ∈ k_tup k) then
    let! s := deref (hp m !! inl (c, T)) in
    let! _ := assert G (negb (id =? 0)) in
    if e_key s =? id then
      (if id =? 0 then Fail UAF (* pointer to an object never constructed *) else Ok (Some (e_val s)))
    else Ok None
  else Ok None.

(** A handler assigns to the object it refers to (the pointer returned by peek_tuple<E, false>::peek, handle_errors.hpp:253-257): *)
Definition mset (c : cid) (T : ety) (id : Z) (v : val) (m : mem) : res mem :=
  let! k := deref (ctxs m !! c) in
  if bool_decide (SE T ∈ k_tup k) then
    let! s := deref (hp m !! inl (c, T)) in
    if (e_key s =? id) && negb (id =? 0) then Ok (set_hp (<[inl (c, T) := ESlot id v (e_prev s)]> (hp m)) m) else Ok m
  else Ok m.

(** slot<E>::print restricted to which objects are shown, error.hpp:148-158 *)
Definition print_slot (id : Z) (T : ety) (k : Z) (v : val) : list (ety * val) :=
  if negb (k =? 0) && ((id =? 0) || (k =? id)) && g_show G T then [(T, v)] else [].

(** tuple_for_each::print, context.hpp:206-212 (first to last); dynamic_allocator itself is not shown (error.hpp:400-403) *)
Fixpoint tup_print (c : cid) (id : Z) (tup : list sty) (m : mem) : res (list (ety * val)) :=
  match tup with
  | [] => Ok []
  | SE T :: tup' =>
      let! s := deref (hp m !! inl (c, T)) in
      let! l := tup_print c id tup' m in
      Ok (print_slot id T (e_key s) (e_val s) ++ l)
  | SDA :: tup' => tup_print c id tup' m
  end.
Definition mprint (c : cid) (id : Z) (m : mem) : res (list (ety * val)) :=
  let! k := deref (ctxs m !! c) in tup_print c id (k_tup k) m.

(** capture_list::print, capture_list.hpp:98-115 *)
Fixpoint nodes_print (id : Z) (l : list (ety * nat)) (m : mem) : res (list (ety * val)) :=
  match l with
  | [] => Ok []
  | (T, n) :: l' =>
      let! s := deref (hp m !! inr n) in
      let! r := nodes_print id l' m in
      Ok (print_slot id T (e_key s) (e_val s) ++ r)
  end.
(** what diagnostic_details adds, diagnostics.hpp:144-152, 177-181 *)
Definition mdetails (c : cid) (id : Z) (m : mem) : res (list (ety * val)) :=
  let! k := deref (ctxs m !! c) in
  if bool_decide (SDA ∈ k_tup k) then
    let! d := deref (dhp m !! c) in
    if d_key d =? 0 then Ok [] else nodes_print id (d_nodes d) m
  else Ok [].

(** the nodes leave the heap slots' ownership and become the result's list *)
Fixpoint take_nodes (l : list (ety * nat)) (m : mem) : res (list cnode * mem) :=
  match l with
  | [] => Ok ([], m)
  | (T, n) :: l' =>
      let! s := deref (hp m !! inr n) in
      let! rm := take_nodes l' (set_hp (delete (inr n) (hp m)) m) in
      Ok ((T, (e_key s, e_val s)) :: fst rm, snd rm)
  end.

(** slot::value_or_default(err_id) (optional.hpp:188-194) followed by extract_capture_list (error.hpp:300-311);
    [hasex]: there is a current exception, for which a node is appended through last_ *)
Definition mextract (c : cid) (id : Z) (hasex : bool) (m : mem) : res (list cnode * mem) :=
  let! d0 := deref (dhp m !! c) in
  let! _ := assert G (negb (id =? 0)) in
  let! m1 := (if d_key d0 =? id then Ok m else dslot_load c id m) in
  let! d := deref (dhp m1 !! c) in
  let! _ := (if hasex && negb (d_last d) then Fail UAF else Ok tt) in
  let! rm := take_nodes (d_nodes d) m1 in
  Ok (fst rm, set_dhp (<[c := DSlot (d_key d) [] true (d_prev d)]> (dhp (snd rm))) (snd rm)).

End mem.
