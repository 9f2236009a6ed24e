(** The stack machine: a specification of LEAF's storage without pointers.

    A thread has a stack of active contexts. A context has one cell for each of its types; a cell is empty or
    holds an object together with the id of the error it belongs to. A context that collects otherwise unwanted objects
    (diagnostic_details, try_capture_all) has, in addition, a collection of objects. *)
From Verif Require Export Prog.
Open Scope Z_scope.

(** The collection: the error id of its first object, the objects in order, and whether more can still be added
    (they cannot once the collection has been unloaded while keeping its context). *)
Record coll := Coll { q_key : Z; q_nodes : list cnode; q_ok : bool }.

Record actx := ACtx { ac_tup : list sty; ac_cell : gmap ety (Z * val); ac_coll : option coll }.

Record smem := SMem { stack : list cid; actxs : gmap cid actx; snc : cid }.

Definition smem0 : smem := SMem [] ∅ 0%nat.

Definition has_node (T : ety) (l : list cnode) : bool := bool_decide (T ∈ l.*1).
Fixpoint get_node (T : ety) (l : list cnode) : option (Z * val) :=
  match l with [] => None | (T', x) :: l' => if decide (T = T') then Some x else get_node T l' end.
Fixpoint set_node (T : ety) (x : Z * val) (l : list cnode) : list cnode :=
  match l with [] => [] | (T', y) :: l' => if decide (T = T') then (T', x) :: l' else (T', y) :: set_node T x l' end.

Definition nodes (a : actx) : list cnode := match ac_coll a with Some q => q_nodes q | None => [] end.

(** Does the context keep objects of type T, by a cell or because it has collected one? *)
Definition has_e (T : ety) (a : actx) : bool := bool_decide (SE T ∈ ac_tup a) || has_node T (nodes a).
Definition get_e (T : ety) (a : actx) : option (Z * val) :=
  if bool_decide (SE T ∈ ac_tup a) then ac_cell a !! T else get_node T (nodes a).
Definition set_e (T : ety) (x : Z * val) (a : actx) : actx :=
  if bool_decide (SE T ∈ ac_tup a) then ACtx (ac_tup a) (<[T := x]> (ac_cell a)) (ac_coll a)
  else ACtx (ac_tup a) (ac_cell a)
         (match ac_coll a with Some q => Some (Coll (q_key q) (set_node T x (q_nodes q)) (q_ok q)) | None => None end).
Definition has_d (a : actx) : bool := bool_decide (SDA ∈ ac_tup a).
Definition set_coll (q : option coll) (a : actx) : actx := ACtx (ac_tup a) (ac_cell a) q.

(** The innermost active context satisfying P. *)
Fixpoint find_ctx (P : actx -> bool) (l : list cid) (cs : gmap cid actx) : option (cid * actx) :=
  match l with
  | [] => None
  | c :: l' => match cs !! c with
               | Some a => if P a then Some (c, a) else find_ctx P l' cs
               | None => None
               end
  end.
Definition find_e (T : ety) (s : smem) := find_ctx (has_e T) (stack s) (actxs s).
Definition find_d (s : smem) := find_ctx has_d (stack s) (actxs s).

Definition put (c : cid) (a : actx) (s : smem) : smem := SMem (stack s) (<[c := a]> (actxs s)) (snc s).

Definition sassert (b : bool) : res unit := if b then Ok tt else Fail Assert.

(** The error id for which a cell holds an object, 0 if it is empty. *)
Definition key_of (o : option (Z * val)) : Z := match o with Some (k, _) => k | None => 0 end.

Section stack.
Context (G : cfg).

(** Add an object to the innermost collection, if there is one. *)
Definition scollect (id : Z) (T : ety) (v : val) (s : smem) : res smem :=
  match find_d s with
  | None => Ok s
  | Some (c, a) =>
      let! _ := sassert (negb (id =? 0)) in
      match ac_coll a with
      | None => Ok (put c (set_coll (Some (Coll id [(T, (id, v))] true)) a) s)
      | Some q => if q_ok q then Ok (put c (set_coll (Some (Coll (q_key q) (q_nodes q ++ [(T, (id, v))]) true)) a) s)
                  else Fail UAF
      end
  end.

(** Same, for an accumulating function: if the collection was started by another error and is not empty, the library
    destroys objects that are still in use. *)
Definition scollect_acc (id : Z) (T : ety) (v : val) (s : smem) : res smem :=
  match find_d s with
  | None => Ok s
  | Some (c, a) =>
      let! _ := sassert (negb (id =? 0)) in
      match ac_coll a with
      | None => Ok (put c (set_coll (Some (Coll id [(T, (id, v))] true)) a) s)
      | Some q =>
          if q_key q =? id then
            (if q_ok q then Ok (put c (set_coll (Some (Coll (q_key q) (q_nodes q ++ [(T, (id, v))]) true)) a) s)
             else Fail UAF)
          else match q_nodes q with
               | [] => Ok (put c (set_coll (Some (Coll id [(T, (id, v))] true)) a) s)
               | _ => Fail UAF
               end
      end
  end.

Definition sstore (c : cid) (a : actx) (id : Z) (T : ety) (v : val) (s : smem) : res smem :=
  let! _ := sassert (negb (id =? 0)) in Ok (put c (set_e T (id, v) a) s).

Definition sload (onerr : bool) (id : Z) (it : item) (s : smem) (g : glob) : res (smem * glob) :=
  match it with
  | IVal T v =>
      match find_e T s with
      | Some (c, a) =>
          if onerr && (key_of (get_e T a) =? id) then Ok (s, g)
          else let! s1 := sstore c a id T v s in Ok (s1, g)
      | None => if g_capture G then let! s1 := scollect id T v s in Ok (s1, g) else Ok (s, g)
      end
  | IDef T tag gf =>
      match find_e T s with
      | Some (c, a) =>
          if onerr && (key_of (get_e T a) =? id) then Ok (s, g)
          else let! s1 := sstore c a id T (gf (tr g)) s in Ok (s1, emit (EvDefer tag) g)
      | None => if g_capture G then let! s1 := scollect id T (gf (tr g)) s in Ok (s1, emit (EvDefer tag) g) else Ok (s, g)
      end
  | IAcc T tag f =>
      match find_e T s with
      | Some (c, a) =>
          let old := match get_e T a with Some (k, v) => if k =? id then v else g_def G T | None => g_def G T end in
          let! s1 := sstore c a id T (f old) s in Ok (s1, emit (EvAcc tag) g)
      | None =>
          if g_capture G then
            match find_d s with
            | None => Ok (s, g)
            | Some _ => let! s1 := scollect_acc id T (f (g_def G T)) s in Ok (s1, emit (EvAcc tag) g)
            end
          else Ok (s, g)
      end
  | IVoid tag => Ok (s, emit (EvDefer tag) g)
  end.

(** An object of error id arrives from an inactive context or a captured result. True if it is taken. *)
Definition sreceive (id : Z) (T : ety) (v : val) (s : smem) : res (bool * smem) :=
  match find_e T s with
  | Some (c, a) =>
      if key_of (get_e T a) =? id then Ok (false, s)
      else let! s1 := sstore c a id T v s in Ok (true, s1)
  | None => if g_capture G then let! s1 := scollect id T v s in Ok (true, s1) else Ok (false, s)
  end.

Fixpoint sreceive_all (id : Z) (l : list cnode) (s : smem) : res smem :=
  match l with
  | [] => Ok s
  | (T, (k, v)) :: l' =>
      let! _ := sassert (negb (id =? 0)) in
      let! s1 := (if negb (k =? id) then Ok s else let! bs := sreceive id T v s in Ok (snd bs)) in
      sreceive_all id l' s1
  end.

Definition scap_unload (id : Z) (l : list cnode) (s : smem) (g : glob) : res (smem * glob) :=
  let! s1 := sreceive_all id l s in Ok (s1, set_cur id g).

Definition snew (tup : list sty) (s : smem) : cid * smem :=
  (snc s, SMem (stack s) (<[snc s := ACtx tup ∅ None]> (actxs s)) (S (snc s))).

(** A context that still holds collected objects cannot be activated again: the library would not look at them when
    loading, but deactivate them with the context. *)
Definition sact (c : cid) (s : smem) : res smem :=
  match actxs s !! c with
  | None => Fail UAF
  | Some a => if bool_decide (c ∈ stack s) then Fail Assert
              else match nodes a with
                   | [] => Ok (SMem (c :: stack s) (actxs s) (snc s))
                   | _ => Fail Assert
                   end
  end.

(** Only the innermost context may be deactivated. *)
Definition sdeact (c : cid) (s : smem) : res smem :=
  match stack s with
  | [] => Fail Assert
  | c' :: l => if bool_decide (c = c') then Ok (SMem l (actxs s) (snc s)) else Fail Assert
  end.

Definition sisact (c : cid) (s : smem) : res bool :=
  match actxs s !! c with None => Fail UAF | Some _ => Ok (bool_decide (c ∈ stack s)) end.

Definition sdestroy (c : cid) (s : smem) : res smem :=
  match actxs s !! c with
  | None => Fail UAF
  | Some _ => if bool_decide (c ∈ stack s) then Fail Assert else Ok (SMem (stack s) (delete c (actxs s)) (snc s))
  end.

Definition cell_clear (T : ety) (a : actx) : actx := ACtx (ac_tup a) (delete T (ac_cell a)) (ac_coll a).

Definition sunload1 (c : cid) (id : Z) (t : sty) (s : smem) (g : glob) : res (smem * glob) :=
  match actxs s !! c with
  | None => Fail UAF
  | Some a =>
      match t with
      | SE T =>
          match ac_cell a !! T with
          | Some (k, v) =>
              if k =? id then
                let! bs := sreceive id T v s in
                if fst bs then
                  match actxs (snd bs) !! c with
                  | None => Fail UAF
                  | Some a' => Ok (put c (cell_clear T a') (snd bs), g)
                  end
                else Ok (snd bs, g)
              else Ok (s, g)
          | None => Ok (s, g)
          end
      | SDA =>
          match ac_coll a with
          | None => Ok (s, g)
          | Some q =>
              let ok := match q_nodes q with [] => q_ok q | _ => false end in
              let! s1 := sreceive_all id (q_nodes q) (put c (set_coll (Some (Coll (q_key q) [] ok)) a) s) in
              Ok (s1, set_cur id g)
          end
      end
  end.

Fixpoint sunload_list (c : cid) (id : Z) (tup : list sty) (s : smem) (g : glob) : res (smem * glob) :=
  match tup with
  | [] => Ok (s, g)
  | t :: tup' =>
      let! _ := sassert (negb (id =? 0)) in
      let! sg := sunload1 c id t s g in sunload_list c id tup' (fst sg) (snd sg)
  end.

Definition sunload (c : cid) (id : Z) (s : smem) (g : glob) : res (smem * glob) :=
  match actxs s !! c with
  | None => Fail UAF
  | Some a => if bool_decide (c ∈ stack s) then Fail Assert else sunload_list c id (rev (ac_tup a)) s g
  end.

Definition sget (c : cid) (T : ety) (id : Z) (s : smem) : res (option val) :=
  match actxs s !! c with
  | None => Fail UAF
  | Some a =>
      if bool_decide (SE T ∈ ac_tup a) then
        let! _ := sassert (negb (id =? 0)) in
        Ok (match ac_cell a !! T with Some (k, v) => if k =? id then Some v else None | None => None end)
      else Ok None
  end.

(** Replace the object of error id in a cell. *)
Definition cell_set (T : ety) (x : Z * val) (a : actx) : actx := ACtx (ac_tup a) (<[T := x]> (ac_cell a)) (ac_coll a).
Definition sset (c : cid) (T : ety) (id : Z) (v : val) (s : smem) : res smem :=
  match actxs s !! c with
  | None => Fail UAF
  | Some a =>
      if bool_decide (c ∈ stack s) then Fail Assert
      else if bool_decide (SE T ∈ ac_tup a) then
        match ac_cell a !! T with
        | Some (k, _) => if k =? id then Ok (put c (cell_set T (id, v) a) s) else Ok s
        | None => Ok s
        end
      else Ok s
  end.

Definition sshow (id : Z) (x : cnode) : list (ety * val) :=
  if negb (fst (snd x) =? 0) && ((id =? 0) || (fst (snd x) =? id)) && g_show G (fst x) then [(fst x, snd (snd x))] else [].

Definition sprint (c : cid) (id : Z) (s : smem) : res (list (ety * val)) :=
  match actxs s !! c with
  | None => Fail UAF
  | Some a =>
      Ok (flat_map (fun t => match t with
                             | SE T => match ac_cell a !! T with Some x => sshow id (T, x) | None => [] end
                             | SDA => []
                             end) (ac_tup a))
  end.

Definition sdetails (c : cid) (id : Z) (s : smem) : res (list (ety * val)) :=
  match actxs s !! c with None => Fail UAF | Some a => Ok (flat_map (sshow id) (nodes a)) end.

(** Take the collection out for error id: it must have been started by that very error. *)
Definition sextract (c : cid) (id : Z) (hasex : bool) (s : smem) : res (list cnode * smem) :=
  match actxs s !! c with
  | None => Fail UAF
  | Some a =>
      if negb (has_d a) || bool_decide (c ∈ stack s) then Fail UAF
      else
      let! _ := sassert (negb (id =? 0)) in
      match ac_coll a with
      | Some q =>
          if q_key q =? id then
            (if hasex && negb (q_ok q) then Fail UAF
             else Ok (q_nodes q, put c (set_coll (Some (Coll id [] true)) a) s))
          else Ok ([], put c (set_coll (Some (Coll id [] true)) a) s)
      | None => Ok ([], put c (set_coll (Some (Coll id [] true)) a) s)
      end
  end.

End stack.
