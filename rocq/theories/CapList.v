(** Capture lists as linked nodes, detail/capture_list.hpp and dynamic_allocator (error.hpp:174-315). *)
From stdpp Require Export base gmap list.
From Coq Require Export ZArith.
Open Scope Z_scope.

(** A node: next_ and what it carries; [n_exn]: a capturing_exception_node (its unload throws). *)
Record lnode := LNode { n_next : option nat; n_pay : Z; n_exn : bool }.
(** The address of a pointer variable: first_ of a list object, next_ of a node. *)
Inductive ploc := LFirst (l : nat) | LNext (n : nat).
Global Instance ploc_eq_dec : EqDecision ploc.
Proof. solve_decision. Defined.
(** A list object: first_; last_ if it is a dynamic_allocator. *)
Record lobj := LObj { l_first : option nat; l_last : option ploc }.
(** Nodes on the heap, list objects, how many nodes were allocated and freed. *)
Record lstate := LState { s_heap : gmap nat lnode; s_lists : gmap nat lobj; s_made : nat; s_freed : nat }.
Definition linit : lstate := LState ∅ ∅ 0 0.

(** [LBad]: a node or list is accessed that does not exist. [seen]: nodes visited. *)
Inductive lres := LDone (seen : list Z) (s : lstate) | LThrown (seen : list Z) (s : lstate) | LAssert | LBad.

Definition with_heap (h : gmap nat lnode) (s : lstate) : lstate := LState h (s_lists s) (s_made s) (s_freed s).
Definition set_list (l : nat) (x : lobj) (s : lstate) : lstate := LState (s_heap s) (<[l := x]> (s_lists s)) (s_made s) (s_freed s).
(** *p and *p = v *)
Definition deref (p : ploc) (s : lstate) : option (option nat) :=
  match p with
  | LFirst l => l_first <$> s_lists s !! l
  | LNext n => n_next <$> s_heap s !! n
  end.
Definition assign (p : ploc) (v : option nat) (s : lstate) : option lstate :=
  match p with
  | LFirst l => match s_lists s !! l with Some x => Some (set_list l (LObj v (l_last x)) s) | None => None end
  | LNext n => match s_heap s !! n with Some x => Some (with_heap (<[n := LNode v (n_pay x) (n_exn x)]> (s_heap s)) s) | None => None end
  end.

(** new capturing_..._node(last_, ...): the node's constructor, capture_list.hpp:47-53, is linked first; then the object is
    loaded into it (error.hpp:217-224), which may throw: the node's memory is released, the links stay.
    Nodes are numbered in the order of allocation. *)
Definition append (l : nat) (pay : Z) (ex throws : bool) (s : lstate) : lres :=
  match s_lists s !! l with
  | Some (LObj _ (Some p)) =>
      let n := s_made s in
      let s1 := LState (<[n := LNode None pay ex]> (s_heap s)) (s_lists s) (S n) (s_freed s) in
      match assign p (Some n) s1 with
      | Some s2 =>
          match s_lists s2 !! l with
          | Some x =>
              let s3 := set_list l (LObj (l_first x) (Some (LNext n))) s2 in
              if throws then LThrown [] (LState (delete n (s_heap s3)) (s_lists s3) (s_made s3) (S (s_freed s3)))
              else LDone [] s3
          | None => LBad
          end
      | None => LBad
      end
  | _ => LBad
  end.

(** for_each, capture_list.hpp:56-61. The fuel is larger than the number of nodes: running out means going in circles.
    [unl]: f unloads the nodes. *)
Fixpoint visit (unl : bool) (fuel : nat) (p : option nat) (h : gmap nat lnode) : option (list Z * bool) :=
  match p with
  | None => Some ([], false)
  | Some n =>
      match fuel, h !! n with
      | S f, Some x => if unl && n_exn x then Some ([n_pay x], true) (* capturing_exception_node::unload throws, error.hpp:237-240 *)
                       else match visit unl f (n_next x) h with Some (l, b) => Some (n_pay x :: l, b) | None => None end
      | _, _ => None
      end
  end.
(** ~capture_list, capture_list.hpp:76-84 *)
Fixpoint free (fuel : nat) (p : option nat) (h : gmap nat lnode) (freed : nat) : option (gmap nat lnode * nat) :=
  match p with
  | None => Some (h, freed)
  | Some n =>
      match fuel, h !! n with
      | S f, Some x => free f (n_next x) (delete n h) (S freed)
      | _, _ => None
      end
  end.
Definition free_list (p : option nat) (s : lstate) : option lstate :=
  match free (S (size (s_heap s))) p (s_heap s) (s_freed s) with
  | Some (h, k) => Some (LState h (s_lists s) (s_made s) k)
  | None => None
  end.

Inductive lop :=
| LNewDA (l : nat)                              (* dynamic_allocator(), error.hpp:262-267 *)
| LAppend (l : nat) (pay : Z) (throws : bool)   (* dynamic_load, error.hpp:279-289 *)
| LMoveDA (l' l : nat)                          (* dynamic_allocator(dynamic_allocator &&), error.hpp:269-277 *)
| LMove (l' l : nat)                            (* capture_list(capture_list &&), capture_list.hpp:70-74 *)
| LExtract (l' l : nat) (ex : option Z)         (* extract_capture_list, error.hpp:300-312; ex: there is a current exception *)
| LUnload (l : nat)                             (* unload, capture_list.hpp:86-96 *)
| LWalk (l : nat)                               (* deactivate / print, error.hpp:291-298, capture_list.hpp:98-116 *)
| LDestroy (l : nat).                           (* ~capture_list *)

Definition lstep (op : lop) (s : lstate) : lres :=
  match op with
  | LNewDA l => match s_lists s !! l with Some _ => LBad | None => LDone [] (set_list l (LObj None (Some (LFirst l))) s) end
  | LAppend l pay throws =>
      match s_lists s !! l with
      | Some (LObj _ (Some p)) =>
          match deref p s with
          | None => LBad
          | Some (Some _) => LAssert (* *last_ == nullptr, error.hpp:284 *)
          | Some None => append l pay false throws s
          end
      | _ => LBad
      end
  | LMoveDA l' l =>
      match s_lists s !! l, s_lists s !! l' with
      | Some (LObj f (Some p)), None =>
          let last := if bool_decide (p = LFirst l) then LFirst l' else p in
          let s1 := set_list l' (LObj f (Some last)) (set_list l (LObj None (Some p)) s) in
          match deref last s1 with
          | None => LBad
          | Some (Some _) => LAssert (* *last_ == nullptr, error.hpp:274 *)
          | Some None => LDone [] (set_list l (LObj None (Some (LFirst l))) s1)
          end
      | _, _ => LBad
      end
  | LMove l' l =>
      match s_lists s !! l, s_lists s !! l' with
      | Some (LObj f None), None => LDone [] (set_list l' (LObj f None) (set_list l (LObj None None) s))
      | _, _ => LBad
      end
  | LExtract l' l ex =>
      match (match ex with Some z => append l z true false s | None => LDone [] s end) with
      | LDone _ s1 =>
          match s_lists s1 !! l, s_lists s1 !! l' with
          | Some (LObj f (Some _)), None => LDone [] (set_list l' (LObj f None) (set_list l (LObj None (Some (LFirst l))) s1))
          | _, _ => LBad
          end
      | e => e
      end
  | LUnload l =>
      match s_lists s !! l with
      | Some x =>
          let s1 := set_list l (LObj None (l_last x)) s in
          match visit true (S (size (s_heap s))) (l_first x) (s_heap s), free_list (l_first x) s1 with
          | Some (seen, thr), Some s2 => if thr then LThrown seen s2 else LDone seen s2
          | _, _ => LBad
          end
      | None => LBad
      end
  | LWalk l =>
      match s_lists s !! l with
      | Some x => match visit false (S (size (s_heap s))) (l_first x) (s_heap s) with Some (seen, _) => LDone seen s | None => LBad end
      | None => LBad
      end
  | LDestroy l =>
      match s_lists s !! l with
      | Some x =>
          match free_list (l_first x) s with
          | Some s1 => LDone [] (LState (s_heap s1) (delete l (s_lists s1)) (s_made s1) (s_freed s1))
          | None => LBad
          end
      | None => LBad
      end
  end.

(** A sequence of operations; the program goes on after an exception. *)
Fixpoint lrun (ops : list lop) (s : lstate) : option (list (list Z) * lstate) :=
  match ops with
  | [] => Some ([], s)
  | op :: ops' =>
      match lstep op s with
      | LDone seen s' | LThrown seen s' => match lrun ops' s' with Some (ss, s'') => Some (seen :: ss, s'') | None => None end
      | _ => None
      end
  end.
