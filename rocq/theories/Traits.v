(** Which arguments are functions (detail/function_traits.hpp), what load and on_error do with an argument (error.hpp:425-526, on_error.hpp:86-217), and
    what the parameters of a handler mean (context.hpp:20-133, diagnostics.hpp, handle_errors.hpp:110-119, 358-371, 850-877). All of it is computation
    on types at compile time. The language is C++17 or later, where noexcept is part of a function's type; before, [q_noex] is false in every type. *)
From Verif Require Export Interp.
Open Scope Z_scope.

(** Ref-qualifier of a member function *)
Inductive rqual := RQNone | RQL | RQR.
(** What follows the parameter list of a function type: const, volatile, & or &&, noexcept; C-style "..." at the end of the list *)
Record fqual := FQ { q_const : bool; q_vol : bool; q_ref : rqual; q_noex : bool; q_va : bool }.
Definition q_plain : fqual := FQ false false RQNone false false.

(** C++ types. Left out: arrays, volatile objects. Classes (and other object types) are numbered; error types are these numbers. *)
Inductive cty :=
| CVoid
| CObj (n : nat)                                      (* no operator(), or more than one, or a template (a lambda with auto parameters) *)
| CClass (n : nat) (q : fqual) (r : cty) (l : list cty) (* a class with one operator(), declared as r (l...) q *)
| CFn (q : fqual) (r : cty) (l : list cty)            (* function types *)
| CConst (t : cty)
| CPtr (t : cty)
| CMem (c t : cty)                                    (* pointers to members of c of type t *)
| CRef (t : cty) | CRRef (t : cty).

(** q is [q_plain], apart from those that are allowed to differ *)
Definition is_plain (c n : bool) (q : fqual) : bool :=
  (c || negb (q_const q)) && negb (q_vol q) && match q_ref q with RQNone => true | _ => false end && (n || negb (q_noex q)) && negb (q_va q).
Definition drop_noex (q : fqual) : fqual := FQ (q_const q) (q_vol q) (q_ref q) false (q_va q).

(** remove_noexcept, function_traits.hpp:17-20 *)
Definition remove_noexcept (t : cty) : cty :=
  match t with
  | CPtr (CFn q r l) => if is_plain false true q then CPtr (CFn (drop_noex q) r l) else t
  | CMem c (CFn q r l) => if is_plain true true q then CMem c (CFn (drop_noex q) r l) else t
  | _ => t
  end.

(** What function_traits<F> has: arity -1 and nothing else; a return type and the list of parameters (arity: its length); or its instantiation is an error *)
Inductive ftraits := NotFn | Fn (r : cty) (l : list cty) | IllFormed.

(** function_traits_impl for pointers to members, function_traits.hpp:76-78. The one for data members (type R C::* ) also matches member functions with other qualifiers: then
    R(C&) would be a function returning a function. *)
Definition impl_mem (c t : cty) : ftraits :=
  match t with
  | CFn q r l =>
      if is_plain false false q then Fn r (CRef c :: l)
      else if is_plain true false q then Fn r (CRef (CConst c) :: l)
      else IllFormed
  | _ => Fn t [CRef c]
  end.
(** for classes with operator(), 38-55: the first parameter is removed *)
Definition impl_class (n : nat) (q : fqual) (r : cty) (l : list cty) : ftraits :=
  match remove_noexcept (CMem (CObj n) (CFn q r l)) with
  | CMem c t => match impl_mem c t with Fn r' (_ :: l') => Fn r' l' | _ => IllFormed end
  | _ => IllFormed
  end.
(** function_traits_impl<F>, F not a reference: 32-36 (primary), 38-55, 57-70, 74, 77-79 *)
Definition impl_val (t : cty) : ftraits :=
  match t with
  | CFn q r l | CPtr (CFn q r l) => if is_plain false false q then Fn r l else NotFn
  | CMem c t' => impl_mem c t'
  | CClass n q r l | CConst (CClass n q r l) => impl_class n q r l
  | _ => NotFn
  end.
(** references: 72-73, 75-76 *)
Definition impl (t : cty) : ftraits :=
  match t with
  | CRef (CConst (CPtr (CFn q r l))) => if is_plain false false q then Fn r l else NotFn
  | CRef t' | CRRef t' => impl_val t'
  | _ => impl_val t
  end.
(** function_traits<F>, 81-84 *)
Definition function_traits (t : cty) : ftraits := impl (remove_noexcept t).

(** ** load, on_error *)

Definition remove_reference (t : cty) : cty := match t with CRef t' | CRRef t' => t' | _ => t end.
Definition remove_const (t : cty) : cty := match t with CConst t' => t' | _ => t end.
(** std::decay *)
Definition decay (t : cty) : cty :=
  match remove_reference t with CFn q r l => CPtr (CFn q r l) | t' => remove_const t' end.
(** std::is_pointer: not for references to pointers *)
Definition is_pointer (t : cty) : bool := match t with CPtr _ | CConst (CPtr _) => true | _ => false end.
Definition is_void (t : cty) : bool := match remove_const t with CVoid => true | _ => false end.

(** What becomes of an argument. Ill: the program does not compile *)
Inductive treat := Stored (T : cty) | Called (T : cty) | Accumulates (T : cty) | CalledVoid | Ill.

Section items.
(** leaf::error_id *)
Context (eid : nat).
Definition is_eid (t : cty) : bool := match t with CObj n => Nat.eqb n eid | _ => false end.

(** load_slot, error.hpp:428-446: E is deduced again, from an expression of the same type and value category *)
Definition slot_stored (t : cty) : treat := if is_pointer t || is_eid (decay t) then Ill else Stored (decay t).
(** load_slot_deferred, error.hpp:447-465: there is no slot<void> *)
Definition slot_called (r : cty) : treat := if is_pointer r || is_eid (decay r) || is_void r then Ill else Called (decay r).
(** load_slot_accumulate, error.hpp:467-488. The function is called with an lvalue: it may not take an rvalue reference *)
Definition slot_accumulates (a : cty) : treat :=
  if is_pointer (decay a) then Ill else match a with CRRef _ => Ill | _ => Accumulates (decay a) end.

(** load_item<Item>, error.hpp:493-526; Item is deduced: a reference for lvalues *)
Definition load_item (item : cty) : treat :=
  match function_traits item with
  | NotFn => slot_stored item
  | Fn r [] => slot_called r
  | Fn r [a] => slot_accumulates a
  | _ => Ill
  end.
(** deduce_item_type<Item>, on_error.hpp:200-217. preloaded_item, 86-107: the object is stored as decay_E, later passed on as an rvalue.
    deferred_item, 109-143: later passed on as an lvalue. accumulating_item, 145-165: only for functions taking an lvalue reference, later passed on
    by std::move. Items which are lvalues are stored by reference. *)
Definition on_error_item (item : cty) : treat :=
  match function_traits item with
  | NotFn => slot_stored (decay item)
  | Fn CVoid [] => CalledVoid
  | Fn _ [] => match function_traits (CRef (remove_reference item)) with Fn r _ => slot_called r | _ => Ill end
  | Fn _ [CRef _] =>
      match function_traits (match remove_reference item with CFn q r l => CRef (CFn q r l) | t => t end) with
      | Fn _ [a] => slot_accumulates a
      | _ => Ill
      end
  | _ => Ill
  end.
End items.

(** ** Handler parameters *)

(** What class n is: an error type; a predicate (is_predicate) over class e (P::error_type) and its evaluate; catch_<cls...>; boost::error_info<Tag, T>; leaf::error_info,
    diagnostic_info, diagnostic_details *)
Inductive role := RoErr | RoPred (e : nat) (f : val -> bool) | RoCatch (cls : list ety) | RoBoost (info : exn -> option Z) | RoInfo | RoDiag | RoDetails.

Section args.
Context (role_of : nat -> role).

Definition class_of (t : cty) : option nat := match t with CObj n | CClass n _ _ _ => Some n | _ => None end.
(** handler_argument_traits<P>; None: an assertion fails or one of its functions does not compile. Other reasons not to compile are left out: scopes which may
    pass objects on to the caller need error types that can be moved (Finding 33 in DESIGN.md). *)
Definition arg_of (t : cty) : option harg :=
  match t with
  | CRRef _ => None (* context.hpp:112-116 *)
  | CPtr t' => (* 118-126; handle_errors.hpp:875, 877; for a predicate, defaults<E>::check does not give a pointer *)
      match class_of (remove_const t') with
      | Some n => match role_of n with
                  | RoBoost _ | RoPred _ _ | RoCatch _ => None
                  | RoErr => Some (APtr n)
                  | RoInfo | RoDiag | RoDetails => match t' with CConst _ => Some (APtr n) | _ => None end (* defaults<E> with E the class, 59-61, or the const class *)
                  end
      | None => None
      end
  | CRef (CConst t') =>
      match class_of t' with
      | Some n => match role_of n with
                  | RoInfo => Some AInfo       (* handle_errors.hpp:113-119 *)
                  | RoDiag => Some ADiag       (* diagnostics.hpp:60-68, 109-117 *)
                  | RoDetails => Some ADetails (* diagnostics.hpp:173-182, 225-233, 276-284 *)
                  | RoErr => Some (AE n)       (* context.hpp:39-62 *)
                  | RoPred _ _ | RoCatch _ => None (* 58 *)
                  | RoBoost _ => None          (* handle_errors.hpp:874 *)
                  end
      | None => None
      end
  | CRef t' =>
      match class_of t' with
      | Some n => match role_of n with
                  | RoPred _ _ | RoCatch _ | RoBoost _ => None (* 58; handle_errors.hpp:876 *)
                  | _ => Some (AE n)           (* 59-61 compare with the class itself, not with a reference to it *)
                  end
      | None => None
      end
  | _ =>
      match class_of t with
      | Some n => match role_of n with
                  | RoErr => Some (AE n)
                  | RoPred e f => (* 64-82: over an error type *)
                      match role_of e with RoErr => Some (APred e f) | _ => None end
                  | RoCatch cls => Some (ACatch cls) (* with handler_argument_traits<void>, 102-110 *)
                  | RoBoost info => Some (ABoost info (fun _ => true)) (* handle_errors.hpp:851-872 *)
                  | RoInfo | RoDiag | RoDetails => None (* 59-61 *)
                  end
      | None => None
      end
  end.

(** always_available: context.hpp:44, 88, 106, 118 *)
Definition always_available (t : cty) : bool :=
  match arg_of t with Some (APtr _) | Some AInfo | Some ADiag | Some ADetails => true | _ => false end.
(** handler_matches_any_error, handle_errors.hpp:355-371 *)
Fixpoint handler_matches_any_error (l : list cty) : bool :=
  match l with [] => true | t :: l' => always_available t && handler_matches_any_error l' end.

(** The parameters of a handler, fn_mp_args, as what the interpreter works with *)
Fixpoint args_of (l : list cty) : option (list harg) :=
  match l with
  | [] => Some []
  | t :: l' => match arg_of t, args_of l' with Some a, Some al => Some (a :: al) | _, _ => None end
  end.
Definition handler_args (h : cty) : option (list harg) := match function_traits h with Fn _ l => args_of l | _ => None end.
End args.
