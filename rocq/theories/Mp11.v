(** Type lists (detail/mp11.hpp) and deduction of the storage a handler list needs (context.hpp:236-265, 405-445). *)
From Verif Require Export Prog.
Open Scope Z_scope.

Section lists.
Context {A : Type} `{EqDecision A}.

(** mp_set_push_back, mp11.hpp:91-106 *)
Fixpoint mp_set_push_back (s : list A) (l : list A) : list A :=
  match l with
  | [] => s
  | t :: l' => mp_set_push_back (if bool_decide (t ∈ s) then s else s ++ [t]) l'
  end.

(** mp_unique, mp11.hpp:112-121 *)
Definition mp_unique (l : list A) : list A := mp_set_push_back [] l.

(** mp_append, mp11.hpp:128-147 *)
Fixpoint mp_append_to (acc : list A) (ls : list (list A)) : list A :=
  match ls with
  | [] => acc
  | l :: ls' => mp_append_to (acc ++ l) ls'
  end.
Definition mp_append (ls : list (list A)) : list A :=
  match ls with [] => [] | l :: ls' => mp_append_to l ls' end.

(** mp_remove_if, mp11.hpp:197-207 *)
Definition mp_remove_if (P : A -> bool) (l : list A) : list A :=
  mp_append ([] :: map (fun t => if P t then [] else [t]) l).

End lists.

(** make_integer_sequence, mp11.hpp:239-274; the recursion N -> N/2 is bounded by fuel N. *)
Definition append_integer_sequence (i j : list nat) : list nat := i ++ map (fun x => (x + length i)%nat) j.
Fixpoint make_integer_sequence_ (fuel : nat) (N : nat) : list nat :=
  match fuel with
  | O => []
  | S fuel' =>
      match N with
      | O => []
      | S O => [0%nat]
      | _ =>
          let s1 := make_integer_sequence_ fuel' (Nat.div N 2) in
          let s2 := append_integer_sequence s1 s1 in
          let s3 := make_integer_sequence_ fuel' (Nat.modulo N 2) in
          append_integer_sequence s2 s3
      end
  end.
Definition make_index_sequence (N : nat) : list nat := make_integer_sequence_ (S N) N.

(** ** Storage deduction *)

(** handler_argument_traits<>::context_types: context.hpp:43, 87, 105, 119; diagnostics.hpp:61, 174, 226; handle_errors.hpp:854 *)
Definition context_types (G : cfg) (a : harg) : list sty :=
  match a with
  | AE T | APtr T | APred T _ => [SE T]
  | ACatch _ | ABoost _ _ | AInfo => []
  | ADiag => [SE T_LOC]
  | ADetails => if g_diag G && g_capture G then [SE T_LOC; SDA] else [SE T_LOC]
  end.

(** fn_mp_args_fwd, context.hpp:419-435: the argument types of a handler, or of all handlers in a tuple;
    context_type_from_handlers_impl 437-441 appends those of all handlers. *)
Fixpoint handlers_args (hs : handlers) : list harg :=
  match hs with
  | HNil => []
  | HMut args _ _ rest => args ++ handlers_args rest
  | HTup hs' rest => handlers_args hs' ++ handlers_args rest
  end.

(** does_not_participate_in_context_deduction, context.hpp:236-237 *)
Definition no_part (G : cfg) (t : sty) : bool := match t with SE T => g_abs G T | SDA => false end.

(** deduce_e_type_list, context.hpp:243-252 *)
Definition deduce_list (G : cfg) (l : list sty) : list sty := mp_remove_if (no_part G) (mp_unique l).
Definition deduce (G : cfg) (hs : handlers) : list sty :=
  deduce_list G (mp_append (map (context_types G) (handlers_args hs))).
