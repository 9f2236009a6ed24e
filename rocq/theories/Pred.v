(** Predicates, pred.hpp. *)
From Verif Require Export Interp.
Open Scope Z_scope.

(** An element of the list V1, V...: a value, or (C++17) a function. *)
Inductive alt := AltV (v : val) | AltF (f : val -> bool).

Section pack.
(** operator== between the matched object and a listed value; it may be the user's. For a std::error_code and an
    enumerator of an error condition it is the comparison defined by the categories. *)
Context (eqop : val -> val -> bool).
(** cmp_value_pack with one element, pred.hpp:23-42; the null check of a function pointer is left out *)
Definition cmp_one (e : val) (a : alt) : bool := match a with AltV v => eqop e v | AltF f => f e end.
(** cmp_value_pack, pred.hpp:44-48 *)
Fixpoint cmp_value_pack (e : val) (car : alt) (cdr : list alt) : bool :=
  match cdr with
  | [] => cmp_one e car
  | a :: cdr' => cmp_one e car || cmp_value_pack e a cdr'
  end.
End pack.

(** Predicates over an error object of type T. *)
Inductive lpred :=
| PMatch (T : ety) (eqop : val -> val -> bool) (v1 : alt) (vs : list alt)               (* match<E, V1, V...>, 101-126 *)
| PMatchValue (T : ety) (value : val -> val) (eqop : val -> val -> bool) (v1 : alt) (vs : list alt)   (* match_value, 158-182 *)
| PMatchMember (T : ety) (member : val -> val) (eqop : val -> val -> bool) (v1 : alt) (vs : list alt) (* match_member, 195-205 *)
| PIfNot (p : lpred).                                                               (* if_not<P>, 215-226 *)
(** P::error_type *)
Fixpoint error_type (p : lpred) : ety :=
  match p with PMatch T _ _ _ | PMatchValue T _ _ _ _ | PMatchMember T _ _ _ _ => T | PIfNot p' => error_type p' end.
(** P::evaluate *)
Fixpoint evaluate (p : lpred) (e : val) : bool :=
  match p with
  | PMatch _ eqop v1 vs => cmp_value_pack eqop e v1 vs
  | PMatchValue _ value eqop v1 vs => cmp_value_pack eqop (value e) v1 vs
  | PMatchMember _ mem eqop v1 vs => cmp_value_pack eqop (mem e) v1 vs
  | PIfNot p' => negb (evaluate p' e)
  end.
(** The handler argument, context.hpp:64-82 *)
Definition pred_arg (p : lpred) : harg := APred (error_type p) (evaluate p).

(** category<Enum>, pred.hpp:67-72; enum_cat: the category of the enum's codes *)
Definition category (enum_cat : nat) (e : val) : bool := match e with VEC c _ => (c =? enum_cat)%nat | _ => false end.
(** operator== of error codes *)
Definition ec_eq (a b : val) : bool := match a, b with VEC c v, VEC c' v' => (c =? c')%nat && (v =? v') | _, _ => false end.

(** check_exception_pack, pred.hpp:240-255; dynamic_cast: [x_cls] *)
Definition dyn_cast (x : exn) (cl : ety) : bool := bool_decide (cl ∈ x_cls x).
Fixpoint check_pack (x : exn) (cl : ety) (rest : list ety) : bool :=
  match rest with [] => dyn_cast x cl | cl' :: rest' => dyn_cast x cl || check_pack x cl' rest' end.
(** catch_<Ex...>::evaluate, pred.hpp:258-285 *)
Definition catch_eval (cls : list ety) (x : exn) : bool := match cls with [] => true | cl :: rest => check_pack x cl rest end.
