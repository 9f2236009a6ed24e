(** Thread local storage by index, config/tls_array.hpp. *)
From stdpp Require Export base gmap list.
From Coq Require Export ZArith.
Open Scope Z_scope.

(** BOOST_LEAF_CFG_TLS_ARRAY_START_INDEX, BOOST_LEAF_CFG_TLS_ARRAY_SIZE, the largest value of
    BOOST_LEAF_CFG_TLS_INDEX_TYPE, the number of bits of a pointer, assertions enabled (tls_array.hpp:34-50) *)
Record tcfg := TCfg { c_start : Z; c_size : Z; c_max : Z; c_bits : Z; c_assert : bool }.
(** the static assertions, tls_array.hpp:42-50, 132, 139 *)
Definition cfg_ok (C : tcfg) : Prop :=
  0 <= c_start C /\ c_start C < c_size C /\ c_size C - 1 <= c_max C /\ 32 <= c_bits C.

Notation tytag := nat (only parsing).
Notation thr := nat (only parsing).

(** What all threads share: index_counter<>::c_, tls_index<T>::idx, alloc_tls_index<T>::idx; a type that is not in
    the maps has the initial value (tls_array.hpp:66, 88, 94, 97-104). And one array per thread (null: 0). *)
Record tstate := TState { t_c : Z; t_idx : gmap tytag Z; t_alloc : gmap tytag Z; t_arr : gmap (thr * Z) Z }.
Definition tinit (C : tcfg) : tstate := TState (c_start C) ∅ ∅ ∅.

Inductive toutcome (A : Type) := TOk (a : A) | TAssert | TRange.
Arguments TOk {A} a. Arguments TAssert {A}. Arguments TRange {A}.

(** The two functions LEAF requires (tls_array.hpp:21-22): an array per thread with the indices [START, SIZE).
    Anything else is out of range. *)
Definition in_range (C : tcfg) (i : Z) : bool := (c_start C <=? i) && (i <? c_size C).
Definition read_void_ptr (C : tcfg) (s : tstate) (th : thr) (i : Z) : toutcome Z :=
  if in_range C i then TOk (default 0 (t_arr s !! (th, i))) else TRange.
Definition write_void_ptr (C : tcfg) (s : tstate) (th : thr) (i : Z) (p : Z) : toutcome tstate :=
  if in_range C i then TOk (TState (t_c s) (t_idx s) (t_alloc s) (<[(th, i) := p]> (t_arr s))) else TRange.

(** The dynamic initialisation of alloc_tls_index<T>::idx, tls_array.hpp:104: next<T>() (68-74, 79-82) is
    converted to the index type and stored in both variables. *)
Definition init_alloc (C : tcfg) (s : tstate) (T : tytag) : toutcome tstate :=
  let idx := t_c s + 1 in
  if c_assert C && negb ((c_start C <? idx) && (idx <? c_size C)) then TAssert
  else let x := idx mod (c_max C + 1) in
       TOk (TState idx (<[T := x]> (t_idx s)) (<[T := x]> (t_alloc s)) (t_arr s)).

(** read_ptr, tls_array.hpp:108-116 *)
Definition read_ptr (C : tcfg) (s : tstate) (th : thr) (T : tytag) : toutcome Z :=
  let i := default (c_start C) (t_idx s !! T) in
  if i =? c_start C then TOk 0 else read_void_ptr C s th (i - 1).
(** write_ptr, tls_array.hpp:118-125; a static variable that is not yet initialised is zero *)
Definition write_ptr (C : tcfg) (s : tstate) (th : thr) (T : tytag) (p : Z) : toutcome tstate :=
  let i := default 0 (t_alloc s !! T) - 1 in
  match write_void_ptr C s th i p with
  | TOk s' =>
      if c_assert C then
        match read_void_ptr C s' th i with TOk q => if q =? p then TOk s' else TAssert | TAssert => TAssert | TRange => TRange end
      else TOk s'
  | e => e
  end.
(** read_uint, write_uint, tls_array.hpp:129-141 *)
Definition read_uint (C : tcfg) (s : tstate) (th : thr) (T : tytag) : toutcome Z :=
  match read_ptr C s th T with TOk p => TOk (p mod 2 ^ 32) | e => e end.
Definition write_uint (C : tcfg) (s : tstate) (th : thr) (T : tytag) (x : Z) : toutcome tstate :=
  write_ptr C s th T (x mod 2 ^ c_bits C).

(** What happens in a process: indices are initialised (one of the static variables at a time, in any order, possibly
    interleaved with the threads' accesses), threads read and write. A run gives the values read, oldest first. *)
Inductive tevent := EvInit (T : tytag) | EvRead (th : thr) (T : tytag) | EvWrite (th : thr) (T : tytag) (p : Z)
                  | EvReadU (th : thr) (T : tytag) | EvWriteU (th : thr) (T : tytag) (x : Z).
Fixpoint trun (C : tcfg) (s : tstate) (evs : list tevent) : toutcome (list Z * tstate) :=
  match evs with
  | [] => TOk ([], s)
  | ev :: evs' =>
      match match ev with
            | EvInit T => match init_alloc C s T with TOk s' => TOk ([], s') | TAssert => TAssert | TRange => TRange end
            | EvRead th T => match read_ptr C s th T with TOk v => TOk ([v], s) | TAssert => TAssert | TRange => TRange end
            | EvWrite th T p => match write_ptr C s th T p with TOk s' => TOk ([], s') | TAssert => TAssert | TRange => TRange end
            | EvReadU th T => match read_uint C s th T with TOk v => TOk ([v], s) | TAssert => TAssert | TRange => TRange end
            | EvWriteU th T x => match write_uint C s th T x with TOk s' => TOk ([], s') | TAssert => TAssert | TRange => TRange end
            end with
      | TOk (vs, s') => match trun C s' evs' with TOk (vs', s'') => TOk (vs ++ vs', s'') | e => e end
      | TAssert => TAssert
      | TRange => TRange
      end
  end.
