(** Error ids as machine integers: the id counter, error_id values, result discriminants. *)
From stdpp Require Export base numbers list.
From Coq Require Export ZArith.
Open Scope Z_scope.

(** unsigned int and int have 32 bits; int(unsigned) keeps the bits. *)
Definition u32 (z : Z) : Z := z mod 2^32.
Definition to_int (u : Z) : Z := if u <? 2^31 then u else u - 2^32.

(** id_factory::counter, error.hpp:546-547 *)
Definition counter0 : Z := 1.

(** id_factory::generate_next_id, error.hpp:538-543: the counter's new value; the assertion in line 541 *)
Definition generate_next_id (counter : Z) : Z := u32 (counter + 4).
Definition generate_assert (id : Z) : bool := Z.land id 3 =? 1.

(** The counter after n calls, and the id made by the n-th call (counting from 0): error.hpp:556-561 *)
Fixpoint counter_after (n : nat) : Z := match n with O => counter0 | S n' => generate_next_id (counter_after n') end.
Definition nth_id (n : nat) : Z := to_int (counter_after (S n)).

(** make_error_id, error.hpp:749-753: (err_id & ~3) | 1 on int *)
Definition make_error_id (id : Z) : Z := Z.lor (Z.land id (Z.lnot 3)) 1.
(** its assertion, and error_id's, error.hpp:648, 707, 751 *)
Definition id_assert (id : Z) : bool := (id =? 0) || (Z.land id 3 =? 1).
(** error_id::operator bool, error.hpp:711-714 *)
Definition truthy (id : Z) : bool := negb (id =? 0).
(** operator<<, error.hpp:731-735: C++ division truncates *)
Definition printed (id : Z) : Z := Z.quot id 4.

(** new_error(), error.hpp:756-759, current_error() 767-770 *)
Definition new_error (counter : Z) : Z * Z := let c := generate_next_id counter in (make_error_id (to_int c), c).
Definition current_error (tls_cur : Z) : Z := make_error_id (to_int tls_cur).

(** result_discriminant, result.hpp:113-163 *)
Inductive kind_t := err_id_zero | err_id | err_id_capture_list | k_val.
Definition disc_of_id (id : Z) : Z := id.                                     (* 128-133 *)
Definition disc_of_cap (id : Z) : Z := Z.lor (Z.land id (Z.lnot 3)) 2.         (* 136-141 *)
Definition disc_val : Z := 3.                                                  (* 145-150 *)
Definition disc_kind (st : Z) : kind_t :=                                      (* 152-155 *)
  match Z.land st 3 with 0 => err_id_zero | 1 => err_id | 2 => err_id_capture_list | _ => k_val end.
Definition disc_get_error_id (st : Z) : Z := make_error_id (Z.lor (Z.land st (Z.lnot 3)) 1). (* 157-161 *)
