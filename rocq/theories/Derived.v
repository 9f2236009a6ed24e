(** Macros and functions of the library which are written in terms of those modelled in Interp. *)
From Verif Require Export Interp.
Open Scope Z_scope.

(** result::error() converted to another result type (or the same): error_result::operator result<U>, result.hpp:206-226; third-party results of the same
    family forward their error code. *)
Definition fwd (r : ret) : ret :=
  match r with
  | RErr id => RErr (mk id)
  | RCap id l ex => RCap (mk id) l ex
  | _ => r
  end.

(** BOOST_LEAF_CHECK, BOOST_LEAF_ASSIGN, BOOST_LEAF_AUTO, error.hpp:25-59: k is the rest of the function, given r.value(). *)
Definition leaf_check (p : prog) (k : Z -> prog) : prog := PBind p (fun r => if is_val r then PValue r k else PRet (fwd r)).

(** The same in a function which returns a leaf::result, if the checked operation returns a third-party result: result(std::error_code const &),
    result.hpp:424-427. *)
Definition leaf_check_foreign (p : prog) (k : Z -> prog) : prog :=
  PBind p (fun r => if is_val r then PValue r k else PErrId r (fun id => PRet (RErr id))).

(** error_id::operator T, error.hpp:670-674; is_error_id, 623-628 *)
Definition code := (nat * Z)%type.
Definition to_code (id : Z) : code := (LEAFCAT, id).
Definition is_error_id (c : code) : bool := (fst c =? LEAFCAT)%nat.

(** to_variant, to_variant.hpp:19-43: mkt builds the second alternative from the tuple of optionals, none_t is what the other handler returns *)
Definition to_variant (Es : list ety) (p : prog) (mkt : list argval -> prog) (none_t : prog) : prog :=
  PTHA (leaf_check p (fun z => PRet (RVal z))) (HCons (map APtr Es) mkt (HCons [] (fun _ => none_t) HNil)).
