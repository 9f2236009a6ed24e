(** Model of printing: detail/print.hpp, slot::print, tuple_for_each::print, capture_list::print, error_info, diagnostic_info,
    diagnostic_details, context and result (operator<<).
    Output is a string. What user code supplies (operator<< of error types, what(), type names) is a parameter; a stream never fails. *)
From Verif Require Export Interp Ids.
From Coq Require Export Strings.String Strings.Ascii.
From Coq Require Import Numbers.DecimalString Numbers.DecimalZ.
Open Scope Z_scope.

Definition nl : string := String "010"%char EmptyString.
Definition quo : string := String "034"%char EmptyString.
Infix "^+" := String.append (right associativity, at level 60).

(** an int as printed by operator<< *)
Definition dec (z : Z) : string := NilZero.string_of_int (Z.to_int z).

(** What a type's printed text is made from *)
Inductive how := HObj (* os << x *) | HVal (* os << x.value *) | HWhat (* x.what() *) | HEnum (* the underlying integer *).

(** The type traits diagnostic<> selects on, print.hpp:25-46, 85-92; without taking show_in_diagnostics into account *)
Record traits := Traits { t_streams : bool; t_value : bool; t_exc : bool; t_enum : bool }.

Record pcfg := PCfg {
  p_first : string;                         (* BOOST_LEAF_CFG_DIAGNOSTICS_FIRST_DELIMITER *)
  p_delim : string;                         (* BOOST_LEAF_CFG_DIAGNOSTICS_DELIMITER *)
  p_traits : ety -> traits;
  p_name : ety -> string;                   (* parse<T>(), see Demangle.v *)
  p_str : how -> ety -> val -> option string; (* None: a null pointer *)
  p_xname : exn -> string;                  (* name of the exception's type, or of the one it wraps *)
  p_what : exn -> string;
  p_rval : Z -> option string               (* operator<< of a result's value; None: not printable *)
}.

(** The partial specializations of diagnostic<>, print.hpp:85-157; arguments ShowInDiagnostics .. IsEnum. None: no definition, the program does not compile. *)
Inductive spec := SHidden | SPrint (h : how) | SNameOnly.
Definition specialization (show wrap value exc enum : bool) : option spec :=
  match show, wrap, value, exc, enum with
  | false, _, _, _, _ => Some SHidden                    (* 94-102 *)
  | true, true, _, false, _ => Some (SPrint HObj)        (* 104-112 *)
  | true, false, true, false, false => Some (SPrint HVal) (* 114-122 *)
  | true, _, _, true, false => Some (SPrint HWhat)       (* 124-137 *)
  | true, false, false, false, false => Some SNameOnly   (* 139-147 *)
  | true, false, false, false, true => Some (SPrint HEnum) (* 149-157 *)
  | _, _, _, _, _ => None
  end.

Section print.
Context (G : cfg) (P : pcfg).

(** diagnostic<T>, with is_printable and has_printable_member_value (print.hpp:30-33, 42-45) *)
Definition diag_of (T : ety) : option spec :=
  let t := p_traits P T in let show := g_show G T in
  specialization show (t_streams t && show) (t_value t && show) (t_exc t) (t_enum t).

(** print_name, print.hpp:49-57; the title is an in/out parameter *)
Definition print_name (T : ety) (prefix : option string) : string * option string :=
  (match prefix with Some p => p | None => p_delim P end ^+ p_name P T, None).

(** print_impl, print.hpp:59-81; [mid]: the separator and the text streamed after it *)
Definition print_impl (T : ety) (prefix : option string) (mid : option (string * option string)) : string * option string :=
  let '(s, prefix) := print_name T prefix in
  (s ^+ match mid with Some (sep, x) => sep ^+ match x with Some t => t | None => "<nullptr>" end | None => "" end, prefix).

(** diagnostic<T>::print, print.hpp:85-157: whether something was printed, the output, the title left *)
Definition diag_print (T : ety) (prefix : option string) (v : val) : res (bool * string * option string) :=
  match diag_of T with
  | Some SHidden => Ok (false, ""%string, prefix)
  | Some (SPrint HWhat) => let '(s, prefix) := print_impl T prefix (Some (": " ^+ quo, p_str P HWhat T v)%string) in Ok (true, s ^+ quo, prefix)
  | Some (SPrint h) => let '(s, prefix) := print_impl T prefix (Some (": "%string, p_str P h T v)) in Ok (true, s, prefix)
  | Some SNameOnly => let '(s, prefix) := print_impl T prefix None in Ok (true, s, prefix)
  | None => Fail IllTyped
  end.

(** slot<E>::print, error.hpp:148-158; [id] = 0: error_id() *)
Definition slot_print (id : Z) (T : ety) (k : Z) (v : val) (prefix : option string) : res (string * option string) :=
  if k =? 0 then Ok (""%string, prefix)
  else if negb (id =? 0) && negb (id =? k) then Ok (""%string, prefix)
  else
    let! b := diag_print T prefix v in
    let '(b, s, prefix) := b in
    Ok (if b && (id =? 0) then s ^+ "(" ^+ dec (printed k) ^+ ")" else s, prefix).

(** tuple_for_each::print, context.hpp:206-212. The slot of a dynamic_allocator is printed, too: nothing, as show_in_diagnostics<dynamic_allocator>
    is false (error.hpp:400-403). *)
Fixpoint tuple_print (c : cid) (id : Z) (tup : list sty) (m : mem) (prefix : option string) : res (string * option string) :=
  match tup with
  | [] => Ok (""%string, prefix)
  | SE T :: tup' =>
      let! s := deref (hp m !! inl (c, T)) in
      let! r := slot_print id T (e_key s) (e_val s) prefix in
      let! r' := tuple_print c id tup' m (snd r) in
      Ok (fst r ^+ fst r', snd r')
  | SDA :: tup' => let! _ := deref (dhp m !! c) in tuple_print c id tup' m prefix
  end.

(** capture_list::print, capture_list.hpp:98-115: the nodes of a dynamic_allocator *)
Fixpoint list_print (id : Z) (l : list (ety * nat)) (m : mem) (prefix : option string) : res (string * option string) :=
  match l with
  | [] => Ok (""%string, prefix)
  | (T, n) :: l' =>
      let! s := deref (hp m !! inr n) in
      let! r := slot_print id T (e_key s) (e_val s) prefix in
      let! r' := list_print id l' m (snd r) in
      Ok (fst r ^+ fst r', snd r')
  end.

(** e_source_location, error.hpp:71-75, is streamed by its operator<< *)
Definition loc_text (v : val) : string := match p_str P HObj T_LOC v with Some s => s | None => "" end.

(** error_info::print_error_info, handle_errors.hpp:82-101 *)
Definition print_error_info (ei : einfo) : string :=
  "Error with serial #" ^+ dec (printed (ei_id ei)) ^+
  match ei_loc ei with Some v => " reported at " ^+ loc_text v | None => "" end ^+
  match ei_ex ei with Some x => nl ^+ "Caught:" ^+ p_first P ^+ p_xname P x ^+ ": " ^+ quo ^+ p_what P x ^+ quo | None => "" end.

(** print_diagnostic_info: diagnostics.hpp:33-39, and 84-89 (BOOST_LEAF_CFG_DIAGNOSTICS=0) *)
Definition print_diagnostic_info (c : cid) (ei : einfo) (m : mem) : res string :=
  if g_diag G then
    let! k := deref (ctxs m !! c) in
    let prefix := match ei_ex ei with Some _ => None | None => Some (nl ^+ "Caught:" ^+ p_first P) end in
    let! r := tuple_print c (ei_id ei) (k_tup k) m prefix in
    Ok (print_error_info ei ^+ fst r)
  else Ok (print_error_info ei ^+ nl ^+ "boost::leaf::diagnostic_info N/A due to BOOST_LEAF_CFG_DIAGNOSTICS=0").

(** operator<<, diagnostics.hpp:41-46, 91-96 *)
Definition show_diagnostic_info (c : cid) (ei : einfo) (m : mem) : res string :=
  let! s := print_diagnostic_info c ei m in Ok (s ^+ nl).

(** operator<< of diagnostic_details: diagnostics.hpp:143-159 with 173-182; 198-211 (no capture); 251-263 (no diagnostics) *)
Definition show_diagnostic_details (c : cid) (ei : einfo) (m : mem) : res string :=
  if g_diag G then
    let! s := print_diagnostic_info c ei m in
    if g_capture G then
      let! k := deref (ctxs m !! c) in
      if bool_decide (SDA ∈ k_tup k) then
        let! d := deref (dhp m !! c) in
        if d_key d =? 0 then Ok (s ^+ nl) (* has_value_any_key: no dynamic_allocator *)
        else
          let! r := list_print (ei_id ei) (d_nodes d) m (Some (nl ^+ "Diagnostic details:" ^+ p_first P)) in
          Ok (s ^+ fst r ^+ nl)
      else Ok (s ^+ nl)
    else Ok (s ^+ nl ^+ "boost::leaf::diagnostic_details N/A due to BOOST_LEAF_CFG_CAPTURE=0" ^+ nl)
  else Ok (print_error_info ei ^+ nl ^+ "boost::leaf::diagnostic_details N/A due to BOOST_LEAF_CFG_DIAGNOSTICS=0" ^+ nl).

(** operator<< of error_info, handle_errors.hpp:103-108 *)
Definition show_error_info (ei : einfo) : string := print_error_info ei ^+ nl.

(** operator<< of a context, context.hpp:370-382 *)
Definition show_context (c : cid) (m : mem) : res string :=
  let! k := deref (ctxs m !! c) in
  let! r := tuple_print c 0 (k_tup k) m (Some "Contents:"%string) in
  Ok (fst r ^+ nl).

(** capture_list::print for the list a result holds, capture_list.hpp:98-115; the node of a captured exception prints nothing (error.hpp:241-244) *)
Fixpoint caplist_print (id : Z) (l : list cnode) (prefix : option string) : res (string * option string) :=
  match l with
  | [] => Ok (""%string, prefix)
  | (T, (k, v)) :: l' =>
      let! r := slot_print id T k v prefix in
      let! r' := caplist_print id l' (snd r) in
      Ok (fst r ^+ fst r', snd r')
  end.

(** operator<< of result<T> and result<void> [void], result.hpp:33-62, 334-351, 598-606, 698-707. Not of third-party results. *)
Definition show_result (void : bool) (r : ret) : res string :=
  match r with
  | RVal z => Ok (if void then "No error" else match p_rval P z with Some s => s | None => "{not printable}" end)%string
  | RErr id => Ok ("Error serial #" ^+ dec (printed id))
  | RCap id l _ =>
      let! s := (if g_diag G then caplist_print id l (Some (nl ^+ "Captured:")) else Ok (""%string, None)) in
      Ok ("Error serial #" ^+ dec (printed id) ^+ fst s ^+ nl)
  | RFor _ _ => Fail IllTyped
  end.
End print.
