(** Common vocabulary and the program language.

    A program is arbitrary deterministic user code over the LEAF API, written as a well-founded
    tree whose continuations are Coq functions. *)
From stdpp Require Export base numbers list gmap.
From Coq Require Export ZArith.
Open Scope Z_scope.

(** ** Outcome of a library function *)

(** [UAF]: an object is accessed which does not exist (any more).
    [Assert]: a BOOST_LEAF_ASSERT fails. [IllTyped]: the C++ program would not compile. *)
Inductive fail := UAF | Assert | IllTyped.

Inductive res (A : Type) := Ok (a : A) | Fail (e : fail).
Arguments Ok {A} a.
Arguments Fail {A} e.

Definition rbind {A B} (x : res A) (f : A -> res B) : res B :=
  match x with Ok a => f a | Fail e => Fail e end.

Notation "'let!' x ':=' e 'in' k" := (rbind e (fun x => k))
  (at level 200, x pattern, e at level 100, k at level 200, right associativity).

(** ** Error types, error objects, exceptions *)

(** C++ types of error objects are numbered. *)
Definition ety := nat.
Definition cid := nat.  (* identity of a context object *)

Definition T_LOC : ety := 0%nat.   (* e_source_location, error.hpp:65 *)
Definition T_EC : ety := 1%nat.    (* std::error_code *)
Definition T_EPTR : ety := 2%nat.  (* std::exception_ptr *)
Definition T_STDEX : ety := 3%nat. (* std::exception *)
Definition T_BADRES : ety := 4%nat. (* leaf::bad_result, result.hpp:22 *)
Definition T_BOOSTEX : ety := 9%nat. (* boost::exception *)

(** Types with which slot<> is instantiated: an error type, or dynamic_allocator (error.hpp:174). *)
Inductive sty := SE (T : ety) | SDA.
Global Instance sty_eq_dec : EqDecision sty.
Proof. solve_decision. Defined.

(** A C++ exception object.
    [x_oid]  identity of the object (shared with its copies);
    [x_std]  it derives from std::exception;
    [x_cls]  the class types dynamic_cast can convert it to;
    [x_val]  user payload; [x_code] the std::error_code if it is a std::system_error;
    [x_eid]  the id, if it derives from leaf::error_id other than through LEAF's own exception type;
    [x_leaf] if it is a detail::exception<> (exception.hpp:80-153): its error id
    (its flag clear_current_error_, line 85, which changes over time, is kept in [clr] below). *)
Record exn := Exn {
  x_oid : nat; x_std : bool; x_cls : list ety; x_val : Z; x_code : option (nat * Z);
  x_eid : option Z; x_leaf : option Z }.
Global Instance exn_eq_dec : EqDecision exn.
Proof. solve_decision. Defined.

(** Error objects. LEAF never looks into them. *)
Inductive val := VZ (z : Z) | VEC (cat : nat) (v : Z) | VLOC (l : Z) | VX (x : exn).
Global Instance val_eq_dec : EqDecision val.
Proof. solve_decision. Defined.

(** The category of codes made from an error_id (error.hpp:582-599). *)
Definition LEAFCAT : nat := 0%nat.

(** Observable events: [EvUser] emitted by user code, [EvDefer]/[EvAcc] a user function passed as an item was called. *)
Inductive ev := EvUser (z : Z) | EvDefer (tag : Z) | EvAcc (tag : Z).

(** ** Items passed to new_error / load / on_error (error.hpp:493-524, on_error.hpp:90-164) *)
Inductive item :=
| IVal (T : ety) (v : val)                       (* an object *)
| IDef (T : ety) (tag : Z) (g : list ev -> val)  (* function of no arguments returning T; may look at the environment *)
| IAcc (T : ety) (tag : Z) (f : val -> val)      (* function taking T& *)
| IVoid (tag : Z).                               (* function of no arguments returning void (on_error only) *)

(** Nodes of a capture_list owned by a result (error.hpp:194-255): type, key, object. *)
Definition cnode : Type := ety * (Z * val).

(** ** Values of result types *)
Inductive ret :=
| RVal (z : Z)                                           (* success (also plain, non-result values) *)
| RErr (id : Z)                                          (* leaf::result<> holding an error_id value *)
| RCap (id : Z) (nodes : list cnode) (ex : option exn)   (* leaf::result<> holding a capture_list *)
| RFor (cat : nat) (v : Z).                              (* a third-party result failing with a std::error_code *)

Definition is_val (r : ret) : bool := match r with RVal _ => true | _ => false end.

(** ** Handler arguments (context.hpp:33-133, pred.hpp) *)
Inductive harg :=
| AE (T : ety)                    (* E, E const &, E & *)
| APtr (T : ety)                  (* E *, E const * *)
| APred (T : ety) (f : val -> bool) (* a predicate over E (match<> etc.) *)
| ACatch (cls : list ety)         (* catch_<Ex...> *)
| ABoost (info : exn -> option Z) (f : Z -> bool) (* boost::error_info<Tag, T> by value (f always true) or a predicate over it; info: what
                                     boost::exception_detail::get_info<error_info<Tag, T>>::get gives for the exception object, handle_errors.hpp:857-865 *)
| AInfo | ADiag | ADetails.       (* error_info / diagnostic_info / diagnostic_details const & *)

Inductive argval :=
| VE (v : val) | VP (v : option val) | VCatch (x : exn)
| VInfo (id : Z) (ex : option exn) (loc : option val)
| VDiag (id : Z) (ex : option exn) (loc : option val) (l : list (ety * val))
| VDetails (id : Z) (ex : option exn) (loc : option val) (l d : list (ety * val)).

(** What a throw statement throws: everything but identity and LEAF's additions. *)
Record xspec := XSpec { xs_std : bool; xs_cls : list ety; xs_val : Z; xs_code : option (nat * Z); xs_eid : option Z }.

(** ** Programs *)
Inductive prog :=
| PRet (r : ret)                                        (* return r *)
| PBind (p : prog) (k : ret -> prog)                    (* call p, go on with what it returns *)
| PEmit (z : Z) (k : prog)                              (* observable user action *)
| PNewError (its : list item) (k : Z -> prog)           (* new_error(its...) *)
| PLoad (id : Z) (its : list item) (k : prog)           (* error_id.load(its...) *)
| PCurErr (k : Z -> prog)                               (* current_error() *)
| PThrow (id : option Z) (x : xspec) (its : list item)  (* leaf::throw_exception([id,] x, its...) *)
| PThrowX (x : xspec)                                   (* throw x; *)
| PRethrow                                              (* throw; *)
| PCatch (p : prog) (h : exn -> prog)                   (* try { p } catch(...) { h } *)
| POnError (its : list item) (p : prog)                 (* { auto l = on_error(its...); p } *)
| PMonitor (k : Z -> prog)                              (* error_monitor m; *)
| PCheck (m : Z) (k : Z -> prog)                        (* m.check() *)
| PAssigned (m : Z) (k : Z -> prog)                     (* m.assigned_error_id() *)
| PTHA (p : prog) (hs : handlers)                       (* try_handle_all *)
| PTHS (p : prog) (hs : handlers)                       (* try_handle_some *)
| PTC (p : prog) (hs : handlers)                        (* try_catch *)
| PCapture (isvoid : bool) (p : prog)                   (* try_capture_all; isvoid: the try block returns void *)
| PUnload (r : ret) (k : ret -> prog)                   (* r.unload() *)
| PValue (r : ret) (k : Z -> prog)                      (* r.value() *)
| PErrId (r : ret) (k : Z -> prog)                      (* error_id(r.error()) *)
| PE2R (cls : list ety) (p : prog)                      (* exception_to_result<cls...>(p) *)
| PImport (cat : nat) (v : Z) (k : Z -> prog)           (* error_id(std::error_code(v, cat)) *)
| PCtx (tup : list sty) (k : cid -> prog)               (* { context<...> c; k } *)
| PAct (c : cid) (p : prog)                             (* { auto a = activate_context(c); p } *)
| PCtxUnload (c : cid) (id : Z) (k : prog)              (* c.unload(id) *)
| PCtxHandle (c : cid) (id : Z) (hs : handlers)         (* c.handle_error(id, hs...) *)
with handlers :=
| HNil
| HMut (args : list harg) (w : list argval -> list (ety * val)) (b : list argval -> prog) (rest : handlers)
    (* a handler; it starts by assigning the values w to the objects its E & and E * arguments refer to *)
| HTup (hs : handlers) (rest : handlers).               (* a std::tuple of handlers *)

(** a handler that does not modify its arguments *)
Definition HCons (args : list harg) (b : list argval -> prog) (rest : handlers) : handlers := HMut args (fun _ => []) b rest.

(** The types of objects a handler can modify: its arguments of type E & or E * (context.hpp:48-56, 109-117). *)
Definition mutable (args : list harg) (T : ety) : bool :=
  existsb (fun a => match a with AE T' | APtr T' => (T' =? T)%nat | _ => false end) args.
Definition writes (args : list harg) (l : list (ety * val)) : list (ety * val) := List.filter (fun x => mutable args (fst x)) l.

Scheme prog_mind := Induction for prog Sort Prop
  with handlers_mind := Induction for handlers Sort Prop.
Combined Scheme prog_handlers_ind from prog_mind, handlers_mind.

(** ** Configuration *)
Record cfg := Cfg {
  g_capture : bool;       (* BOOST_LEAF_CFG_CAPTURE *)
  g_diag : bool;          (* BOOST_LEAF_CFG_DIAGNOSTICS *)
  g_asserts : bool;       (* BOOST_LEAF_ASSERT enabled (no NDEBUG) *)
  g_class : ety -> bool;  (* std::is_class<E> *)
  g_abs : ety -> bool;    (* does_not_participate_in_context_deduction<E>, context.hpp:236 *)
  g_show : ety -> bool;   (* show_in_diagnostics<E> *)
  g_def : ety -> val;     (* E() *)
  g_sup : nat -> Z }.     (* the id the thread is given the n-th time it asks the id factory *)

(** What is per-thread state besides error object storage. *)
Record glob := Glob {
  cur : Z;          (* thread local current id, error.hpp:549 *)
  ngen : nat;       (* how many ids the thread obtained *)
  oid : nat;        (* next exception object identity *)
  clr : list nat;   (* the LEAF exceptions whose clear_current_error_ is true *)
  tr : list ev }.   (* events, latest first *)

Definition set_cur (z : Z) (g : glob) : glob := Glob z (ngen g) (oid g) (clr g) (tr g).
Definition set_clr (l : list nat) (g : glob) : glob := Glob (cur g) (ngen g) (oid g) l (tr g).
Definition emit (e : ev) (g : glob) : glob := Glob (cur g) (ngen g) (oid g) (clr g) (e :: tr g).
Definition glob0 : glob := Glob 0 0 0 [] [].

(** BOOST_LEAF_ASSERT *)
Definition assert (G : cfg) (b : bool) : res unit :=
  if g_asserts G && negb b then Fail Assert else Ok tt.
