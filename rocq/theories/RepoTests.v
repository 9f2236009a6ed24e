(** The library's own tests, run on the model.

    Each program below is a test of /repo/test, statement by statement; the number (or list) it is compared with is the one the test
    expects. They are run on the model of the code and on the stack machine, with and without assertions, capturing and diagnostics
    where the test does not depend on these; those which do not throw also on the model of builds without exceptions. *)
From Verif Require Import PropsSim Derived Ids NoExcept.
Open Scope Z_scope.

(** ** The runner *)

(** The ids are the ones the counter of a process with a single thread issues. *)
Definition tcfg (capture diag asserts : bool) : cfg :=
  Cfg capture diag asserts (fun _ => true) (fun _ => false) (fun _ => true) (fun _ => VZ 0) (fun n => nth_id n).
Definition all_cfgs : list cfg :=
  c ← [true; false]; d ← [true; false]; a ← [true; false]; [tcfg c d a].
Definition capture_cfgs : list cfg := d ← [true; false]; a ← [true; false]; [tcfg true d a].
Definition diag_cfgs : list cfg := a ← [true; false]; [tcfg true true a].

Definition value_of {A} (r : res (out * A)) : option Z := match r with Ok (ORet (RVal z), _) => Some z | _ => None end.
(** The program returns z, in the library and in the stack machine. *)
Definition gives (z : Z) (p : prog) (G : cfg) : bool :=
  bool_decide (value_of (eval G (pmach G) None p (mem0, glob0)) = Some z /\
               value_of (eval (asserts_on G) (smach (asserts_on G)) None p (smem0, glob0)) = Some z).
Definition test (z : Z) (p : prog) : bool := forallb (gives z p) all_cfgs.
(** The same also for builds without exceptions, for tests which do not use any. *)
Definition givesN (z : Z) (p : prog) (G : cfg) : bool := bool_decide (value_of (evalN G (pmach G) p (mem0, glob0)) = Some z).
Definition testN (z : Z) (p : prog) : bool := test z p && forallb (givesN z p) all_cfgs.
Definition test_capture (z : Z) (p : prog) : bool := forallb (gives z p) capture_cfgs.
Definition test_diag (z : Z) (p : prog) : bool := forallb (gives z p) diag_cfgs.

(** ** Vocabulary of the tests *)

Definition info (n : nat) : ety := (20 + n)%nat.
Definition ld (n : nat) (v : Z) : item := IVal (info n) (VZ v).
Definition inc (n : nat) : item := IAcc (info n) 0 (fun v : Prog.val => match v with VZ z => VZ (z + 1) | _ => v end).
Definition keep (n : nat) : item := IAcc (info n) 0 (fun v => v).
Definition lazy (n : nat) (v : Z) : item := IDef (info n) 0 (fun _ => VZ v).
Definition new (its : list item) : prog := PNewError its (fun id => PRet (RErr id)).
Definition seq (p q : prog) : prog := PBind p (fun _ => q).
Definition stdex : xspec := XSpec true [T_STDEX] 0 None None.
Definition MYEX : ety := 40%nat.
Definition ABSEX : ety := 41%nat.
Definition myex (v : Z) : xspec := XSpec true [T_STDEX; MYEX; ABSEX] v None None.
Definition throw_leaf_ (its : list item) : prog := PThrow None stdex its.
Definition loc : item := IVal T_LOC (VLOC 0).

(** BOOST_TEST_EQ(arg.value, ...): *)
Definition zof (a : argval) : Z := match a with VE (VZ z) | VP (Some (VZ z)) => z | VP None => -1 | VInfo id _ _ => id | _ => -2 end.
Definition expect (ok : bool) (z : Z) : prog := PRet (RVal (if ok then z else -99)).
Definition rval (r : ret) : option Z := match r with RVal z => Some z | _ => None end.
(** A handler which checks the values of its arguments and returns z *)
Definition on (args : list harg) (vs : list Z) (z : Z) : handlers -> handlers :=
  HCons args (fun l => expect (bool_decide (map zof l = vs)) z).
(** A handler which just returns z *)
Definition just (args : list harg) (z : Z) : handlers -> handlers := HCons args (fun _ => PRet (RVal z)).
Definition eqv (z : Z) (v : val) : bool := bool_decide (v = VZ z).
Definition E (n : nat) : harg := AE (info n).
Definition P (n : nat) : harg := APtr (info n).
Definition V (n : nat) (z : Z) : harg := APred (info n) (eqv z).
(** return error_info.error() *)
Definition same_error (l : list argval) : prog := match l with VInfo id _ _ :: _ => PRet (RErr id) | _ => PRet (RVal (-98)) end.

(** ** User contexts *)

(** ctx_handle_some_test.cpp:30-47, ctx_handle_all_test.cpp *)
Definition ctx_f (c : cid) : prog := PAct c (new [ld 1 1]).
Example ctx_handle_some : testN 1
  (PCtx [SE (info 1)] (fun c => PBind (ctx_f c) (fun r1 => PErrId r1 (fun id =>
    PCtxHandle c id (on [E 1] [1] 1 (HCons [] (fun _ => PRet r1) HNil)))))) = true.
Proof. vm_compute. reflexivity. Qed.

(** ctx_remote_handle_all_test.cpp:31-56; the second handler takes diagnostic_details *)
Example ctx_remote_handle_all :
  let hs := HTup (on [E 1] [1] 1 (just [ADetails] 2 HNil)) HNil in
  forallb (fun G => gives 1 (PCtx (deduce G hs) (fun c => PBind (ctx_f c) (fun r1 => PErrId r1 (fun id => PCtxHandle c id hs)))) G) all_cfgs = true.
Proof. vm_compute. reflexivity. Qed.

(** context_activator_test.cpp:29-58: the context is activated twice *)
Example context_activator :
  let hs := on [E 1] [1] 1 (just [] 2 HNil) in
  forallb (fun G => gives 1
    (PTHA (PCtx (deduce G hs) (fun c => PBind (PAct c (ctx_f c)) (fun r1 => PErrId r1 (fun id => PCtxUnload c id (PRet r1))))) (HTup hs HNil)) G) all_cfgs = true.
Proof. vm_compute. reflexivity. Qed.

(** ** on_error *)

(** on_error_accumulate_basic_test.cpp *)
Example accumulate_basic : testN 1
  (PTHA (POnError [inc 1; inc 2] (POnError [inc 1] (new []))) (on [E 1; E 2] [2; 1] 1 (just [] 2 HNil))) = true.
Proof. vm_compute. reflexivity. Qed.

(** on_error_defer_basic_test.cpp: what the deferred function returns depends on a variable set after on_error is called. Here the
    variable is the latest event; cleanup_count is how often IVoid was called. *)
Definition latest (t : list ev) : Prog.val := match List.filter (fun e => match e with EvUser _ => true | _ => false end) t with EvUser z :: _ => VZ z | _ => VZ (-3) end.
Example defer_basic :
  forallb (fun G => match eval G (pmach G) None
    (PTHA (POnError [IVoid 7] (PEmit 0 (POnError [IVoid 7; IDef (info 42) 1 latest; lazy 0 (-42)]
       (PEmit 42 (new [])))))
      (HCons [E 42; ADiag] (fun l => match l with VE (VZ z) :: _ => expect (z =? 42) 1 | _ => PRet (RVal 3) end) (just [] 2 HNil))) (mem0, glob0) with
    | Ok (ORet (RVal 1), (_, g)) => (length (List.filter (fun e => match e with EvDefer 7 => true | _ => false end) (tr g)) =? 2)%nat
    | _ => false end) all_cfgs = true.
Proof. vm_compute. reflexivity. Qed.

(** on_error_preload_basic_test.cpp *)
Example preload_basic : testN 1
  (PTHA (POnError [ld 42 42; ld 0 (-42)] (new [])) (HCons [E 42; ADiag] (fun l => match l with VE (VZ z) :: _ => expect (z =? 42) 1 | _ => PRet (RVal 3) end) (just [] 2 HNil))) = true.
Proof. vm_compute. reflexivity. Qed.

(** on_error_{accumulate,defer,preload}_nested_error_result_test.cpp *)
Definition nested_error (i0 i1 : list item) : prog :=
  PTHA (PBind (POnError i1 (POnError i0 (new [ld 2 2]))) (fun r => PErrId r (fun id => PLoad id [ld 3 3] (PRet (RErr id)))))
    (on [E 0; E 1; E 2; E 3] [0; 1; 2; 3] 1 (just [] 2 HNil)).
Example nested_error_accumulate : testN 1 (nested_error [keep 0] [ld 0 (-1); ld 2 (-1); inc 1]) = true.
Proof. vm_compute. reflexivity. Qed.
Example nested_error_defer : testN 1 (nested_error [lazy 0 0] [lazy 0 (-1); lazy 1 1; lazy 2 (-1)]) = true.
Proof. vm_compute. reflexivity. Qed.
Example nested_error_preload : testN 1 (nested_error [ld 0 0] [ld 0 (-1); ld 1 1; ld 2 (-1)]) = true.
Proof. vm_compute. reflexivity. Qed.

(** on_error_{accumulate,defer,preload}_nested_new_error_result_test.cpp *)
Definition nested_new_error (i0 i1 : list item) (v2 : Z) : prog :=
  PTHA (PBind (POnError i1 (seq (POnError i0 (new [ld 1 (-1)])) (new []))) (fun r => PErrId r (fun id => PLoad id [ld 3 3] (PRet (RErr id)))))
    (on [E 0; E 1; E 2; E 3] [0; 1; v2; 3] 1 (just [] 2 HNil)).
Example nested_new_error_accumulate : testN 1 (nested_new_error [ld 0 (-1)] [keep 0; inc 1; inc 2] 1) = true.
Proof. vm_compute. reflexivity. Qed.
Example nested_new_error_defer : testN 1 (nested_new_error [lazy 0 (-1)] [lazy 0 0; lazy 1 1; lazy 2 2] 2) = true.
Proof. vm_compute. reflexivity. Qed.
Example nested_new_error_preload : testN 1 (nested_new_error [ld 0 (-1)] [ld 0 0; ld 1 1; ld 2 2] 2) = true.
Proof. vm_compute. reflexivity. Qed.

(** on_error_{accumulate,defer,preload}_nested_error_exception_test.cpp; catch( leaf::error_id const & err ) *)
Definition load_and_rethrow (x : exn) : prog := match x_leaf x with Some id => PLoad id [ld 3 3] PRethrow | None => PRet (RVal (-97)) end.
Definition nested_error_ex (i0 i1 : list item) : prog :=
  PTC (PCatch (POnError i1 (POnError i0 (throw_leaf_ [ld 2 2]))) load_and_rethrow)
    (on [E 0; E 1; E 2; E 3] [0; 1; 2; 3] 1 (just [] 2 HNil)).
Example nested_error_accumulate_ex : test 1 (nested_error_ex [keep 0] [ld 0 (-1); ld 2 (-1); inc 1]) = true.
Proof. vm_compute. reflexivity. Qed.
Example nested_error_defer_ex : test 1 (nested_error_ex [lazy 0 0] [lazy 0 (-1); lazy 1 1; lazy 2 (-1)]) = true.
Proof. vm_compute. reflexivity. Qed.
Example nested_error_preload_ex : test 1 (nested_error_ex [ld 0 0] [ld 0 (-1); ld 1 1; ld 2 (-1)]) = true.
Proof. vm_compute. reflexivity. Qed.

(** on_error_{accumulate,defer,preload}_nested_new_error_exception_test.cpp *)
Definition nested_new_error_ex (i0 i1 : list item) (v2 : Z) : prog :=
  PTC (PCatch (POnError i1 (seq (PCatch (POnError i0 (throw_leaf_ [ld 1 (-1)])) (fun _ => PRet (RVal 0))) (throw_leaf_ []))) load_and_rethrow)
    (on [E 0; E 1; E 2; E 3] [0; 1; v2; 3] 1 (just [] 2 HNil)).
Example nested_new_error_accumulate_ex : test 1 (nested_new_error_ex [ld 0 (-1)] [keep 0; inc 1; inc 2] 1) = true.
Proof. vm_compute. reflexivity. Qed.
Example nested_new_error_defer_ex : test 1 (nested_new_error_ex [lazy 0 (-1)] [lazy 0 0; lazy 1 1; lazy 2 2] 2) = true.
Proof. vm_compute. reflexivity. Qed.
Example nested_new_error_preload_ex : test 1 (nested_new_error_ex [ld 0 (-1)] [ld 0 0; ld 1 1; ld 2 2] 2) = true.
Proof. vm_compute. reflexivity. Qed.

(** on_error_{accumulate,defer,preload}_nested_success_result_test.cpp *)
Definition nested_success (i1 i2 : item) : prog :=
  PTHA (leaf_check (POnError [i2] (leaf_check (POnError [i1] (PRet (RVal 0))) (fun _ => new []))) (fun _ => PRet (RVal 1)))
    (on [E 0] [2] 2 (just [] 3 HNil)).
Example nested_success_accumulate : testN 2 (nested_success (inc 0) (ld 0 2)) = true.
Proof. vm_compute. reflexivity. Qed.
Example nested_success_defer : testN 2 (nested_success (lazy 0 1) (lazy 0 2)) = true.
Proof. vm_compute. reflexivity. Qed.
Example nested_success_preload : testN 2 (nested_success (ld 0 1) (ld 0 2)) = true.
Proof. vm_compute. reflexivity. Qed.

(** on_error_accumulate_nested_success_exception_test.cpp: std::exception thrown without LEAF *)
Example nested_success_exception : test 1
  (PTC (POnError [ld 0 42] (seq (POnError [inc 0] (PRet (RVal 0))) (PThrowX stdex))) (on [E 0] [42] 1 (just [] 2 HNil))) = true.
Proof. vm_compute. reflexivity. Qed.

(** on_error_preload_exception_test.cpp: four scopes one after the other; the ids are 5, 9, 13, 17 *)
Definition g1 (p : prog) : prog := POnError [ld 1 0] p.
Definition g2 (p : prog) : prog := POnError [ld 3 0; ld 2 0] p.
Definition four (p : prog) (k : prog) (z : Z) : prog := PBind p (fun r => match r with RVal v => if v =? z then k else PRet (RVal (-99)) | _ => PRet (RVal (-99)) end).
Example preload_exception : test 100
  (let h1 id := on [AInfo; E 1] [id; 0] 1 (just [E 2] 2 (just [E 1; E 2] 3 HNil)) in
   let h2 id := just [E 1] 1 (on [AInfo; E 2; E 3] [id; 0; 0] 2 (just [E 1; E 2] 3 HNil)) in
   four (PTC (g1 (throw_leaf_ [])) (h1 5)) (four (PTC (g2 (throw_leaf_ [])) (h2 9)) (four (PTC (g1 (PThrowX stdex)) (h1 13))
     (four (PTC (g2 (PThrowX stdex)) (h2 17)) (PRet (RVal 100)) 2) 1) 2) 1) = true.
Proof. vm_compute. reflexivity. Qed.

(** ** Several errors *)

(** multiple_errors_test.cpp *)
Example multiple_errors1 : testN 2
  (PTHA (seq (new [ld 1 1; ld 2 2]) (new [ld 2 2; ld 3 3])) (just [E 1] 1 (on [E 2; E 3] [2; 3] 2 (just [] 3 HNil)))) = true.
Proof. vm_compute. reflexivity. Qed.
Example multiple_errors2 : test 2
  (PTC (seq (PCatch (throw_leaf_ [ld 4 4]) (fun _ => PRet (RVal 0))) (PThrowX stdex)) (just [AE T_STDEX; E 4] 1 (just [AE T_STDEX] 2 HNil))) = true.
Proof. vm_compute. reflexivity. Qed.
Example multiple_errors3 : test 2
  (PTC (seq (PCatch (POnError [ld 4 4] (PThrowX stdex)) (fun _ => PRet (RVal 0))) (throw_leaf_ [])) (just [AE T_STDEX; E 4] 1 (just [AE T_STDEX] 2 HNil))) = true.
Proof. vm_compute. reflexivity. Qed.

(** github_issue53_test.cpp, github_issue53x_test.cpp: the handler replaces the error by another one with an object of the same type *)
Example issue53 : testN 1
  (PTHA (leaf_check (PTHS (leaf_check (new [ld 0 0]) (fun _ => PRet (RVal 4))) (HCons [V 0 0] (fun _ => new [ld 0 1]) HNil)) (fun _ => PRet (RVal 0)))
     (just [V 0 1] 1 (just [E 0] 2 (just [] 3 HNil)))) = true.
Proof. vm_compute. reflexivity. Qed.
Example issue53x : test 1
  (PTC (PTC (throw_leaf_ [loc; ld 0 0]) (HCons [V 0 0] (fun _ => throw_leaf_ [loc; ld 0 1]) HNil))
     (just [V 0 1] 1 (just [E 0] 2 (just [] 3 HNil)))) = true.
Proof. vm_compute. reflexivity. Qed.

(** handle_basic_test.cpp:31-99, 173-264 *)
Definition compute_answer (w : Z) : prog :=
  match w with
  | 0 => PRet (RVal 42)
  | 1 | 2 | 3 => new [ld 0 w]
  | _ => new [ld (Z.to_nat (w - 3)) 0; ld 0 (w - 3)]
  end.
Definition handle_some_errors (w : Z) : prog := PTHS (compute_answer w) (just [E 1; V 0 1] (-1) (just [V 0 1] (-2) HNil)).
Definition handle_some_errors_float (w : Z) : prog := PTHS (compute_answer w) (just [E 2; V 0 2] (-1) (just [V 0 2] (-2) HNil)).
Definition handle_some_errors_void (w : Z) : prog := PTHS (leaf_check (compute_answer w) (fun _ => PRet (RVal 0))) (just [V 0 3] 0 HNil).
Definition val (p : prog) : prog := PBind p (fun r => PValue r (fun z => PRet (RVal z))).
Example handle_basic1 : (testN 42 (val (handle_some_errors 0)), testN (-2) (val (handle_some_errors 1)), testN (-1) (val (handle_some_errors 4)),
  testN 42 (val (handle_some_errors_float 0)), testN (-2) (val (handle_some_errors_float 2)), testN (-1) (val (handle_some_errors_float 5)),
  testN 0 (handle_some_errors_void 0), testN 0 (handle_some_errors_void 3)) = (true, true, true, true, true, true, true, true).
Proof. vm_compute. reflexivity. Qed.
Definition outer (p : prog) (a : harg) : prog := PTHA (leaf_check p (fun _ => PRet (RVal 0))) (just [a] 1 (just [] 2 HNil)).
Example handle_basic2 : (testN 1 (outer (handle_some_errors 3) (V 0 3)), testN 1 (outer (handle_some_errors_float 1) (V 0 1)),
  testN 1 (outer (handle_some_errors_void 2) (V 0 2)), testN 2 (outer (handle_some_errors_void 2) (AE T_STDEX))) = (true, true, true, true).
Proof. vm_compute. reflexivity. Qed.

(** handle_basic_test.cpp:266-331: an error is handled inside a handler *)
Example handle_basic3 :
  let inner hs := PTHA (new [ld 1 43]) hs in
  let outer p := PTHA (new [ld 1 42]) (HCons [E 1] (fun l => PBind p (fun r => expect (bool_decide (map zof l = [42] /\ rval r = Some (-1))) 0)) (just [] (-1) HNil)) in
  (testN 0 (outer (inner (just [] (-1) HNil))), testN 0 (outer (inner (on [E 1] [43] (-1) (just [] (-2) HNil))))) = (true, true).
Proof. vm_compute. reflexivity. Qed.

(** handle_basic_test.cpp:333-364: the handler adds an object to the error and returns it *)
Example handle_basic4 : testN 0
  (PTHA (PTHS (new [ld 1 1]) (HCons [AInfo; E 1; P 2] (fun l => match l with
      | [VInfo id _ _; VE (VZ 1); VP None] => PLoad id [ld 2 2] (PRet (RErr id)) | _ => PRet (RVal (-99)) end) HNil))
     (on [E 1; E 2] [1; 2] 0 (just [] (-1) HNil))) = true.
Proof. vm_compute. reflexivity. Qed.

(** handle_basic_test.cpp:103-171, 368-396: the handler modifies its arguments and returns the error *)
Definition incr (a : harg) : prog -> prog := fun p => PTHS p (HMut [AInfo; a]
  (fun l => match l with [_; VE (VZ z)] | [_; VP (Some (VZ z))] => [(info 0, VZ (z + 1))] | _ => [] end)
  (fun l => match l with VInfo id _ _ :: _ => PRet (RErr id) | _ => PRet (RVal (-99)) end) HNil).
Example handle_basic5 : map (fun a => testN 1 (PTHA (incr a (incr a (new [ld 0 40]))) (on [E 0] [42] 1 (just [] 2 HNil)))) [E 0; P 0] = [true; true].
Proof. vm_compute. reflexivity. Qed.
Example handle_basic6 : testN 0
  (PTHA (PTHS (new [ld 1 1; ld 2 (-2)]) (HMut [AInfo; E 1; E 2] (fun _ => [(info 2, VZ 2)])
       (fun l => match l with [VInfo id _ _; VE (VZ 1); VE (VZ (-2))] => PRet (RErr id) | _ => PRet (RVal (-99)) end) HNil))
     (on [E 1; E 2] [1; 2] 0 (just [] (-1) HNil))) = true.
Proof. vm_compute. reflexivity. Qed.

(** result_load_test.cpp *)
Definition res_load (r : ret) (its : list item) (k : ret -> prog) : prog := PErrId r (fun id => PLoad id its (k (RErr id))).
Definition load_test : prog :=
  PBind (new [ld 42 40]) (fun r1 => res_load r1 [ld 1 0] (fun r2 => res_load r2 [ld 2 2; lazy 3 3] (fun r3 => res_load r3 [inc 42] (fun r4 =>
    res_load r4 [inc 42; inc 1] PRet)))).
Example result_load : (testN 1 (PTHA load_test (just [V 42 42; V 1 1; V 2 2; V 3 3] 1 (just [] 2 HNil))),
  testN 1 (PTHA (leaf_check load_test (fun _ => PRet (RVal 0))) (just [V 42 42; V 1 1; V 2 2; V 3 3] 1 (just [] 2 HNil)))) = (true, true).
Proof. vm_compute. reflexivity. Qed.

(** result_bad_result_test.cpp *)
Example bad_result : test 1
  (PTC (PBind (new [ld 0 42]) (fun r => PValue r (fun _ => PRet (RVal 0)))) (just [AE T_BADRES; V 0 42] 1 HNil)) = true.
Proof. vm_compute. reflexivity. Qed.

(** BOOST_LEAF_CHECK_test.cpp *)
Definition chk_f1 (b : bool) : prog := if b then PRet (RVal 21) else new [].
Definition chk_f2 (b : bool) : prog := leaf_check (chk_f1 b) (fun a => leaf_check (chk_f1 b) (fun a' => PRet (RVal (a + a')))).
Definition chk_f3 (b : bool) : prog := leaf_check (chk_f2 b) (fun _ => PRet (RVal 0)).
Definition failed (p : prog) : prog := PBind p (fun r => PRet (RVal (if is_val r then 0 else 1))).
Example leaf_check_test : (testN 42 (val (chk_f2 true)), testN 1 (failed (chk_f2 false)), testN 0 (failed (chk_f3 true)), testN 1 (failed (chk_f3 false)))
  = (true, true, true, true).
Proof. vm_compute. reflexivity. Qed.

(** error_id_test.cpp:40-96 *)
Example error_ids : testN 21
  (PNewError [] (fun e2 => PNewError [] (fun e3 => PNewError [] (fun e4 => PNewError [] (fun e5 => PNewError [] (fun e6 =>
     expect (bool_decide ([e2; e3; e4; e5; e6] = [5; 9; 13; 17; 21])) e6)))))) = true.
Proof. vm_compute. reflexivity. Qed.

(** to_variant_test.cpp *)
Example to_variant_test : (testN 42 (to_variant [info 1; info 2; info 3] (PRet (RVal 42)) (fun _ => PRet (RVal (-1))) (PRet (RVal (-2)))),
  testN 1 (to_variant [info 1; info 2; info 3] (new [ld 1 12; ld 3 31])
            (fun l => expect (bool_decide (map zof l = [12; -1; 31])) 1) (PRet (RVal (-2))))) = (true, true).
Proof. vm_compute. reflexivity. Qed.

(** ** Exceptions *)

(** exception_test.cpp:69-115, for a handler's first argument ex *)
Definition ex_test (ex : harg) (p : prog) : prog :=
  PTC (seq p (PRet (RVal 0)))
    (HCons [ex; V 0 42; AE T_LOC] (fun l => expect (bool_decide (match l with VCatch x :: _ => x_val x | VE (VZ z) :: _ => z | _ => 0 end = 42)) 20)
    (just [ex; V 0 42; E 0] 21 (just [ex; AE T_LOC] 22 (just [ex] 23
    (just [V 0 42; AE T_LOC] 40 (just [V 0 42; E 0] 41 (just [AE T_LOC] 42 (just [] 43 HNil)))))))).
Definition ex_tests (ex : harg) : bool :=
  test 20 (ex_test ex (PThrow None (myex 42) [loc; ld 0 42])) &&
  test 21 (ex_test ex (PThrow None (myex 42) [ld 0 42])) &&
  test 22 (ex_test ex (PThrow None (myex 42) [loc])) &&
  test 23 (ex_test ex (PThrow None (myex 42) [])) &&
  test 40 (ex_test ex (throw_leaf_ [loc; ld 0 42])) &&
  test 41 (ex_test ex (throw_leaf_ [ld 0 42])) &&
  test 42 (ex_test ex (throw_leaf_ [loc])) &&
  test 43 (ex_test ex (throw_leaf_ [])).
(** exception_test.cpp:119-189 *)
Example exception_table : (ex_tests (ACatch [MYEX]), ex_tests (AE MYEX), ex_tests (ACatch [ABSEX]), ex_tests (AE ABSEX)) = (true, true, true, true).
Proof. vm_compute. reflexivity. Qed.

(** exception_test.cpp:205-224: on_error gives a plain exception an id *)
Example exception_on_error : test 1
  (PMonitor (fun id => PBind (ex_test (AE MYEX) (POnError [ld 0 42] (PThrowX (myex 42)))) (fun r => PMonitor (fun id' =>
     expect (bool_decide (rval r = Some 21 /\ id <> id')) 1)))) = true.
Proof. vm_compute. reflexivity. Qed.
(** exception_test.cpp:225-264: a scope without handlers does not *)
Example exception_no_id : test 23
  (ex_test (AE MYEX) (PMonitor (fun id => PCatch (PTC (PThrowX (myex 42)) HNil) (fun _ => PMonitor (fun id' => if id =? id' then PRethrow else PRet (RVal (-99))))))) = true.
Proof. vm_compute. reflexivity. Qed.
(** exception_test.cpp:265-289: the objects of an error which was handled do not show up with the next exception *)
Example exception_stale : test 1
  (seq (PTC (throw_leaf_ [ld 0 42]) (on [E 0] [42] 0 HNil)) (PTC (PThrowX stdex) (just [E 0] (-1) (just [] 1 HNil)))) = true.
Proof. vm_compute. reflexivity. Qed.

(** try_catch_error_id_test.cpp: catch_<leaf::error_id>; LEAF's exception type derives from error_id *)
Definition ERRID : ety := 42%nat.
Example catch_error_id : test 1
  (PTC (PThrow None (XSpec true [T_STDEX; MYEX; ERRID] 0 None None) [ld 0 42])
     (HCons [AE MYEX; ACatch [ERRID]] (fun l => match l with [_; VCatch x] => expect (bool_decide (x_leaf x = Some 5)) 1 | _ => PRet (RVal (-99)) end) (just [] 2 HNil))) = true.
Proof. vm_compute. reflexivity. Qed.

(** boost_exception_test.cpp:38-115: what is attached in the catch block (ex << test_info(42)) is there from the beginning *)
Definition binfo (f : Z -> bool) : harg := ABoost (fun _ => Some 42) f.
Example boost_exception :
  forallb (fun c => test (snd c) (PTC (PCatch (PThrowX (XSpec true [T_STDEX; T_BOOSTEX] 0 None None)) (fun _ => PRethrow)) (just [binfo (fst c)] 1 (just [] 2 HNil))))
    [((fun _ => true), 1); (Z.eqb 42, 1); (Z.eqb 41, 2)] = true.
Proof. vm_compute. reflexivity. Qed.

(** try_catch_test.cpp:315-537 *)
Definition ER1 : ety := 43%nat.
Definition ER2 : ety := 44%nat.
Definition failing : prog := PThrow None (XSpec true [T_STDEX; ER1] 0 None None) [ld 1 1; ld 2 2; ld 3 3].
Definition v12 (l : list argval) (z : Z) : prog := match l with [_; VE (VZ 1); VE (VZ 2)] => PRet (RVal z) | _ => PRet (RVal (-99)) end.
Definition handles (a : harg) (z : Z) : handlers -> handlers := HCons [a; E 1; E 2] (fun l => v12 l z).
Example try_catch_success : test 42 (PTC (PRet (RVal 42)) (just [] 1 HNil)) = true.
Proof. vm_compute. reflexivity. Qed.
Example try_catch_matched : forallb (fun a => test 2 (PTC failing (just [AE ER2] 1 (handles a 2 (just [] 3 HNil))))) [AE ER1; ACatch [ER2; ER1]] = true.
Proof. vm_compute. reflexivity. Qed.
Example try_catch_not_matched_first :
  forallb (fun a => test 2 (PTC (seq (PTC failing (just [AE ER2] 1 HNil)) (PRet (RVal (-99)))) (handles a 2 (just [] 3 HNil)))) [AE ER1; ACatch [ER2; ER1]] = true.
Proof. vm_compute. reflexivity. Qed.
Example try_catch_matched_first :
  forallb (fun a => test 1 (PTC (PTC failing (handles a 1 HNil)) (just [AE ER1] 2 (just [] 3 HNil)))) [AE ER1; ACatch [ER2; ER1]] = true.
Proof. vm_compute. reflexivity. Qed.
(** try_catch_test.cpp:541-609, try_exception_and_result_test.cpp:577-703: predicates over the exception *)
Definition X (z : Z) : harg := APred MYEX (eqv z).
Example match_exception :
  forallb (fun p => test 1 (PTC p (just [X 42] 1 (just [] 2 HNil))) && test 2 (PTC p (just [X 41] 1 (just [] 2 HNil))) &&
                    test 42 (PTHA p (on [X 42] [42] 42 (just [] (-1) HNil))) && test (-1) (PTHA p (just [X 41] 42 (just [] (-1) HNil))) &&
                    test 42 (PTHS p (on [X 42] [42] 42 HNil)) && test 1 (failed (PTHS p (just [X 41] 42 (HCons [AInfo] same_error HNil)))))
    [PThrow None (myex 42) []; PThrowX (myex 42)] = true.
Proof. vm_compute. reflexivity. Qed.

(** try_catch_system_error_test.cpp *)
Definition SYSERR : ety := 45%nat.
Definition CA : nat := 7%nat.  (* category of errc_a *)
Definition CB : nat := 8%nat.
Definition syserr : xspec := XSpec true [T_STDEX; SYSERR] 0 (Some (CA, 10)) None.
Definition is_a0 (v : Prog.val) : bool := bool_decide (v = VEC CA 10).
Example system_error :
  forallb (fun p =>
    test 1 (PTC p (HCons [ACatch [SYSERR]; V 0 42] (fun l => match l with VCatch x :: _ => expect (bool_decide (x_code x = Some (CA, 10))) 1 | _ => PRet (RVal (-99)) end) (just [] 2 HNil))) &&
    test 1 (PTC p (just [APred T_EC is_a0; V 0 42] 1 (just [] 2 HNil))) &&
    test 1 (PTC p (HCons [AE T_EC; V 0 42] (fun l => match l with VE v :: _ => expect (is_a0 v) 1 | _ => PRet (RVal (-99)) end) (just [] 2 HNil))))
    [PThrow None syserr [ld 0 42]; POnError [ld 0 42] (PThrowX syserr)] = true.
Proof. vm_compute. reflexivity. Qed.

(** try_exception_and_result_test.cpp:50-282 *)
Definition exh (last : handlers) : handlers := HCons [AE MYEX; E 1] (fun l => match l with [_; VE (VZ 1)] => PRet (RVal 1) | _ => PRet (RVal (-99)) end) (on [E 1] [1] 2 last).
Example exception_and_result :
  let three z1 z2 z3 f := test 42 (f (PRet (RVal 42))) && test z1 (f (PThrow None (myex 0) [ld 1 1])) && test z2 (f (throw_leaf_ [ld 1 1])) && test z3 (f (new [ld 1 1])) in
  (three 1 2 2 (fun p => PTHS p (exh HNil)), three 1 2 2 (fun p => PTHS p (HTup (exh HNil) HNil)),
   three 1 2 2 (fun p => PTHA p (exh (just [] 1 HNil))), three 1 2 2 (fun p => PTHA p (HTup (exh (just [] 1 HNil)) HNil))) = (true, true, true, true).
Proof. vm_compute. reflexivity. Qed.
(** try_exception_and_result_test.cpp:284-573: the handler throws *)
Example handler_throws :
  let outer p := PTHA p (just [AE MYEX; E 1] 2 (just [AE MYEX] 3 (just [] 4 HNil))) in
  let hs x := HCons [E 1] (fun _ => PThrow None x [loc]) (just [] 1 HNil) in
  forallb (fun f : prog -> handlers -> prog => test 3 (outer (f (new [ld 1 1]) (hs (myex 0)))) && test 4 (outer (f (new [ld 1 1]) (hs stdex))))
    [PTHA; PTHS; fun p h => PTHA p (HTup h HNil); fun p h => PTHS p (HTup h HNil)] = true.
Proof. vm_compute. reflexivity. Qed.

(** exception_to_result_test.cpp; the handler rethrows the exception and catches it *)
Definition EX2 : ety := 46%nat.
Definition rethrows (cl : ety) (l : list argval) (z : Z) : prog :=
  match l with
  | [_; VE (VX x)] => expect (bool_decide (cl ∈ x_cls x)) z
  | _ => PRet (RVal (-99))
  end.
Definition ex1 : prog := PThrowX (XSpec true [T_STDEX; MYEX] 0 None None).
Definition ex2 : prog := PThrowX (XSpec true [T_STDEX; EX2] 0 None None).
Example exception_to_result :
  (test 1 (PTHA (PE2R [MYEX; EX2] ex1) (HCons [AE MYEX; AE T_EPTR] (fun l => rethrows MYEX l 1) (just [AE EX2] 2 (just [] 3 HNil)))),
   test 2 (PTHA (PE2R [MYEX; EX2] ex2) (just [AE MYEX] 1 (HCons [AE EX2; AE T_EPTR] (fun l => rethrows EX2 l 2) (just [] 3 HNil)))),
   test 1 (PTHA (PE2R [T_STDEX; MYEX] ex1) (HCons [AE T_STDEX; AE T_EPTR] (fun l => rethrows MYEX l 1) (just [AE MYEX] 2 (just [] 3 HNil))))) = (true, true, true).
Proof. vm_compute. reflexivity. Qed.

(** ** Third-party results and std::error_code *)

(** handle_some_other_result_test.cpp, handle_all_other_result_test.cpp *)
Definition other_f (b : bool) : prog := PRet (if b then RVal 42 else RFor CA 10).
Definition other_g (b : bool) : prog :=
  PBind (other_f b) (fun r => if is_val r then PRet r else PErrId r (fun id => PLoad id [ld 42 42] (PRet (RFor LEAFCAT id)))).
Definition is_leaf_code (r : ret) : bool := match r with RFor c _ => (c =? LEAFCAT)%nat | _ => false end.
Definition checked_g : prog := PBind (other_g false) (fun r => if is_leaf_code r then PRet r else PRet (RVal (-99))).
Example other_result_some : (testN 42 (PTHS (other_g true) HNil),
  testN 1 (PBind (PTHS checked_g (HCons [E 42; APred T_EC is_a0] (fun l => match l with [VE (VZ 42); VE (VEC c v)] => PEmit 1 (PRet (RFor c v)) | _ => PRet (RVal (-99)) end) HNil))
            (fun r => expect (match r with RFor c v => is_a0 (VEC c v) | _ => false end) 1))) = (true, true).
Proof. vm_compute. reflexivity. Qed.
Example other_result_all : (testN 42 (PTHA (other_g true) (just [] (-1) HNil)),
  testN 1 (PTHA checked_g (HCons [E 42; AE T_EC] (fun l => match l with [VE (VZ 42); VE v] => expect (is_a0 v) 1 | _ => PRet (RVal (-99)) end) (just [] 2 HNil)))) = (true, true).
Proof. vm_compute. reflexivity. Qed.

(** error_code_test.cpp, for leaf::result and for a third-party result type *)
Definition ret_code (foreign : bool) (c : nat) (v : Z) : prog := if foreign then PRet (RFor c v) else PImport c v (fun id => PRet (RErr id)).
Definition ret_new (foreign : bool) (its : list item) : prog := PNewError its (fun id => PRet (if foreign then RFor LEAFCAT id else RErr id)).
Definition code_test (p : prog) (a : harg) (ok : Prog.val -> bool) : bool :=
  testN 42 (PTHA p (HCons [a] (fun l => match l with [VE v] => expect (ok v) 42 | _ => PRet (RVal (-99)) end) (just [] (-42) HNil))).
Definition cat_in (l : list nat) (v : Prog.val) : bool := match v with VEC c _ => bool_decide (c ∈ l) | _ => false end.
Definition is_b0 (v : Prog.val) : bool := bool_decide (v = VEC CB 20).
Definition cond_x00 (v : Prog.val) : bool := is_a0 v || is_b0 v.  (* _test_ec.hpp: errc_a::a0 and errc_b::b0 are equivalent to cond_x::x00 *)
Example error_code_test :
  forallb (fun f =>
    code_test (ret_code f CA 10) (APred T_EC (cat_in [CA; CB])) is_a0 &&
    code_test (ret_code f CB 20) (APred T_EC (cat_in [CA; CB])) is_b0 &&
    code_test (ret_code f CB 20) (APred T_EC (fun v => cat_in [CA] v || is_b0 v)) is_b0 &&
    code_test (ret_code f CA 10) (AE T_EC) is_a0 &&
    code_test (ret_code f CA 10) (APred T_EC is_a0) is_a0 &&
    code_test (ret_code f CA 10) (APred T_EC cond_x00) is_a0 &&
    code_test (ret_new f [IVal (info 7) (VEC CA 10)]) (AE (info 7)) is_a0 &&
    code_test (ret_new f [IVal (info 7) (VEC CA 10)]) (APred (info 7) is_a0) is_a0 &&
    code_test (ret_new f [IVal (info 7) (VEC CA 10)]) (APred (info 7) cond_x00) is_a0) [true; false] = true.
Proof. vm_compute. reflexivity. Qed.

(** ** Capturing *)

(** try_capture_all_test.cpp:70-144 *)
Example try_capture_all :
  (test_capture 1 (PBind (PCapture true (PThrowX (myex 0))) (fun r => PTHA (leaf_check (PRet r) (fun _ => PRet (RVal 0))) (just [AE MYEX] 1 (just [] 2 HNil)))),
   test_capture 1 (PBind (PCapture false (new [ld 1 0; ld 2 0])) (fun r => PTHA (leaf_check (PRet r) (fun _ => PRet (RVal 0))) (just [E 1; E 2] 1 (just [] 2 HNil))))) = (true, true).
Proof. vm_compute. reflexivity. Qed.

(** capture_result_unload_test.cpp, capture_exception_result_unload_test.cpp: BOOST_LEAF_CHECK(std::move(r)) *)
Definition cap_unload (p : prog) : bool :=
  let t a vs z := test_capture z (PBind (PCapture false p) (fun r => PTHA (leaf_check (PRet r) (fun _ => PRet (RVal 0))) (on [a] vs 1 (just [] 2 HNil)))) in
  t (E 1) [1] 1 && t (E 2) [2] 2.
Definition cap_items : list item := [IVal (info 9) (VEC CA 10); ld 1 1; ld 3 3].
Example capture_unload : forallb cap_unload
  [new cap_items; POnError cap_items (new []); throw_leaf_ cap_items; POnError cap_items (throw_leaf_ []); POnError cap_items (PThrowX stdex)] = true.
Proof. vm_compute. reflexivity. Qed.
(** capture_exception_unload_test.cpp: r.value() throws the captured exception *)
Definition cap_value (p : prog) : bool :=
  let t a vs z := test_capture z (PBind (PCapture false p) (fun r => PTC (PValue r (fun _ => PRet (RVal 0))) (on [a] vs 1 (just [] 2 HNil)))) in
  t (E 1) [1] 1 && t (E 2) [2] 2.
Example capture_value : forallb cap_value [throw_leaf_ cap_items; POnError cap_items (throw_leaf_ []); POnError cap_items (PThrowX stdex)] = true.
Proof. vm_compute. reflexivity. Qed.
(** capture_exception_state_test.cpp, capture_result_state_test.cpp *)
Example capture_state :
  (test_capture 42 (PBind (PCapture false (throw_leaf_ [ld 1 0; ld 3 0])) (fun r => PTC (PValue r (fun z => PRet (RVal z))) (just [E 1; E 3] 42 (just [] (-42) HNil)))),
   test_capture 42 (PBind (PCapture false (new [ld 1 0; ld 3 0])) (fun r => PTHA (PRet r) (just [E 1; E 3] 42 (just [] (-42) HNil))))) = (true, true).
Proof. vm_compute. reflexivity. Qed.

(** capture_result_async_test.cpp, capture_exception_result_async_test.cpp, capture_exception_async_test.cpp: another thread, which starts
    with nothing and has finished (f.fut.wait()), returns a captured result. The on_error object sees that the current error of its own
    thread changed when the result is unloaded. *)
Definition two_threads {M : cfg -> machine} (m0 : forall G, mst (M G)) (G : cfg) (p1 : prog) (p2 : ret -> prog) : option Z :=
  match eval G (M G) None p1 (m0 G, glob0) with
  | Ok (ORet r, (_, g)) => value_of (eval G (M G) None (p2 r) (m0 G, Glob 0 (ngen g) (oid g) [] []))
  | _ => None
  end.
Definition test_threads (z : Z) (p1 : prog) (p2 : ret -> prog) : bool :=
  forallb (fun G => bool_decide (two_threads (M := pmach) (fun _ => mem0) G p1 p2 = Some z) &&
                    bool_decide (two_threads (M := smach) (fun _ => smem0) (asserts_on G) p1 p2 = Some z)) capture_cfgs.
Definition task (b : bool) : prog := if b then PRet (RVal 3) else new [ld 1 11; ld 2 12; ld 3 0].
Definition task_ex (b : bool) : prog := if b then PRet (RVal 3) else throw_leaf_ [ld 1 11; ld 2 12; ld 3 0].
Definition async_hs : handlers := HTup (on [E 1; E 2; E 4] [11; 12; 0] (-1) (just [] (-2) HNil)) HNil.
Definition async1 (fr : ret) : prog := PTHA (POnError [ld 4 0] (PUnload fr PRet)) async_hs.
Definition async2 (fr : ret) : prog := PTHA (POnError [ld 4 0] (PTHS (PRet fr) (HCons [AInfo] same_error HNil))) async_hs.
Definition async3 (fr : ret) : prog := PTC (POnError [ld 4 0] (PValue fr (fun z => PRet (RVal z)))) async_hs.
Definition async4 (fr : ret) : prog := 
  PTC (POnError [ld 4 0] (PTC (PValue fr (fun z => PRet (RVal z))) (HCons [] (fun _ => PRethrow) HNil))) async_hs.
Definition async5 (fr : ret) : prog := PTHA (POnError [ld 4 0] (PValue fr (fun z => PRet (RVal z)))) async_hs.
Definition async6 (fr : ret) : prog :=
  PTHA (POnError [ld 4 0] (PTHS (PValue fr (fun z => PRet (RVal z))) (HCons [AInfo] same_error HNil))) async_hs.
Example async : forallb (fun t => test_threads 3 (PCapture false (t true)) async1 && test_threads (-1) (PCapture false (t false)) async1 &&
    test_threads 3 (PCapture false (t true)) async2 && test_threads (-1) (PCapture false (t false)) async2 &&
    test_threads 3 (PCapture false (t true)) async5 && test_threads (-1) (PCapture false (t false)) async5 &&
    test_threads 3 (PCapture false (t true)) async6 && test_threads (-1) (PCapture false (t false)) async6) [task; task_ex] &&
  test_threads 3 (PCapture false (task_ex true)) async3 && test_threads (-1) (PCapture false (task_ex false)) async3 &&
  test_threads 3 (PCapture false (task_ex true)) async4 && test_threads (-1) (PCapture false (task_ex false)) async4 = true.
Proof. vm_compute. reflexivity. Qed.

(** ** Diagnostics: which objects are printed *)

Definition printed (l : list argval) : list (ety * Prog.val) :=
  match last l with Some (VDetails _ _ _ l d) => l ++ d | Some (VDiag _ _ _ l) => l | _ => [] end.
Definition prints (yes no : list (ety * Prog.val)) (l : list argval) : prog :=
  expect (forallb (fun x => bool_decide (x ∈ printed l)) yes && forallb (fun x => bool_decide (x ∉ printed l)) no) 1.
Definition details (yes no : list (ety * Prog.val)) : handlers := HCons [ADetails] (prints yes no) HNil.

(** diagnostics_test2.cpp: info<2> is printed *)
Example diagnostics2 :
  (test_diag 1 (PTHA (PTHS (seq (PTHA (new [ld 1 0]) (just [] 0 HNil)) (new [ld 2 0])) (just [E 1] 0 HNil)) (details [(info 2, VZ 0)] [])),
   test_diag 1 (PTC (PTC (seq (PTC (throw_leaf_ [ld 1 0]) (just [] 0 HNil)) (throw_leaf_ [ld 2 0])) (just [E 1] 0 HNil)) (details [(info 2, VZ 0)] [])),
   test_diag 1 (PTC (PTC (seq (PTC (POnError [ld 1 0] (PThrowX stdex)) (just [] 0 HNil)) (POnError [ld 2 0] (PThrowX stdex))) (just [E 1] 0 HNil)) (details [(info 2, VZ 0)] [])))
  = (true, true, true).
Proof. vm_compute. reflexivity. Qed.
(** diagnostics_test3.cpp: on_error does not replace the object *)
Example diagnostics3 : test_diag 1 (PTHA (POnError [ld 0 42] (new [ld 0 41])) (details [(info 0, VZ 41)] [(info 0, VZ 42)])) = true.
Proof. vm_compute. reflexivity. Qed.
(** diagnostics_test4.cpp: objects accumulated although no handler takes them; appending n is here multiplying by 100 and adding n *)
Definition append (n : Z) : item := IAcc (info 0) 0 (fun v => match v with VZ z => VZ (100 * z + n) | _ => v end).
Example diagnostics4 : test_diag 1 (PTHA (POnError [append 43] (POnError [append 42] (new [ld 1 0]))) (details [(info 1, VZ 0); (info 0, VZ 4243)] [])) = true.
Proof. vm_compute. reflexivity. Qed.
(** diagnostics_test5.cpp *)
Definition d5_f2 : prog := POnError [ld 2 0; lazy 3 0; inc 4] (new [ld 1 0; inc 4]).
Example diagnostics5 : test_diag 1
  (PTHA (PTHS d5_f2 (HCons [ADetails] (fun l => match l with [VDetails id _ _ _ _] => PRet (RErr id) | _ => PRet (RVal (-99)) end) HNil))
     (HCons [E 1; ADetails] (prints [(info 1, VZ 0); (info 2, VZ 0); (info 3, VZ 0); (info 4, VZ 2)] []) (just [] (-99) HNil))) = true.
Proof. vm_compute. reflexivity. Qed.
(** diagnostics_test6.cpp *)
Definition d6_f1 : prog := new [ld 1 11; ld 2 21].
Example diagnostics6 :
  (test_diag 1 (PTHA (PTHS d6_f1 (HCons [] (fun _ => new [ld 1 12]) HNil)) (details [(info 1, VZ 12)] [(info 1, VZ 11); (info 2, VZ 21)])),
   test_diag 1 (PTHA (PTHS d6_f1 (HCons [ADetails] (fun _ => new [ld 1 13]) HNil)) (details [(info 1, VZ 13)] [(info 1, VZ 11); (info 2, VZ 21)])),
   test_diag 1 (PTHA (PTHS d6_f1 (HCons [ADetails] (fun l => match l with [VDetails id _ _ _ _] => PLoad id [ld 1 14] (PRet (RErr id)) | _ => PRet (RVal (-99)) end) HNil))
     (details [(info 1, VZ 14); (info 2, VZ 21)] [(info 1, VZ 12)]))) = (true, true, true).
Proof. vm_compute. reflexivity. Qed.
