(** C68: the library's example programs, for all behaviours of the files, the Lua interpreter and the tasks they use.

    Each program below is one of /repo/example, statement by statement. What the operating system or the interpreter does is a parameter. *)
From Verif Require Import PropsSim Derived Ids NoExcept RepoTests.
Open Scope Z_scope.

(** ** example/print_file *)
Definition CODE : ety := 60%nat.    (* enum error_code, print_file_leaf_result.cpp:21-29 *)
Definition ERRNO : ety := 61%nat.   (* leaf::e_errno *)
Definition FNAME : ety := 62%nat.   (* leaf::e_file_name *)
Definition bad_command_line : Z := 1.
Definition open_error : Z := 2.
Definition read_error : Z := 3.
Definition size_error : Z := 4.
Definition eof_error : Z := 5.
Definition output_error : Z := 6.
Definition ENOENT : Z := 2.

(** What happens when the program is run: the command line is wrong, fopen, the first fseek, ftell, the second fseek, fread or writing to std::cout fails
    (and errno), fread reads less than the size of the file, or all is well. *)
Inductive happens := BadCommandLine | OpenFails (e : Z) | Seek1Fails (e : Z) | TellFails (e : Z) | Seek2Fails (e : Z) | ReadFails (e : Z) | Eof | OutputFails (e : Z) | AllWell.

(** How an error is reported: return leaf::new_error(...) from a function that returns leaf::result, or boost::system::result<T, std::error_code>
    (the error_id becomes a std::error_code); leaf::throw_exception(...). *)
Inductive variant := LeafResult | SystemResult | Exceptions.
Definition fails_with (v : variant) (its : list item) : prog :=
  match v with
  | LeafResult => new its
  | SystemResult => PNewError its (fun id => PRet (RFor LEAFCAT id))
  | Exceptions => throw_leaf_ its
  end.
Definition code (z : Z) : item := IVal CODE (VZ z).
Definition errno (e : Z) : item := IVal ERRNO (VZ e).

(** print_file_leaf_result.cpp:153-204, print_file_system_result.cpp:161-212, print_file_exceptions.cpp:149-198 *)
Definition parse_command_line (v : variant) (h : happens) : prog :=
  match h with BadCommandLine => fails_with v [code bad_command_line] | _ => PRet (RVal 7) end.
Definition file_open (v : variant) (h : happens) : prog :=
  match h with OpenFails e => fails_with v [code open_error; errno e] | _ => PRet (RVal 8) end.
Definition file_size (v : variant) (h : happens) : prog :=
  let on_err e p := POnError [IDef ERRNO 0 (fun _ => VZ e)] p in
  match h with
  | Seek1Fails e | TellFails e | Seek2Fails e => on_err e (fails_with v [code size_error])
  | _ => on_err 0 (PRet (RVal 9))
  end.
Definition file_read (v : variant) (h : happens) : prog :=
  match h with ReadFails e => fails_with v [code read_error; errno e] | Eof => fails_with v [code eof_error] | _ => PRet (RVal 0) end.

(** main, print_file_leaf_result.cpp:54-147 *)
Definition pf_body (v : variant) (fn : Z) (h : happens) : prog :=
  leaf_check (parse_command_line v h) (fun _ =>
  POnError [IVal FNAME (VZ fn)]
   (leaf_check (file_open v h) (fun _ =>
    leaf_check (file_size v h) (fun _ =>
    leaf_check (file_read v h) (fun _ =>
    match h with OutputFails e => fails_with v [code output_error; errno e] | _ => PRet (RVal 0) end))))).
Definition is_one_of (zs : list Z) (v : Prog.val) : bool := match v with VZ z => existsb (Z.eqb z) zs | _ => false end.
(** What the handlers print is returned with the number of the handler: file name and errno *)
Definition shows (k : Z) (l : list argval) : prog :=
  fold_right (fun a p => match a with VE (VZ z) | VP (Some (VZ z)) => PEmit z p | _ => p end) (PRet (RVal k)) l.
Definition pf_handlers : handlers :=
  HCons [APred CODE (is_one_of [open_error]); APred ERRNO (is_one_of [ENOENT]); AE FNAME] (shows 1)
 (HCons [APred CODE (is_one_of [open_error]); AE ERRNO; AE FNAME] (shows 2)
 (HCons [APred CODE (is_one_of [size_error; read_error; eof_error]); APtr ERRNO; AE FNAME] (shows 3)
 (HCons [APred CODE (is_one_of [output_error]); AE ERRNO] (shows 4)
 (HCons [APred CODE (is_one_of [bad_command_line])] (shows 5)
 (HCons [AInfo] (fun _ => PRet (RVal 6)) HNil))))).
Definition print_file (v : variant) (fn : Z) (h : happens) : prog :=
  match v with Exceptions => PTC | _ => PTHA end (pf_body v fn h) pf_handlers.

(** What the comments in the programs say: the number main returns, and what the handler has got (in the order of its arguments). *)
Definition pf_expected (fn : Z) (h : happens) : Z * list Z :=
  match h with
  | AllWell => (0, [])
  | OpenFails e => (if e =? ENOENT then 1 else 2, [open_error; e; fn])
  | Seek1Fails e | TellFails e | Seek2Fails e => (3, [size_error; e; fn])
  | ReadFails e => (3, [read_error; e; fn])
  | Eof => (3, [eof_error; fn])
  | OutputFails e => (4, [output_error; e])
  | BadCommandLine => (5, [bad_command_line])
  end.
Definition user_events (g : glob) : list Z := omap (fun e => match e with EvUser z => Some z | _ => None end) (rev (tr g)).
Definition observed {A} (r : res (out * (A * glob))) : option (Z * list Z) := match r with Ok (ORet (RVal z), (_, g)) => Some (z, user_events g) | _ => None end.

Theorem C68_print_file :
  forall c d a v fn h, let G := tcfg c d a in
    observed (eval G (pmach G) None (print_file v fn h) (mem0, glob0)) = Some (pf_expected fn h) /\
    (v <> Exceptions -> observed (evalN G (pmach G) (print_file v fn h) (mem0, glob0)) = Some (pf_expected fn h)).
Proof.
  intros c d a v fn h G. subst G. destruct h as [|e|e|e|e|e| |e|].
  2: destruct e as [|[p|[p|p|]|]|p].
  all: destruct c, d, a, v; (split; [vm_compute; reflexivity|intros Hv; first [by destruct Hv|vm_compute; reflexivity]]).
Qed.
Print Assumptions C68_print_file.

(** The comment in the programs: "In this program this handler will never be called." *)
Theorem C68_print_file_last_handler :
  forall c d a v fn h l, let G := tcfg c d a in observed (eval G (pmach G) None (print_file v fn h) (mem0, glob0)) <> Some (6, l).
Proof.
  intros c d a v fn h l G H. pose proof (eq_trans (eq_sym (proj1 (C68_print_file c d a v fn h))) H) as X. clear H. destruct h as [|e|e|e|e|e| |e|]; try done. simpl in X. by destruct (e =? ENOENT).
Qed.
Print Assumptions C68_print_file_last_handler.

(** ** example/print_half.cpp *)
Definition CONV : ety := 63%nat.
Inductive text := Empty | IllegalChar | TooLong | Number (z : Z).
Definition EmptyString : Z := 1.
Definition IllegalChar_ : Z := 2.
Definition TooLong_ : Z := 3.
Definition BIGINT : Z := 1001.   (* std::cout << i.half() *)
Definition OK_ : Z := 1000.      (* std::cout << "ok" *)
(** 23-35 *)
Definition convert (t : text) : prog :=
  match t with
  | Empty => new [IVal CONV (VZ EmptyString)] | IllegalChar => new [IVal CONV (VZ IllegalChar_)] | TooLong => new [IVal CONV (VZ TooLong_)]
  | Number z => PRet (RVal z)
  end.
(** 48-63 *)
Definition print_half (t : text) : prog :=
  PTHS (leaf_check (convert t) (fun r => PEmit (r / 2) (PRet (RVal 0))))
    (HCons [APred CONV (is_one_of [TooLong_])] (fun _ => leaf_check (PRet (RVal 0)) (fun _ => PEmit BIGINT (PRet (RVal 0)))) HNil).
(** 65-98 *)
Definition ph_main (t : text) : prog :=
  PTHA (leaf_check (print_half t) (fun _ => PEmit OK_ (PRet (RVal 0))))
    (HCons [APred CONV (is_one_of [EmptyString])] (fun _ => PRet (RVal 1))
    (HCons [APred CONV (is_one_of [IllegalChar_])] (fun _ => PRet (RVal 2))
    (HCons [AInfo] (fun _ => PRet (RVal 3)) HNil))).
Definition ph_expected (t : text) : Z * list Z :=
  match t with Empty => (1, []) | IllegalChar => (2, []) | TooLong => (0, [BIGINT; OK_]) | Number z => (0, [z / 2; OK_]) end.
Theorem C68_print_half :
  forall c d a t, let G := tcfg c d a in
    observed (eval G (pmach G) None (ph_main t) (mem0, glob0)) = Some (ph_expected t) /\
    observed (evalN G (pmach G) (ph_main t) (mem0, glob0)) = Some (ph_expected t).
Proof. intros c d a t. destruct c, d, a, t as [| | |z]; vm_compute; done. Qed.
Print Assumptions C68_print_half.

(** ** example/lua_callback_result.cpp *)
Definition WORK : ety := 64%nat.
Definition PCALL : ety := 65%nat.
Definition MSG : ety := 66%nat.
(** do_work succeeds with an answer, fails (luaL_error makes lua_pcall return an error, with a message), or is not reached because of another Lua error *)
Inductive lua := Works (answer : Z) | DoWorkFails (err msg : Z) | LuaFails (err msg : Z).
(** 93-118, do_work 50-62 *)
Definition call_lua (h : lua) : prog :=
  PMonitor (fun cur_err =>
    let failed err msg := PAssigned cur_err (fun id => PLoad id [IVal PCALL (VZ err); IVal MSG (VZ msg)] (PRet (RErr id))) in
    match h with
    | Works answer => PRet (RVal answer)
    | DoWorkFails err msg => PNewError [IVal WORK (VZ 1)] (fun _ => failed err msg)
    | LuaFails err msg => failed err msg
    end).
(** 120-157: one round of the loop *)
Definition lua_main (h : lua) : prog :=
  PTHA (leaf_check (call_lua h) (fun answer => PEmit answer (PRet (RVal 0))))
    (HCons [AE WORK; AE MSG] (shows 1) (HCons [AE PCALL; AE MSG] (shows 2) (HCons [AInfo] (fun _ => PRet (RVal 3)) HNil))).
Definition lua_expected (h : lua) : Z * list Z :=
  match h with Works answer => (0, [answer]) | DoWorkFails _ msg => (1, [1; msg]) | LuaFails err msg => (2, [err; msg]) end.
Theorem C68_lua_callback_result :
  forall c d a h, let G := tcfg c d a in
    observed (eval G (pmach G) None (lua_main h) (mem0, glob0)) = Some (lua_expected h) /\
    observed (evalN G (pmach G) (lua_main h) (mem0, glob0)) = Some (lua_expected h).
Proof. intros c d a h. destruct c, d, a, h; vm_compute; done. Qed.
Print Assumptions C68_lua_callback_result.

(** ** example/exception_to_result.cpp *)
Definition EBASE : ety := 67%nat.
Definition EA : ety := 68%nat.
Definition EB : ety := 69%nat.
Definition EC : ety := 70%nat.
Inductive answer := Answer (z : Z) | ThrowsA | ThrowsB | ThrowsC.
(** 21-30 *)
Definition compute_answer_throws (h : answer) : prog :=
  let throws cl := PThrowX (XSpec true [T_STDEX; EBASE; cl] 0 None None) in
  match h with Answer z => PRet (RVal z) | ThrowsA => throws EA | ThrowsB => throws EB | ThrowsC => throws EC end.
(** 34-52 *)
Definition print_answer (h : answer) : prog :=
  leaf_check (PE2R [EA; EB] (compute_answer_throws h)) (fun z => PEmit z (PRet (RVal 0))).
(** 56-110: the last handler shows whether it has got the exception; rethrowing it there is left out *)
Definition e2r_main (h : answer) : prog :=
  PTHA (leaf_check (print_answer h) (fun z => PRet (RVal z)))
    (HCons [AE EA] (fun _ => PRet (RVal 1)) (HCons [AE EB] (fun _ => PRet (RVal 2))
    (HCons [APtr T_EPTR] (fun l => match l with [VP (Some (VX x))] => if bool_decide (EC ∈ x_cls x) then PRet (RVal 3) else PRet (RVal 4) | _ => PRet (RVal 5) end) HNil))).
Definition e2r_expected (h : answer) : Z * list Z := match h with Answer z => (0, [z]) | ThrowsA => (1, []) | ThrowsB => (2, []) | ThrowsC => (3, []) end.
Theorem C68_exception_to_result :
  forall c d a h, let G := tcfg c d a in observed (eval G (pmach G) None (e2r_main h) (mem0, glob0)) = Some (e2r_expected h).
Proof. intros c d a h. destruct c, d, a, h; vm_compute; done. Qed.
Print Assumptions C68_exception_to_result.

(** ** example/try_capture_all_result.cpp, example/try_capture_all_exceptions.cpp *)
Definition TID : ety := 71%nat.
Definition INFO1 : ety := 72%nat.
Definition INFO2 : ety := 73%nat.
(** A task fails in thread tid, or succeeds. *)
Definition tc_task (exc : bool) (h : option (Z * Z * Z)) : prog :=
  match h with
  | None => PRet (RVal 0)
  | Some (tid, i1, i2) => fails_with (if exc then Exceptions else LeafResult) [IVal TID (VZ tid); IVal INFO1 (VZ i1); IVal INFO2 (VZ i2)]
  end.
(** 56-102 (result): one round of the loop; f.get() returns what try_capture_all returned in the thread of the task *)
Definition tc_main (exc : bool) (fr : ret) : prog :=
  (if exc then PTC (PValue fr (fun _ => PEmit OK_ (PRet (RVal 0)))) else PTHA (leaf_check (PRet fr) (fun _ => PEmit OK_ (PRet (RVal 0)))))
    (HCons [AE INFO1; AE INFO2; AE TID] (shows 1) (HCons [ADiag] (fun _ => PRet (RVal 2)) HNil)).
Definition tc_expected (h : option (Z * Z * Z)) : Z * list Z := match h with None => (0, [OK_]) | Some (tid, i1, i2) => (1, [i1; i2; tid]) end.
Theorem C68_try_capture_all :
  forall d a exc h, let G := tcfg true d a in
    match eval G (pmach G) None (PCapture false (tc_task exc h)) (mem0, glob0) with
    | Ok (ORet fr, (_, g)) => observed (eval G (pmach G) None (tc_main exc fr) (mem0, Glob 0 (ngen g) (oid g) [] []))
    | _ => None
    end = Some (tc_expected h).
Proof. intros d a exc h. destruct d, a, exc, h as [[[tid i1] i2]|]; vm_compute; done. Qed.
Print Assumptions C68_try_capture_all.
