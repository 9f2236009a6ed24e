(** C15: no assertion of the library fails and no destroyed object is accessed. *)
From Verif Require Export Safe.
Open Scope Z_scope.

(** A thread which runs a program that keeps the rules ([safe], Safe.v) does so without an assertion failing and without an access to an
    object which does not exist, in every configuration, and whatever error ids it is given by the other threads. *)
Theorem C15_no_assertion_no_dangling_access_partial :
  forall G t p g,
    good_sup G -> safe G env0 t p ->
    exists o m' g', eval G (pmach G) None p (mem0, g) = Ok (o, (m', g')) /\ vout t o.
Proof.
  intros G t p g Hs Hp.
  assert (Inv env0 smem0) as H0.
  { split; [exists mem0; exact R0|..]; simpl.
    - intros c Hc. by apply elem_of_nil in Hc.
    - intros c tup Hc. by apply elem_of_nil in Hc.
    - intros c tup Hc. by apply elem_of_nil in Hc.
    - intros c Hc. by apply elem_of_nil in Hc.
    - intros T Hc. by apply elem_of_nil in Hc.
    - intros _ c a Hc. by apply elem_of_nil in Hc. }
  destruct (proj1 (safe_runs G Hs) p env0 t None smem0 g Hp H0) as (o & s' & g' & Ev & Ho); [by split|].
  destruct (C48_pointer_free_semantics G None p mem0 smem0 g o s' g' R0 Ev) as (m' & Ev' & _). eauto 10.
Qed.
Print Assumptions C15_no_assertion_no_dangling_access_partial.

(** A build with and one without assertions. *)
Definition GXr : cfg := Cfg true true false (fun _ => true) (fun _ => false) (fun _ => true) (fun _ => VZ 0) (fun n => 4 * Z.of_nat n + 5).

(** try_capture_all of a function which starts an error, then another one with an accumulating function (nobody has storage for its object),
    to which it loads another object. *)
Definition ex15_acc : prog :=
  PCapture false (PNewError [IVal TA (VZ 1)] (fun _ => PNewError [IAcc TB 7 (fun v => v)] (fun id => PLoad id [IVal TA (VZ 2)] (PRet (RErr id))))).
(** try_capture_all of a void function which succeeds; later, a new error with an object nobody has storage for. *)
Definition ex15_void : prog := PBind (PCapture true (PRet (RVal 0))) (fun _ => PNewError [IVal TA (VZ 1)] (fun id => PRet (RErr id))).
(** A context for handlers which take diagnostic_details, used a second time after it has been unloaded. *)
Definition ex15_ctx : prog :=
  PCtx [SDA] (fun c => PBind (PAct c (PNewError [IVal TA (VZ 1)] (fun id => PRet (RErr id)))) (fun r =>
    PErrId r (fun id => if Z.land id 3 =? 1 then PCtxUnload c id (PAct c (PLoad id [IVal TB (VZ 2)] (PRet (RErr id)))) else PRet (RVal 0)))).

(** None of the three additional rules can be dropped. *)
Theorem C15_no_assertion_no_dangling_access_refuted :
  good_sup GXr /\
  (exists t p, gsafe GXr (Rules false true true) env0 t p /\ eval GXr (pmach GXr) None p (mem0, glob0) = Fail UAF /\
               eval GX (pmach GX) None p (mem0, glob0) = Fail Assert) /\
  (exists t p, gsafe GXr (Rules true false true) env0 t p /\ eval GXr (pmach GXr) None p (mem0, glob0) = Fail UAF /\
               eval GX (pmach GX) None p (mem0, glob0) = Fail Assert) /\
  (exists t p, gsafe GXr (Rules true true false) env0 t p /\ eval GXr (pmach GXr) None p (mem0, glob0) = Fail UAF /\
               eval GX (pmach GX) None p (mem0, glob0) = Fail UAF).
Proof.
  split; [intros n; unfold GXr; cbn [g_sup]; rewrite (Z.land_ones _ 2) by lia; change (2 ^ 2) with 4; rewrite Z.add_comm, Z.mul_comm, Z_mod_plus_full; done|]. split; [|split].
  - exists TyLeaf, ex15_acc. split; [|split; vm_compute; reflexivity]. simpl. split; [done|]. split; [done|]. split; [done|].
    split; [by repeat constructor|]. intros _ _. split; [by repeat constructor|]. intros id _. split; [by repeat constructor|done].
  - exists TyLeaf, ex15_void. split; [|split; vm_compute; reflexivity]. simpl. exists TyLeaf. split; [done|]. intros _ _.
    split; [by repeat constructor|]. intros. done.
  - exists TyLeaf, ex15_ctx. split; [|split; vm_compute; reflexivity]. simpl. split; [done|]. intros c Hc. exists TyLeaf. split.
    + exists [SDA]. split; [constructor|]. split; [by repeat constructor|]. done.
    + intros r Hr. split; [eauto|]. intros id Hid. destruct (Z.land id 3 =? 1) eqn:E; [|done]. simpl.
      split; [set_solver|]. split; [set_solver|]. split; [by apply Z.eqb_eq|]. exists [SDA]. split; [constructor|]. split; [by repeat constructor|done].
Qed.
Print Assumptions C15_no_assertion_no_dangling_access_refuted.

(** A program with nested scopes, an accumulating function, a captured error which is unloaded, an exception which is caught, printed and
    rethrown, and a context of its own, used twice. *)
Definition ex15_body : prog :=
  POnError [IAcc TB 5 (fun v => match v with VZ z => VZ (z + 1) | _ => v end)]
   (PBind (PCapture false (PNewError [IVal TC (VZ 3); IVal TA (VZ 10)] (fun id => PRet (RErr id)))) (fun r =>
    PUnload r (fun r' =>
    PBind (PCatch (PTC (PThrow None (XSpec true [T_STDEX] 4 None None) [IVal TB (VZ 2)]) (HCons [ACatch []; ADetails] (fun _ => PRethrow) HNil)) (fun _ => PRet (RVal 0)))
      (fun _ => PRet r')))).
Definition ex15_hs : handlers :=
  HCons [AE TA; APtr TC; ADetails] (fun l => match l with VE (VZ z) :: _ => PRet (RVal z) | _ => PRet (RVal 0) end) (HCons [] (fun _ => PRet (RVal (-1))) HNil).
Definition ex15 : prog :=
  PCtx [SE TA; SE TB; SE TC] (fun c =>
    PBind (PAct c ex15_body) (fun r => PErrId r (fun id => if Z.land id 3 =? 1 then
      PBind (PTHA (PCtxUnload c id (PAct c (PLoad id [IAcc TA 6 (fun v => v); IVal TB (VZ 1)] (PRet (RErr id))))) ex15_hs) PRet
      else PRet (RVal 0)))).
Example ex15_runs : match eval GX (pmach GX) None ex15 (mem0, glob0) with Ok (o, _) => Some o | _ => None end = Some (ORet (RVal 10)).
Proof. vm_compute. reflexivity. Qed.
Example ex15_safe : safe GX env0 TyVal ex15.
Proof.
  unfold safe, ex15, ex15_body, ex15_hs. cbn [gsafe gsafeH]. change (deduce_list GX [SE TA; SE TB; SE TC]) with [SE TA; SE TB; SE TC].
  split; [simpl; set_solver|]. intros c _. exists TyLeaf. split.
  - exists [SE TA; SE TB; SE TC]. split; [constructor|]. split; [constructor; [|constructor]; left; simpl; set_solver|].
    exists TyLeaf. split; [|intros r Hr; split; [done|]].
    + split; [done|]. split; [done|]. split; [done|]. split; [by repeat constructor|]. intros. done.
    + exists TyVal. split; [split; [|done]|].
      * split; [by repeat constructor|]. split; [|done]. intros l _. done.
      * intros _ _. destruct r; simpl in *; try done.
  - intros r Hr. split; [eauto|]. intros id _. destruct (Z.land id 3 =? 1) eqn:E; [|done]. apply Z.eqb_eq in E. cbn [gsafe gsafeH]. exists TyVal. split; [|done]. split; [|split].
    + exists TyLeaf. split; [simpl; set_solver|]. split; [simpl; set_solver|]. split; [done|]. exists [SE TA; SE TB; SE TC]. split; [constructor|].
      split; [|done]. constructor; [left; simpl; set_solver|by repeat constructor].
    + split; [|done]. intros l Hl. destruct l as [|[v| | | | |] l]; [done| |done..]. by destruct v.
    + right. left. simpl. constructor.
Qed.
