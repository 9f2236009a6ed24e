(** C54 - C56: what the build configuration changes, and what it does not. *)
From Verif Require Export ConfigCap PropsTryEx.
Open Scope Z_scope.

(** ** C54: assertions *)

(** Building with assertions either stops the program at an assertion or changes nothing at all: same value or exception (or the same
    undefined behavior), same memory, same ids and events. Whatever the program and the state it starts in. *)
Theorem C54_assertions_only_stop :
  forall G caught p m g,
    eval (asserts_on G) (pmach (asserts_on G)) caught p (m, g) = Fail Assert \/
    eval (asserts_on G) (pmach (asserts_on G)) caught p (m, g) = eval G (pmach G) caught p (m, g).
Proof.
  intros G caught p m g. pose proof (proj1 (ref_eval _ _ _ (below_asserts G)) p caught (m, g)) as H.
  destruct (proj1 (ref_cases _ _ _) (H (proj1 blind_refl p))) as [(e & He & ->)|He]; [by left|by right].
Qed.
Print Assumptions C54_assertions_only_stop.

(** ** C55: diagnostics *)

(** If no handler takes a diagnostic_details, and what those that take a diagnostic_info do does not depend on which objects it shows: with
    BOOST_LEAF_CFG_DIAGNOSTICS=0 the program does what it does without, unless that is to show an object which does not exist. *)
Theorem C55_diagnostics_change_only_what_is_shown :
  forall G caught p m g, blind False p ->
    eval G (pmach G) caught p (m, g) = Fail UAF \/
    eval G (pmach G) caught p (m, g) = eval (diag_off G) (pmach (diag_off G)) caught p (m, g).
Proof.
  intros G caught p m g Hp. pose proof (proj1 (ref_eval _ _ _ (below_diag G)) p caught (m, g)) as H.
  destruct (proj1 (ref_cases _ _ _) (H (proj1 (blind_mono False (g_diag G = g_diag (diag_off G)) ltac:(done)) p Hp))) as [(e & He & ->)|He]; [by left|by right].
Qed.
Print Assumptions C55_diagnostics_change_only_what_is_shown.

(** With diagnostic_details it is not so, even if the handler does not look at it: a scope with such a handler has storage for everything, and functions
    passed to load are called which are not called without diagnostics. *)
Definition ex55_details : prog :=
  PTHA (PNewError [IAcc TA 7 (fun v => v)] (fun id => PRet (RErr id))) (HCons [ADetails] (fun _ => PRet (RVal 1)) HNil).
Theorem C55_details_refuted :
  exists G p m1 g1 m2 g2,
    (exists p0 a, p = PTHA p0 (HCons [a] (fun _ => PRet (RVal 1)) HNil) /\ blind False p0) /\
    eval G (pmach G) None p (mem0, glob0) = Ok (ORet (RVal 1), (m1, g1)) /\
    eval (diag_off G) (pmach (diag_off G)) None p (mem0, glob0) = Ok (ORet (RVal 1), (m2, g2)) /\
    tr g1 = [EvAcc 7] /\ tr g2 = [].
Proof.
  exists GX, ex55_details. eexists _, _, _, _. split; [exists (PNewError [IAcc TA 7 (fun v => v)] (fun id => PRet (RErr id))), ADetails; by split|].
  split; [vm_compute; reflexivity|]. split; [vm_compute; reflexivity|]. by split.
Qed.
Print Assumptions C55_details_refuted.

(** ** C56: capture *)

(** No context of the thread collects objects. *)
Definition collects_nothing (m : mem) : Prop := forall c k, ctxs m !! c = Some k -> SDA ∉ k_tup k.
(** The same contexts with the same objects, which receive the same types of objects. *)
Definition like (m m' : mem) : Prop :=
  ctxs m = ctxs m' /\ (forall c T, held m c T = held m' c T) /\ (forall T c, serves m T c <-> serves m' T c).

Lemma R_like m m' s : R m s -> R m' s -> like m m'.
Proof.
  intros H1 H2. split; [apply map_eq; intros c; by rewrite (R_ctxs _ _ _ H1), (R_ctxs _ _ _ H2)|]. split.
  - intros c T. destruct (actxs s !! c) as [a|] eqn:E; [by rewrite (R_held _ _ _ _ _ H1 E), (R_held _ _ _ _ _ H2 E)|].
    unfold held, caddr. by rewrite (R_look_none _ _ _ H1 E), (R_look_none _ _ _ H2 E).
  - intros T c. by rewrite (R_serves _ _ _ _ H1), (R_serves _ _ _ _ H2).
Qed.
Lemma R_collects_nothing m s : R m s -> collects_nothing m -> nod s.
Proof. intros HR H c a Ha. apply (H c (CCtx (ac_tup a) (bool_decide (c ∈ stack s)))). by rewrite (R_ctxs _ _ _ HR), Ha. Qed.

(** Programs that do not need capture do the same with and without, provided they do not call unload of a context of their own and do not pass
    functions returning error objects. *)
Theorem C56_capture_only_adds :
  forall G caught p m g, captureless False False G p -> collects_nothing m ->
    (forall o m' g', runs G caught p m g o m' g' -> exists m2, runs (cap_off G) caught p m g o m2 g' /\ like m' m2) /\
    (forall o m' g', runs (cap_off G) caught p m g o m' g' -> exists m2, runs G caught p m g o m2 g' /\ like m' m2).
Proof.
  intros G caught p m g Hp Hm.
  assert (captureless False False (asserts_on G) p) as Hp' by (by apply captureless_asserts).
  split; intros o m' g' (Hl & s & s' & HR & HR' & Hs);
    pose proof (proj1 (both_eval (asserts_on G)) p caught s g Hp' (R_collects_nothing _ _ HR Hm)) as HB;
    change (cap_off (asserts_on G)) with (asserts_on (cap_off G)) in HB; rewrite Hs in HB; simpl in HB.
  - destruct (eval (asserts_on (cap_off G)) _ _ _ _) as [[o2 [s2 g2]]|] eqn:E2; [|done]. destruct HB as (E & E' & _). simpl in E, E'. simplify_eq.
    destruct (C48_pointer_free_semantics _ _ _ _ _ _ _ _ _ HR E2) as (m2 & Hl2 & HR2). exists m2. split; [|by eapply R_like]. split; [done|]. eauto.
  - destruct (eval (asserts_on G) _ _ _ _) as [[o2 [s2 g2]]|] eqn:E2; [|done]. destruct HB as (E & E' & _). simpl in E, E'. simplify_eq.
    destruct (C48_pointer_free_semantics _ _ _ _ _ _ _ _ _ HR E2) as (m2 & Hl2 & HR2). exists m2. split; [|by eapply R_like]. split; [done|]. eauto.
Qed.
Print Assumptions C56_capture_only_adds.

(** An object nobody wants is destroyed by the unload of a context if capture is enabled, but stays there if it is not: a second unload finds it. *)
Definition ex56_unload : prog :=
  PCtx [SE TA] (fun c =>
    PBind (PAct c (PNewError [IVal TA (VZ 70)] (fun id => PRet (RErr id)))) (fun r =>
    match r with
    | RErr id => PCtxUnload c id
        (PTHA (PCtxUnload c id (PRet (RErr id))) (HCons [AE TA] (fun _ => PRet (RVal 1)) (HCons [] (fun _ => PRet (RVal 2)) HNil)))
    | _ => PRet (RVal 0)
    end)).
Lemma runs_val G p z : match eval (asserts_on G) (smach (asserts_on G)) None p (smem0, glob0) with
    | Ok (ORet (RVal z'), _) => z' =? z | _ => false end = true ->
  exists m g, runs G None p mem0 glob0 (ORet (RVal z)) m g.
Proof.
  intros H. destruct (eval _ _ _ _ _) as [[[[z'| | |]|] [s g]]|] eqn:E; try done. apply Z.eqb_eq in H as ->.
  destruct (C48_pointer_free_semantics _ _ _ _ _ _ _ _ _ R0 E) as (m & Hl & HR). exists m, g. split; [done|]. exists smem0, s. split; [exact R0|done].
Qed.
Theorem C56_own_unload_refuted :
  exists G p m1 g1 m2 g2, captureless True False G p /\
    runs G None p mem0 glob0 (ORet (RVal 2)) m1 g1 /\ runs (cap_off G) None p mem0 glob0 (ORet (RVal 1)) m2 g2.
Proof.
  exists GX, ex56_unload.
  destruct (runs_val GX ex56_unload 2) as (m1 & g1 & H1); [vm_compute; done|]. destruct (runs_val (cap_off GX) ex56_unload 1) as (m2 & g2 & H2); [vm_compute; done|].
  exists m1, g1, m2, g2. split; [|done]. cbn. split; [set_solver|]. intros c. split; [split; [by constructor|done]|].
  intros []; cbn; try done. repeat split; try done; left; set_solver.
Qed.
Print Assumptions C56_own_unload_refuted.

(** And a function returning an error object is called even if nobody wants it. *)
Theorem C56_deferred_refuted :
  exists G p m1 g1 m2 g2, captureless False True G p /\
    runs G None p mem0 glob0 (ORet (RVal 0)) m1 g1 /\ runs (cap_off G) None p mem0 glob0 (ORet (RVal 0)) m2 g2 /\
    tr g1 = [EvDefer 7] /\ tr g2 = [].
Proof.
  exists GX, (PNewError [IDef TA 7 (fun _ => VZ 1)] (fun _ => PRet (RVal 0))). eexists _, _, _, _.
  split; [split; [by constructor|done]|]. split; [|split].
  - split; [vm_compute; reflexivity|]. exists smem0, smem0. split; [exact R0|]. split; [exact R0|]. vm_compute. reflexivity.
  - split; [vm_compute; reflexivity|]. exists smem0, smem0. split; [exact R0|]. split; [exact R0|]. vm_compute. reflexivity.
  - done.
Qed.
Print Assumptions C56_deferred_refuted.

(** ** Examples *)

(** A program that violates a precondition: with assertions it stops, without it goes on. One that does not does the same. *)
Definition noasserts (G : cfg) : cfg := Cfg (g_capture G) (g_diag G) false (g_class G) (g_abs G) (g_show G) (g_def G) (g_sup G).
Definition ex54_bad : prog := PImport LEAFCAT 6 (fun id => PRet (RVal id)).
Example ex54_stops : eval (asserts_on (noasserts GX)) (pmach (asserts_on (noasserts GX))) None ex54_bad (mem0, glob0) = Fail Assert /\
  match eval (noasserts GX) (pmach (noasserts GX)) None ex54_bad (mem0, glob0) with Ok (o, _) => Some o | _ => None end = Some (ORet (RVal 5)).
Proof. split; vm_compute; reflexivity. Qed.
Example ex54_same :
  match eval (asserts_on (noasserts GX)) (pmach (asserts_on (noasserts GX))) None ex48 (mem0, glob0) with Ok (o, _) => Some o | _ => None end = Some (ORet (RVal 150)) /\
  match eval (noasserts GX) (pmach (noasserts GX)) None ex48 (mem0, glob0) with Ok (o, _) => Some o | _ => None end = Some (ORet (RVal 150)).
Proof. split; vm_compute; reflexivity. Qed.

(** A handler which takes a diagnostic_info and uses the error id in it. *)
Definition ex55 : prog :=
  PTHA (PTHS (PNewError [IVal TA (VZ 70); IVal TB (VZ 80)] (fun id => PRet (RErr id))) (HCons [AE TC] (fun _ => PRet (RVal 1)) HNil))
    (HCons [AE TA; ADiag] (fun l => match l with [VE (VZ a); VDiag id _ _ _] => PRet (RVal (a + id)) | _ => PRet (RVal 0) end)
    (HCons [] (fun _ => PRet (RVal (-1))) HNil)).
Example ex55_blind : blind False ex55.
Proof.
  cbn. split; [split|]; [done| |split; [|split]].
  - split; [right; split; [set_solver|done]|done].
  - right. split; [set_solver|]. intros l l' H. split; [|done].
    destruct l as [|v [|v2 [|]]], l' as [|v' [|v2' [|]]]; simplify_eq/=; try done.
    + by destruct v, v'; simplify_eq/=.
    + destruct v as [[]| | | | |], v' as [[]| | | | |]; simplify_eq/=; try done; destruct v2, v2'; simplify_eq/=; done.
    + by destruct v as [[]| | | | |], v' as [[]| | | | |]; simplify_eq/=; try done; destruct v2, v2'.
  - intros l. repeat case_match; done.
  - split; [right; split; [set_solver|done]|done].
Qed.
Example ex55_runs :
  match eval GX (pmach GX) None ex55 (mem0, glob0) with Ok (o, _) => Some o | _ => None end = Some (ORet (RVal 75)) /\
  match eval (diag_off GX) (pmach (diag_off GX)) None ex55 (mem0, glob0) with Ok (o, _) => Some o | _ => None end = Some (ORet (RVal 75)).
Proof. split; vm_compute; reflexivity. Qed.

(** Two scopes, the inner one passes the error on; one of the objects finds no storage in the outer one. *)
Definition ex56 : prog :=
  PTHA (PTHS (PNewError [IVal TA (VZ 70); IVal TB (VZ 80)] (fun id => PRet (RErr id))) (HCons [AE TB; AE TC] (fun _ => PRet (RVal 1)) HNil))
    (HCons [AE TA; AInfo] (fun l => match l with [VE (VZ a); VInfo id _ _] => PRet (RVal (a + id)) | _ => PRet (RVal 0) end)
    (HCons [] (fun _ => PRet (RVal (-1))) HNil)).
Example ex56_captureless : captureless False False GX ex56.
Proof.
  cbn. split; [split|]; [| |split; [|split]].
  - split; [repeat constructor|done].
  - split; [left; set_solver|done].
  - left. set_solver.
  - intros l. repeat case_match; done.
  - split; [left; set_solver|done].
Qed.
Example ex56_start : collects_nothing mem0.
Proof. intros c k H. unfold mem0 in H. simpl in H. by rewrite lookup_empty in H. Qed.
Example ex56_runs : exists m g m2 g2, runs GX None ex56 mem0 glob0 (ORet (RVal 75)) m g /\ runs (cap_off GX) None ex56 mem0 glob0 (ORet (RVal 75)) m2 g2.
Proof.
  destruct (runs_val GX ex56 75) as (m & g & H); [vm_compute; done|].
  destruct (proj1 (C56_capture_only_adds _ None _ _ glob0 ex56_captureless ex56_start) _ _ _ H) as (m2 & H2 & _). exists m, g, m2, g. exact (conj H H2).
Qed.
