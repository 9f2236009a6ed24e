(** C08, C13: further forms; concrete cases for the theorems about scopes (C08 - C14, C45). *)
From Verif Require Export PropsScope PropsTry2.
Open Scope Z_scope.

(** ** C08 for a scope just entered: while the body of a scope with storage for T runs, every context around it keeps its object of type T. *)
Theorem C08_scope_body_isolated :
  forall G caught p tup T m s g,
    R m s -> NoDup tup -> SE T ∈ tup ->
    exists c0 m1 s1, enter (pmach G) tup (m, g) = Ok (c0, (m1, g)) /\ R m1 s1 /\ ctxs m !! c0 = None /\
      forall o s2 g2, spec_run G caught p s1 g o s2 g2 ->
        exists m2, lib_run G caught p m1 g o m2 g2 /\ forall c, active m c -> held m2 c T = held m c T.
Proof.
  intros G caught p tup T m s g HR Hnd HT. pose proof (R_wf _ _ HR) as Hwf. destruct (wf_fresh _ Hwf) as [Hf1 Hf2].
  destruct (enter_both G tup m s g Hnd HR) as (s1 & m1 & E1 & E2 & HR1 & A1 & A2 & A3).
  exists (snc s), m1, s1. split; [done|]. split; [done|]. split; [by apply (R_look_none _ _ _ HR)|]. intros o s2 g2 H.
  destruct (C48_pointer_free_semantics _ _ _ _ _ _ _ _ _ HR1 H) as (m2 & Hl & HR2). exists m2. split; [done|]. intros c Hc.
  apply (R_active _ _ _ HR) in Hc. assert (c <> snc s) as Hne by congruence.
  assert (hides T c s1) as Hh.
  { exists [], (snc s), (stack s), (ACtx tup ∅ None). rewrite A2, lookup_insert. done. }
  destruct (C08_inner_scopes_isolated _ _ _ _ _ _ _ _ _ T c HR1 Hh H) as (m2' & Hl' & E & _). pose proof (eq_trans (eq_sym Hl) Hl'); simplify_eq.
  rewrite E. eapply held_actxs; [exact HR|exact HR1|]. by rewrite A2, lookup_insert_ne.
Qed.
Print Assumptions C08_scope_body_isolated.

(** ** C13 for try_capture_all *)
Theorem C13_capture_success_passes_through :
  forall G caught p m s g, R m s -> g_capture G = true ->
  exists c m1 s1,
    ctxs m !! c = None /\ enter (pmach G) [SDA] (m, g) = Ok (c, (m1, g)) /\ R m1 s1 /\
    forall z sb gb, spec_run G caught p s1 g (ORet (RVal z)) sb gb ->
    exists mb m' s',
      lib_run G caught p m1 g (ORet (RVal z)) mb gb /\
      lib_run G caught (PCapture false p) m g (ORet (RVal z)) m' gb /\ R m' s' /\
      ctxs m' = ctxs m /\ tlsd m' = tlsd m /\
      (forall c' T, c' <> c -> held m' c' T = held mb c' T).
Proof.
  intros G caught p m s g HR Hcap.
  destruct (enter_both G [SDA] m s g ltac:(apply NoDup_singleton) HR) as (s1 & m1 & E1 & E2 & HR1 & A1 & A2 & A3).
  pose proof (R_wf _ _ HR) as Hwf. destruct (wf_fresh _ Hwf) as [Hf1 Hf2].
  exists (snc s), m1, s1. split; [by apply (R_look_none _ _ _ HR)|]. split; [done|]. split; [done|]. intros z sb gb Hb.
  destruct (C48_pointer_free_semantics _ _ _ _ _ _ _ _ _ HR1 Hb) as (mb & Hlb & HRb).
  pose proof (proj1 (eval_wb _) _ _ _ _ _ Hb) as Hw. simpl in Hw. pose proof (wb_same _ _ Hw (R_wf _ _ HR1)) as Hs.
  destruct (sm_tup _ _ Hs (snc s) (ACtx [SDA] ∅ None)) as (ab & Hab & _); [rewrite A2; by rewrite lookup_insert|].
  set (s' := SMem (stack s) (delete (snc s) (actxs sb)) (snc sb)).
  assert (spec_run G caught (PCapture false p) s g (ORet (RVal z)) s' gb) as Hspec.
  { unfold enter in E1. cbn [eval]. simpl g_capture. rewrite Hcap. cbn [negb].
    match type of E1 with context [m_new ?a ?b ?d] => destruct (m_new a b d) as [c0 m0] end.
    ok_inv E1. injection E1 as -> ->. cbn [rbind]. eapply rb_ok; [exact Hb|].
    unfold deact_leave, leave, on_mem. simpl. unfold sdeact. rewrite (sm_stack _ _ Hs), A1, bool_decide_true by done. simpl.
    unfold sdestroy. simpl. rewrite Hab, bool_decide_false by done. done. }
  destruct (C48_pointer_free_semantics _ _ _ _ _ _ _ _ _ HR Hspec) as (m' & Hl & HR').
  exists mb, m', s'. split; [done|]. split; [done|]. split; [done|].
  pose proof (proj1 (eval_wb _) _ _ _ _ _ Hspec) as Hw'. simpl in Hw'. pose proof (wb_same _ _ Hw' Hwf) as Hs'.
  assert (ctxs m' = ctxs m) as Ec by exact (same_ctxs _ _ _ _ HR HR' Hs').
  split; [done|]. split.
  - rewrite (R_tlsd_find _ _ HR), (R_tlsd_find _ _ HR'). by apply same_find_d.
  - intros c' T Hne. eapply delete_held; eauto.
Qed.
Print Assumptions C13_capture_success_passes_through.

(** ** Concrete cases *)

(** An enclosing context (number 0) for TA and TB is active. *)
Definition out_s : smem := match enter (smach (asserts_on GX)) [SE TA; SE TB] (smem0, glob0) with Ok (_, (s, _)) => s | _ => smem0 end.
Definition out_m : mem := match enter (pmach GX) [SE TA; SE TB] (mem0, glob0) with Ok (_, (m, _)) => m | _ => mem0 end.
Lemma out_R : R out_m out_s.
Proof.
  destruct (enter_both GX [SE TA; SE TB] mem0 smem0 glob0) as (s1 & m1 & E1 & E2 & HR & _).
  { apply (bool_decide_unpack _). vm_compute. exact I. } { exact R0. }
  unfold out_m, out_s. rewrite E1, E2. exact HR.
Qed.
Lemma out_active : active out_m 0%nat /\ serves out_m TA 0%nat /\ serves out_m TB 0%nat.
Proof. split; [|split]; vm_compute; eauto. Qed.
Lemma out_healthy : healthy out_m.
Proof. intros c d _ H. vm_compute in H. done. Qed.

Lemma runs_intro G caught p m s g o m' s' g' :
  R m s -> lib_run G caught p m g o m' g' -> spec_run G caught p s g o s' g' -> runs G caught p m g o m' g'.
Proof.
  intros HR Hl Hs. split; [done|]. destruct (C48_pointer_free_semantics _ _ _ _ _ _ _ _ _ HR Hs) as (m1 & Hl' & HR').
  pose proof (eq_trans (eq_sym Hl) Hl'). simplify_eq. exists s, s'. done.
Qed.

(** The same two objects are loaded; handlers differ. *)
Definition ex_body : prog := PNewError [IVal TA (VZ 70); IVal TB (VZ 80)] (fun id => PRet (RErr id)).
Definition ex_hs_none : handlers := HCons [AE TC; APtr TB] (fun _ => PRet (RVal 1)) HNil.
Definition ex_hs_val : handlers := HCons [AE TC; APtr TB] (fun _ => PRet (RVal 1))
   (HTup (HCons [AE TB; APtr TA] (fun l => match l with [VE (VZ b); VP (Some (VZ a))] => PRet (RVal (a + b)) | _ => PRet (RVal 0) end) HNil) HNil).
Definition ex_hs_err : handlers := HCons [AE TB] (fun _ => PLoad 5 [IVal TC (VZ 90)] (PRet (RErr 5))) HNil.

Global Instance ret_eq_dec : EqDecision ret.
Proof. solve_decision. Defined.
Global Instance out_eq_dec : EqDecision out.
Proof. solve_decision. Defined.

(** The phases of [failed], computed. *)
Definition phases (G : cfg) (k : kind) (caught : option exn) (p : prog) (hs : handlers) (m : mem) (g : glob)
    : res (cid * (out * (mem * glob)) * out * (einfo * option exn * (mem * glob))) :=
  let! cs1 := enter (pmach G) (deduce G hs) (m, g) in
  let! os := eval G (pmach G) caught p (snd cs1) in
  let! os2 := settle (pmach G) k os in
  if success k (fst os2) then Fail IllTyped
  else let! d := detect G (pmach G) (fst cs1) caught os2 in Ok (fst cs1, os, fst os2, d).
Lemma phases_failed G k caught p hs m g c ob mb gb o2 ei caught' m3 g3 :
  phases G k caught p hs m g = Ok (c, (ob, (mb, gb)), o2, (ei, caught', (m3, g3))) -> failed G k caught p hs m g c ob mb gb o2 ei caught' m3 g3.
Proof.
  unfold phases. intros H. destruct (enter _ _ _) as [[c' [m1 g1]]|] eqn:E1; [|done]. cbn [rbind fst snd] in H.
  assert (g1 = g) as ->. { unfold enter in E1. destruct (m_new _ _ _). ok_inv E1. simplify_eq. unfold on_mem in E. ok_inv E. by simplify_eq. }
  ok_inv H. destruct a as [ob' [mb' gb']]. ok_inv H. destruct a as [o2' [m2 g2]]. cbn [rbind fst snd] in H.
  destruct (success k o2') eqn:Es; [done|]. ok_inv H. simplify_eq. exists m1, m2, g2. done.
Qed.

Lemma scope_ex G k p hs m s g (P : out -> mem -> cid -> out -> einfo -> mem -> Prop)
    `{!forall o m' c o2 ei m3, Decision (P o m' c o2 ei m3)} :
  R m s ->
  match eval (asserts_on G) (smach (asserts_on G)) None (PScope k p hs) (s, g),
        eval G (pmach G) None (PScope k p hs) (m, g), phases G k None p hs m g with
  | Ok _, Ok (o, (m', _)), Ok (c, _, o2, (ei, _, (m3, _))) => bool_decide (P o m' c o2 ei m3)
  | _, _, _ => false
  end = true ->
  exists o m' g' c ob mb gb o2 ei caught' m3 g3,
    runs G None (PScope k p hs) m g o m' g' /\ failed G k None p hs m g c ob mb gb o2 ei caught' m3 g3 /\ P o m' c o2 ei m3.
Proof.
  rename H into Hdec. intros HR H. destruct (eval (asserts_on G) _ _ _ _) as [[os [s' gs]]|] eqn:Es; [|done].
  destruct (eval G _ _ _ _) as [[o [m' g']]|] eqn:Em; [|done].
  destruct (phases _ _ _ _ _ _ _) as [[[[c [ob [mb gb]]] o2] [[ei caught'] [m3 g3]]]|] eqn:Ep; [|done].
  apply bool_decide_eq_true in H. apply phases_failed in Ep.
  destruct (C48_pointer_free_semantics _ _ _ _ _ _ _ _ _ HR Es) as (m1 & Hl & HR'). pose proof (eq_trans (eq_sym Em) Hl). simplify_eq.
  do 12 eexists. split; [|split; [exact Ep|exact H]]. split; [done|]. by exists s, s'.
Qed.

(** C09: no handler matches; TB, handled by the scope, is carried out; TA went to the enclosing scope directly. *)
Example ex09 : exists o m' g' c ob mb gb o2 ei caught' m3 g3,
  runs GX None (PScope KSome ex_body ex_hs_none) out_m glob0 o m' g' /\
  failed GX KSome None ex_body ex_hs_none out_m glob0 c ob mb gb o2 ei caught' m3 g3 /\
  (ei_id ei <> 0 /\ nobody GX m3 c ei ex_hs_none /\ o2 = ORet (RErr 5) /\ o = o2 /\
   held m3 0%nat TB = None /\ held m3 c TB = Some (5, VZ 80) /\ held m' 0%nat TB = Some (5, VZ 80)).
Proof.
  unfold nobody. eapply (scope_ex GX KSome _ _ _ _ _ (fun o m' c o2 ei m3 => ei_id ei <> 0 /\ Forall _ _ /\ o2 = ORet (RErr 5) /\ o = o2 /\
   held m3 0%nat TB = None /\ held m3 c TB = Some (5, VZ 80) /\ held m' 0%nat TB = Some (5, VZ 80))); [exact out_R|]. vm_compute. reflexivity.
Qed.

(** C10, C11: the second handler, in a nested tuple, matches; the enclosing scope never sees the objects. *)
Example ex10 : exists o m' g' c ob mb gb o2 ei caught' m3 g3,
  runs GX None (PScope KSome ex_body ex_hs_val) out_m glob0 o m' g' /\
  failed GX KSome None ex_body ex_hs_val out_m glob0 c ob mb gb o2 ei caught' m3 g3 /\
  (ei_id ei <> 0 /\ o = ORet (RVal 150) /\ held m' 0%nat TB = None /\ held m' 0%nat TA = None).
Proof.
  eapply (scope_ex GX KSome _ _ _ _ _ (fun o m' c o2 ei m3 => ei_id ei <> 0 /\ o = ORet (RVal 150) /\ held m' 0%nat TB = None /\ held m' 0%nat TA = None));
    [exact out_R|]. vm_compute. reflexivity.
Qed.

(** C12: the failure is an exception; the last handler takes a pointer and error_info only. *)
Definition ex_hs_all : handlers := HCons [AE TC] (fun _ => PRet (RVal 1)) (HCons [APtr TA; AInfo] (fun _ => PRet (RVal 2)) HNil).
Definition ex_throw : prog := PThrow None (XSpec true [T_STDEX] 5 None None) [IVal TA (VZ 3)].
Example ex12 :
  (exists o m' g' c ob mb gb o2 ei caught' m3 g3,
    runs GX None (PTHA ex_throw ex_hs_all) out_m glob0 o m' g' /\
    failed GX KAll None ex_throw ex_hs_all out_m glob0 c ob mb gb o2 ei caught' m3 g3 /\ (ei_id ei <> 0 /\ o = ORet (RVal 2))) /\
  exists others args0 b0, flat ex_hs_all = others ++ [(args0, b0)] /\ takes_anything args0.
Proof.
  split.
  - eapply (scope_ex GX KAll _ _ _ _ _ (fun o m' c o2 ei m3 => ei_id ei <> 0 /\ o = ORet (RVal 2))); [exact out_R|]. vm_compute. reflexivity.
  - exists [([AE TC], (fun _ => [], fun _ => PRet (RVal 1)))]. do 2 eexists. split; [reflexivity|]. repeat constructor.
Qed.

(** C45: the handler loads TC (nobody wants it) and returns the same error; TB, held by the scope, is carried out. *)
Example ex45 : exists o m' g' c ob mb gb o2 ei caught' m3 g3,
  runs GX None (PTHS ex_body ex_hs_err) out_m glob0 o m' g' /\
  failed GX KSome None ex_body ex_hs_err out_m glob0 c ob mb gb o2 ei caught' m3 g3 /\
  (ei_id ei <> 0 /\ ~ nobody GX m3 c ei ex_hs_err /\ o = ORet (RErr 5) /\ held m3 0%nat TB = None /\ held m' 0%nat TB = Some (5, VZ 80)).
Proof.
  unfold nobody. eapply (scope_ex GX KSome _ _ _ _ _ (fun o m' c o2 ei m3 => ei_id ei <> 0 /\ ~ Forall _ _ /\ o = ORet (RErr 5) /\
    held m3 0%nat TB = None /\ held m' 0%nat TB = Some (5, VZ 80))); [exact out_R|]. vm_compute. reflexivity.
Qed.

(** C08: the enclosing scope's TB survives a load of TB inside a scope for TB. *)
Example ex08 :
  match enter (pmach GX) [SE TB] (out_m, glob0) with
  | Ok (c, s1) => match eval GX (pmach GX) None ex_body s1 with
                  | Ok (_, (m2, _)) => Some (held m2 0%nat TB, held m2 c TB, held m2 0%nat TA)
                  | _ => None
                  end
  | _ => None
  end = Some (None, Some (5, VZ 80), Some (5, VZ 70)).
Proof. vm_compute. reflexivity. Qed.

(** C13: a scope around a block that loads an object but then succeeds. *)
Example ex13 :
  match eval GX (pmach GX) None (PScope KSome (PNewError [IVal TA (VZ 70); IVal TB (VZ 80)] (fun _ => PRet (RVal 3))) ex_hs_none) (out_m, glob0) with
  | Ok (o, (m', _)) => Some (o, held m' 0%nat TB, held m' 0%nat TA) | _ => None end = Some (ORet (RVal 3), None, Some (5, VZ 70)).
Proof. vm_compute. reflexivity. Qed.
Example ex13c :
  match eval GX (pmach GX) None (PCapture false (PNewError [IVal TA (VZ 70); IVal TC (VZ 80)] (fun _ => PRet (RVal 3)))) (out_m, glob0) with
  | Ok (o, (m', _)) => Some (o, held m' 0%nat TC, held m' 0%nat TA) | _ => None end = Some (ORet (RVal 3), None, Some (5, VZ 70)).
Proof. vm_compute. reflexivity. Qed.
