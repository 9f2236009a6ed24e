(** C10, C12, C09, C45: what a handled, an unhandled, and a replaced error leave behind. *)
From Verif Require Export PropsTry.
Open Scope Z_scope.

Lemma mk_nz id : mk id <> 0.
Proof. unfold mk. rewrite Z.lor_eq_0_iff. lia. Qed.

(** The id of a detected error is not 0, unless the exception carries a default-initialized error_id (or the third-party result a zero error code). *)
Lemma failed_id_nonzero G k caught p hs m g c ob mb gb o2 ei caught' m3 g3 :
  failed G k caught p hs m g c ob mb gb o2 ei caught' m3 g3 ->
  (forall x, o2 = OThrow x -> x_leaf x <> Some 0 /\ x_eid x <> Some 0) ->
  (forall cat v, o2 = ORet (RFor cat v) -> v <> 0) -> ei_id ei <> 0.
Proof.
  intros (m1 & m2 & g2 & F1 & F2 & F3 & F4 & F5) Hx Hf. destruct o2 as [r|x]; unfold detect in F5.
  - ok_inv F5. ok_inv F5. ok_inv F5. simplify_eq. simpl. destruct a as [i s]. simpl in *. destruct r as [z|id|id l e|cat v]; simpl in E; simplify_eq; try apply mk_nz.
    + destruct k; simpl in F4; done.
    + unfold import_ec in E. rewrite (proj2 (Z.eqb_neq v 0)) in E by eauto. destruct (cat =? LEAFCAT)%nat.
      * ok_inv E. simplify_eq. apply mk_nz.
      * destruct (gnew _ _). ok_inv E. simplify_eq. apply mk_nz.
  - ok_inv F5. destruct a as [e s]. simplify_eq. simpl. unfold exn_info in E. ok_inv E. match type of E with context [catch_info ?x ?y] => destruct (catch_info x y) as [[id ex] g0] eqn:Ec end. ok_inv E. simplify_eq. simpl.
    destruct (Hx x eq_refl) as [H1 H2]. unfold catch_info in Ec. destruct (x_std x).
    + destruct (x_leaf x); [simplify_eq; congruence|]. destruct (x_eid x); simplify_eq; [congruence|apply mk_nz].
    + simplify_eq. apply mk_nz.
Qed.

(** ** Auxiliary *)
Lemma held_actxs m s m' s' c T : R m s -> R m' s' -> actxs s' !! c = actxs s !! c -> held m' c T = held m c T.
Proof.
  intros HR HR' E. destruct (actxs s !! c) as [a|] eqn:Ha.
  - rewrite (R_held _ _ _ _ T HR Ha). by apply (R_held _ _ _ _ T HR').
  - unfold held, caddr. by rewrite (R_look_none _ _ _ HR Ha), (R_look_none _ _ c HR').
Qed.

Lemma detect_split G k c caught ob sb gb o2 s2 g2 ei caught' s3 g3 :
  settle (smach G) k (ob, (sb, gb)) = Ok (o2, (s2, g2)) ->
  detect G (smach G) c caught (o2, (s2, g2)) = Ok (ei, caught', (s3, g3)) ->
  exists s2', wb sb s2' /\ sdeact c s2' = Ok s3 /\
    (match ob with ORet (RErr _) | OThrow _ => True | _ => False end -> s2' = sb).
Proof.
  intros C2 E2. assert (wb sb s2 /\ (match ob with ORet (RErr _) | OThrow _ => True | _ => False end -> s2 = sb /\ o2 = ob)) as [W1 W1'].
  { split.
    - destruct k, ob; simpl in C2; simplify_eq; try apply wb_refl; by eapply (wb_unload_ret _ _ (sb, gb) _ (s2, g2)).
    - intros Hob. destruct k, ob as [[| | |]|]; simpl in C2; simplify_eq; done. }
  destruct o2 as [r|x]; unfold detect in E2.
  - ok_inv E2. destruct a as [i s2']. ok_inv E2. ok_inv E2. simplify_eq. apply on_mem_inv in E0 as [E0 _].
    exists (fst s2'). split; [|split; [exact E0|]].
    + eapply wb_trans; [exact W1|]. by eapply (wb_err_id _ _ (s2, g2)).
    + intros Hob. destruct (W1' Hob) as [-> <-]. destruct r; try done. simpl in E. by simplify_eq.
  - ok_inv E2. destruct a as [i s3']. simplify_eq. apply exn_info_inv in E as [E _]. exists s2. split; [done|]. split; [exact E|].
    intros Hob. by apply W1'.
Qed.

(** ** C12 *)
Definition takes_anything (args : list harg) : Prop :=
  Forall (fun a => match a with APtr _ | AInfo | ADiag | ADetails => True | _ => False end) args.

Lemma takes_anything_supply G m c ei args : takes_anything args -> mapM (supply G m c ei) args <> None.
Proof.
  induction 1 as [|a args Ha _ IH]; [done|]. simpl. destruct a; try done; simpl; destruct (mapM (supply G m c ei) args); done.
Qed.

Theorem C12_try_handle_all_handles_all :
  forall G caught p hs m g o m' g' others args0 b0,
    runs G caught (PTHA p hs) m g o m' g' ->
    flat hs = others ++ [(args0, b0)] -> takes_anything args0 ->
    (forall r, o = ORet r -> exists z, r = RVal z) /\
    exists c m1 ob mb gb,
      enter (pmach G) (deduce G hs) (m, g) = Ok (c, (m1, g)) /\ runs G caught p m1 g ob mb gb /\
      ((exists z, ob = ORet (RVal z) /\ o = ORet (RVal z)) \/
       (exists o2 ei caught' m3 g3, failed G KAll caught p hs m g c ob mb gb o2 ei caught' m3 g3 /\
          (ei_id ei <> 0 -> exists args w b vs m5 m4, chosen G m3 c ei hs args w b vs /\
             assigned m3 c (ei_id ei) args (w vs) m5 /\ runs G caught' (b vs) m5 g3 o m4 g'))).
Proof.
  intros G caught p hs m g o m' g' others args0 b0 (Hl & s & s' & HR & HR' & H) Hfl Hany.
  destruct (scope_inv G KAll _ _ _ _ _ _ _ _ _ HR H) as (m'' & Hl' & _ & c & m1 & s1 & A1 & A2 & HR1 & _ & ob & mb & sb & gb & B1 & B2 & HRb & o2 & m2 & s2 & g2 & C1 & C2 & HR2 & D).
  assert (m'' = m') as -> by (pose proof (eq_trans (eq_sym Hl) Hl'); by simplify_eq).
  assert (runs G caught p m1 g ob mb gb) as Hruns by (split; [done|]; by exists s1, sb).
  destruct D as [(D1 & D2 & D3)|(D1 & ei & caught' & m3 & s3 & g3 & o4 & m4 & s4 & g4 & E1 & E2 & HR3 & F1 & F2 & HR4 & F3 & F4)].
  - apply deact_leave_inv in D3 as (-> & _). destruct o2 as [[z| | |]|]; try done.
    assert (ob = ORet (RVal z)) as ->.
    { destruct ob as [[z'|id|id l ex|cat v]|x]; simpl in C2; simplify_eq; auto. unfold scap_unload in C2. destruct (sreceive_all _ _ _ _); simpl in C2; [|done]. by destruct ex. }
    split; [intros r ?; simplify_eq; eauto|]. exists c, m1, (ORet (RVal z)), mb, gb. split; [done|]. split; [done|]. left. eauto.
  - assert (failed G KAll caught p hs m g c ob mb gb o2 ei caught' m3 g3) as HF by (exists m1, m2, g2; done).
    split.
    + intros r ->. simpl in F4. unfold tha_end in F4. destruct o4 as [r4|x4].
      * destruct (is_val r4) eqn:Ev; [|done]. apply leave_inv in F4 as ([= ->] & _). destruct r4; try done. eauto.
      * apply leave_inv in F4 as (? & _). done.
    + exists c, m1, ob, mb, gb. split; [done|]. split; [done|]. right. exists o2, ei, caught', m3, g3. split; [done|]. intros Hid.
      destruct (failed_full G KAll _ _ _ _ _ _ _ _ _ _ _ _ _ _ _ _ _ _ _ HR H Hl HF Hid) as (s3' & o5 & m5 & s5 & g5 & HR3' & HR5 & _ & K1 & K2 & K3).
      destruct K3 as [(args & w & b & vs & m6 & s6 & K3 & K4 & K5 & _ & K6 & K7)|(K3 & _)].
      * simpl in K2. apply tha_end_inv in K2 as (-> & _ & Eg). simpl in Eg. subst g5. exists args, w, b, vs, m6, m5. split; [done|]. split; [done|]. split; [done|]. by exists s6, s5.
      * unfold nobody in K3. rewrite Hfl in K3. apply Forall_app in K3 as [_ K3]. apply Forall_cons in K3 as [K3 _]. simpl in K3.
        by destruct (takes_anything_supply G m3 c ei args0).
Qed.
Print Assumptions C12_try_handle_all_handles_all.

(** ** C10 *)

(** User code that does not communicate errors: it may look at things, do observable things, throw and catch exceptions of its own. *)
Fixpoint quiet (p : prog) : Prop :=
  match p with
  | PRet _ | PThrowX _ | PRethrow => True
  | PEmit _ k => quiet k
  | PBind p k => quiet p /\ forall r, quiet (k r)
  | PCatch p h => quiet p /\ forall x, quiet (h x)
  | PCurErr k | PMonitor k | PCheck _ k => forall z, quiet (k z)
  | _ => False
  end.

Lemma quiet_mem G M p : quiet p -> forall caught s o s', eval G M caught p s = Ok (o, s') -> fst s' = fst s.
Proof.
  induction p; intros Hq caught s o s' H0; simpl in Hq; try done; cbn [eval] in H0.
  - by simplify_eq.
  - ok_inv H0. destruct a as [[r|x] s1].
    + apply H in H0; [|apply Hq]. rewrite H0. eapply IHp; [apply Hq|exact E].
    + simplify_eq. eapply IHp; [apply Hq|exact E].
  - apply IHp in H0; done.
  - by apply H in H0.
  - by simplify_eq.
  - destruct caught; by simplify_eq.
  - ok_inv H0. destruct a as [[r|x] s1].
    + simplify_eq. eapply IHp; [apply Hq|exact E].
    + ok_inv H0. destruct a as [o2 s2]. apply H in E0; [|apply Hq]. apply IHp in E; [|apply Hq].
      simplify_eq. simpl in *. congruence.
  - by apply H in H0.
  - by apply H in H0.
Qed.

Theorem C10_handled_error_leaves_no_trace :
  forall G k caught p hs m g z m' g' c ob mb gb o2 ei caught' m3 g3,
    runs G caught (PScope k p hs) m g (ORet (RVal z)) m' g' ->
    failed G k caught p hs m g c ob mb gb o2 ei caught' m3 g3 -> ei_id ei <> 0 ->
    exists args w b vs m5 m4,
      chosen G m3 c ei hs args w b vs /\ assigned m3 c (ei_id ei) args (w vs) m5 /\ runs G caught' (b vs) m5 g3 (ORet (RVal z)) m4 g' /\
      (forall c' T, c' <> c -> held m' c' T = held m4 c' T) /\
      (quiet (b vs) -> forall c' T, c' <> c -> held m' c' T = held m3 c' T) /\
      (match ob with ORet (RErr _) | OThrow _ => True | _ => False end -> forall c' T, held m3 c' T = held mb c' T) /\
      (forall c' T, SE T ∈ deduce G hs -> active m c' -> held m3 c' T = held m c' T).
Proof.
  intros G k caught p hs m g z m' g' c ob mb gb o2 ei caught' m3 g3 (Hl & s & s' & HR & HR' & H) HF Hid.
  destruct (failed_full _ _ _ _ _ _ _ _ _ _ _ _ _ _ _ _ _ _ _ _ _ HR H Hl HF Hid) as (s3 & o4 & m4 & s4 & g4 & HR3 & HR4 & _ & F1 & F2 & F3).
  assert (o4 = ORet (RVal z) /\ g4 = g' /\ actxs s' = delete c (actxs s4)) as (-> & -> & Es).
  { destruct k; simpl in F2.
    - apply tha_end_inv in F2 as (-> & Hd & Eg). apply sdestroy_inv in Hd as [_ Hd]. simpl in *. by subst s'.
    - unfold ths_end in F2. destruct o4 as [r|x]; [|by apply leave_inv in F2 as (? & _)]. destruct (is_val r) eqn:Ev.
      + apply leave_inv in F2 as (-> & Hd & Eg). apply sdestroy_inv in Hd as [_ Hd]. simpl in *. by subst s'.
      + ok_inv F2. ok_inv F2. apply leave_inv in F2 as (? & _). by simplify_eq.
    - apply leave_inv in F2 as (-> & Hd & Eg). apply sdestroy_inv in Hd as [_ Hd]. simpl in *. by subst s'. }
  destruct F3 as [(args & w & b & vs & m5 & s5 & F3 & Fas & HR5 & W5 & F4 & F5)|(F3 & F4 & F5)].
  2:{ exfalso. destruct HF as (m1 & m2 & g2 & _ & _ & _ & HF & _). destruct o2 as [r|x]; simpl in F5, HF.
      - destruct k; try done; by simplify_eq.
      - by apply unload_rethrow_inv in F5 as [? _]. }
  exists args, w, b, vs, m5, m4. split; [done|]. split; [done|]. split; [split; [done|]; by exists s5, s4|].
  assert (forall c' T, c' <> c -> held m' c' T = held m4 c' T) as Hheld. { intros. eapply delete_held; eauto. }
  split; [done|]. split.
  { intros Hq c' T Hne. rewrite Hheld by done. pose proof (quiet_mem _ (pmach G) _ Hq _ _ _ _ F4) as Eq. simpl in Eq. rewrite Eq.
    apply (as_old _ _ _ _ _ _ Fas). done. }
  destruct (failed_both _ _ _ _ _ _ _ _ _ _ _ _ _ _ _ _ _ _ _ _ _ HR H Hl HF)
    as (m1 & s1 & sb & m2 & s2 & g2 & s3' & -> & A1 & A2 & HR1 & B1 & B2 & HRb & C1 & C2 & HR2 & D & E1 & E2 & HR3' & _).
  destruct (detect_split _ _ _ _ _ _ _ _ _ _ _ _ _ _ C2 E2) as (s2' & W & Hd & Hsame). apply sdeact_inv in Hd as (D1 & D2 & D3).
  split.
  - intros Hob c' T. rewrite (Hsame Hob) in D2. eapply held_actxs; [exact HRb|exact HR3'|by rewrite D2].
  - intros c' T HT Hc'. apply (R_active _ _ _ HR) in Hc'.
    destruct (enter_both G (deduce G hs) m s g (deduce_nodup G hs) HR) as (s1' & m1' & A1' & A2' & _ & S1 & S2 & S3).
    assert (s1' = s1) as -> by (rewrite A2 in A1'; by simplify_eq).
    destruct (wf_fresh _ (R_wf _ _ HR)) as [Hf1 Hf2]. assert (c' <> snc s) as Hne by congruence.
    assert (wb s1 s2') as W'. { eapply wb_trans; [eapply (proj1 (eval_wb _) _ _ (s1, g) _ (sb, gb)); exact B2|exact W]. }
    assert (hides T c' s1) as Hh. { exists [], (snc s), (stack s), (ACtx (deduce G hs) ∅ None). rewrite S1, S2, lookup_insert. done. }
    pose proof (wb_frame T c' _ _ W' (R_wf _ _ HR1) Hh) as Hf. unfold hold in Hf. rewrite <- D2, S2, lookup_insert_ne in Hf by done.
    destruct (R_in _ _ HR c' Hc') as [a Ha]. rewrite Ha in Hf. simpl in Hf. destruct (actxs s3' !! c') as [a3|] eqn:Ha3; [|done]. simpl in Hf.
    rewrite (R_held _ _ _ _ T HR Ha), (R_held _ _ _ _ T HR3' Ha3). congruence.
Qed.
Print Assumptions C10_handled_error_leaves_no_trace.

(** ** C09 for a whole scope, C45 *)
Lemma moved_ext G id src m m1 m2 : (forall c T, active m c -> held m2 c T = held m1 c T) -> moved G id src m m1 -> moved G id src m m2.
Proof. intros E H c T Hc. rewrite (E c T Hc). by apply H. Qed.

Lemma unload_leave_moved G m4 s4 g4 c id s5 g5 m' s' :
  R m4 s4 -> aok s4 -> id <> 0 ->
  m_unload (smach (asserts_on G)) c id s4 g4 = Ok (s5, g5) -> sdestroy c s5 = Ok s' -> R m' s' ->
  moved G id (fun T => sees id (held m4 c T)) m4 m'.
Proof.
  intros HR4 Hok Hid Hu Hd HR'. simpl in Hu. pose proof Hu as Hu0. unfold sunload in Hu0. destruct (actxs s4 !! c) as [a|] eqn:Ha; [|done].
  destruct (decide (c ∈ stack s4)) as [Hin|Hin]; [by rewrite bool_decide_true in Hu0|]. clear Hu0.
  destruct (C09_unload_moves_objects G m4 s4 g4 c id HR4) as (m5 & g5' & s5' & E5 & HR5 & _ & Hmv & _); auto.
  { apply (R_inactive _ _ _ HR4). eauto. }
  { apply (R_usable _ _ HR4). by apply aok_dok. }
  destruct (sim_ok _ _ _ _ (sim_unload G c id (m4, g4) (s4, g4) ltac:(by split)) Hu) as ([m5' g5''] & E5' & HR5' & _). simpl in E5', HR5'.
  rewrite E5 in E5'. simplify_eq. eapply moved_ext; [|exact Hmv]. intros c' T Hc'. apply sdestroy_inv in Hd as [_ ->].
  eapply delete_held; [exact HR5'|exact HR'|done|]. intros ->. by apply (R_active _ _ _ HR4) in Hc'.
Qed.

Lemma failed_aok G k caught p hs m s g o m' s' g' c ob mb gb o2 ei caught' m3 g3 s3 :
  R m s -> spec_run G caught (PScope k p hs) s g o s' g' -> lib_run G caught (PScope k p hs) m g o m' g' ->
  failed G k caught p hs m g c ob mb gb o2 ei caught' m3 g3 -> healthy m -> R m3 s3 -> aok s3.
Proof.
  intros HR H Hl HF Hh HR3''.
  destruct (failed_both _ _ _ _ _ _ _ _ _ _ _ _ _ _ _ _ _ _ _ _ _ HR H Hl HF)
    as (m1 & s1 & sb & m2 & s2 & g2 & s3' & -> & A1 & A2 & HR1 & B1 & B2 & HRb & C1 & C2 & HR2 & D & E1 & E2 & HR3' & _).
  destruct (detect_split _ _ _ _ _ _ _ _ _ _ _ _ _ _ C2 E2) as (s2' & W & Hd & Hsame). apply sdeact_inv in Hd as (D1 & D2 & D3).
  destruct (enter_both G (deduce G hs) m s g (deduce_nodup G hs) HR) as (s1' & m1' & A1' & A2' & _ & S1 & S2 & S3).
  assert (s1' = s1) as -> by (rewrite A2 in A1'; by simplify_eq).
  destruct (wf_fresh _ (R_wf _ _ HR)) as [Hf1 Hf2]. apply (R_healthy _ _ HR) in Hh.
  assert (wb s1 s2') as W'. { eapply wb_trans; [eapply (proj1 (eval_wb _) _ _ (s1, g) _ (sb, gb)); exact B2|exact W]. }
  assert (aok s1) as H1.
  { intros c Hc a q. rewrite S2. rewrite S1 in Hc. destruct (decide (c = snc s)) as [->|Hne].
    - rewrite lookup_insert. intros. by simplify_eq.
    - rewrite lookup_insert_ne by done. apply elem_of_cons in Hc as [?|Hc]; [done|]. by apply Hh. }
  apply (wb_aok _ _ W' (R_wf _ _ HR1)) in H1. apply (R_healthy _ _ HR3''). apply (R_healthy _ _ HR3').
  intros c Hc a q. rewrite D2. apply H1. rewrite D1. by constructor.
Qed.

Theorem C09_unhandled_error_carries_objects_out :
  forall G k caught p hs m g o m' g' c ob mb gb o2 ei caught' m3 g3,
    runs G caught (PScope k p hs) m g o m' g' -> healthy m ->
    failed G k caught p hs m g c ob mb gb o2 ei caught' m3 g3 -> ei_id ei <> 0 ->
    nobody G m3 c ei hs ->
    (forall cat v, o2 <> ORet (RFor cat v)) ->
    o = o2 /\ ctxs m' = ctxs m /\
    moved G (ei_id ei) (fun T => sees (ei_id ei) (held m3 c T)) m3 m'.
Proof.
  intros G k caught p hs m g o m' g' c ob mb gb o2 ei caught' m3 g3 (Hl & s & s' & HR & HR' & H) Hh HF Hid Hn Hfor.
  destruct (failed_full _ _ _ _ _ _ _ _ _ _ _ _ _ _ _ _ _ _ _ _ _ HR H Hl HF Hid) as (s3 & o4 & m4 & s4 & g4 & HR3 & HR4 & _ & F1 & F2 & F3).
  pose proof (failed_aok _ _ _ _ _ _ _ _ _ _ _ _ _ _ _ _ _ _ _ _ _ _ HR H Hl HF Hh HR3) as Hok.
  assert (ctxs m' = ctxs m) as Ec.
  { apply (proj1 (eval_wb _)) in H. simpl in H. exact (same_ctxs _ _ _ _ HR HR' (wb_same _ _ H (R_wf _ _ HR))). }
  destruct F3 as [(args & w & b & vs & m5 & s5 & (pre & post & K1 & K2 & K3) & _)|(_ & F4 & F5)].
  { unfold nobody in Hn. rewrite K1 in Hn. apply Forall_app in Hn as [_ Hn]. apply Forall_cons in Hn as [Hn _]. simpl in Hn. congruence. }
  destruct o2 as [r|x]; simpl in F4, F5.
  - destruct k; try done. simplify_eq. simpl in F2. unfold ths_end in F2.
    destruct HF as (m1 & m2 & g2 & _ & _ & _ & HF & Hdet). simpl in HF. rewrite HF in F2.
    unfold detect in Hdet. ok_inv Hdet. ok_inv Hdet. ok_inv Hdet. injection Hdet as <- <- Hm. simpl in *. destruct a as [i s2].
    assert (err_id_of (asserts_on G) (smach (asserts_on G)) r (s4, g4) = Ok (i, (s4, g4))) as Ei.
    { destruct r as [|id|id l ex|cat v]; simpl in *; try done; simplify_eq; try done. by destruct (Hfor cat v). }
    rewrite Ei in F2. cbn [rbind fst snd] in F2. ok_inv F2. apply leave_inv in F2 as (-> & Hd & _). destruct a as [s5 g5]. simpl in Hd.
    split; [done|]. split; [done|]. by eapply unload_leave_moved.
  - apply unload_rethrow_inv in F5 as [-> Hu]. 
    assert (sdestroy c s4 = Ok s' /\ o = OThrow x) as [Hd ->].
    { destruct k; simpl in F2; apply leave_inv in F2 as (-> & Hd & _); done. }
    split; [done|]. split; [done|]. by eapply unload_leave_moved.
Qed.
Print Assumptions C09_unhandled_error_carries_objects_out.

Theorem C45_handler_error_carries_objects_out :
  forall G caught p hs m g r m' g' c ob mb gb o2 ei caught' m3 g3 id,
    runs G caught (PTHS p hs) m g (ORet r) m' g' -> healthy m ->
    failed G KSome caught p hs m g c ob mb gb o2 ei caught' m3 g3 -> ei_id ei <> 0 ->
    ~ nobody G m3 c ei hs ->
    match r with RErr i | RCap i _ _ => id = mk i | _ => False end ->
    exists args w b vs m5 m4 g4,
      chosen G m3 c ei hs args w b vs /\ assigned m3 c (ei_id ei) args (w vs) m5 /\ runs G caught' (b vs) m5 g3 (ORet r) m4 g4 /\
      ctxs m' = ctxs m /\
      moved G id (fun T => sees id (held m4 c T)) m4 m'.
Proof.
  intros G caught p hs m g r m' g' c ob mb gb o2 ei caught' m3 g3 id (Hl & s & s' & HR & HR' & H) Hh HF Hid Hn Hr.
  destruct (failed_full G KSome _ _ _ _ _ _ _ _ _ _ _ _ _ _ _ _ _ _ _ HR H Hl HF Hid) as (s3 & o4 & m4 & s4 & g4 & HR3 & HR4 & _ & F1 & F2 & F3).
  pose proof (failed_aok G KSome _ _ _ _ _ _ _ _ _ _ _ _ _ _ _ _ _ _ _ _ HR H Hl HF Hh HR3) as Hok.
  assert (ctxs m' = ctxs m) as Ec.
  { apply (proj1 (eval_wb _)) in H. simpl in H. exact (same_ctxs _ _ _ _ HR HR' (wb_same _ _ H (R_wf _ _ HR))). }
  destruct F3 as [(args & w & b & vs & m5 & s5 & K & Kas & HR5 & W5 & F4 & F5)|(? & _)]; [|done].
  simpl in F2. unfold ths_end in F2. destruct o4 as [r4|x4]; [|by apply leave_inv in F2 as (? & _)].
  assert (r4 = r) as ->.
  { destruct (is_val r4) eqn:Ev.
    - apply leave_inv in F2 as (? & _). by simplify_eq.
    - ok_inv F2. ok_inv F2. apply leave_inv in F2 as (? & _). by simplify_eq. }
  exists args, w, b, vs, m5, m4, g4. split; [done|]. split; [done|]. split; [split; [done|]; by exists s5, s4|]. split; [done|].
  apply (wb_aok _ _ W5 (R_wf _ _ HR3)) in Hok.
  pose proof (proj1 (eval_wb _) _ _ _ _ _ F5) as W. simpl in W. apply (wb_aok _ _ W (R_wf _ _ HR5)) in Hok.
  assert (is_val r = false) as Ev by by destruct r. rewrite Ev in F2.
  assert (err_id_of (asserts_on G) (smach (asserts_on G)) r (s4, g4) = Ok (id, (s4, g4))) as Ei by (destruct r; simpl in *; subst; done).
  rewrite Ei in F2. cbn [rbind fst snd] in F2. ok_inv F2. apply leave_inv in F2 as (_ & Hd & _). destruct a as [s6 g6]. simpl in Hd.
  eapply unload_leave_moved; eauto. destruct r; subst; try done; apply mk_nz.
Qed.
Print Assumptions C45_handler_error_carries_objects_out.
