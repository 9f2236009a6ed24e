(** C09 - C13, C45: error handling scopes as a whole. *)
From Verif Require Export Try.
Open Scope Z_scope.

(** ** Vocabulary *)

(** The library runs the program, and the stack machine, started from a corresponding state, does not report misuse (see C48, C15). *)
Definition runs (G : cfg) (caught : option exn) (p : prog) (m : mem) (g : glob) (o : out) (m' : mem) (g' : glob) : Prop :=
  lib_run G caught p m g o m' g' /\
  exists s s', R m s /\ R m' s' /\ spec_run G caught p s g o s' g'.

(** The scope's context c is created and activated, the try block runs and ends in ob, which is a failure (after unloading what
    was captured, o2); the context is deactivated, the error is identified; ei and the memory m3 are what handlers will be offered. *)
Definition failed (G : cfg) (k : kind) (caught : option exn) (p : prog) (hs : handlers) (m : mem) (g : glob)
    (c : cid) (ob : out) (mb : mem) (gb : glob) (o2 : out) (ei : einfo) (caught' : option exn) (m3 : mem) (g3 : glob) : Prop :=
  exists m1 m2 g2,
    enter (pmach G) (deduce G hs) (m, g) = Ok (c, (m1, g)) /\
    lib_run G caught p m1 g ob mb gb /\
    settle (pmach G) k (ob, (mb, gb)) = Ok (o2, (m2, g2)) /\
    success k o2 = false /\
    detect G (pmach G) c caught (o2, (m2, g2)) = Ok (ei, caught', (m3, g3)).

(** The first handler, in order, all of whose arguments can be supplied; called with vs, it assigns w vs to them, then runs b vs. *)
Definition chosen (G : cfg) (m : mem) (c : cid) (ei : einfo) (hs : handlers) (args : list harg)
    (w : list argval -> list (ety * val)) (b : list argval -> prog) (vs : list argval) : Prop :=
  exists pre post, flat hs = pre ++ (args, (w, b)) :: post /\
    Forall (fun h => mapM (supply G m c ei) (fst h) = None) pre /\ mapM (supply G m c ei) args = Some vs.
Definition nobody (G : cfg) (m : mem) (c : cid) (ei : einfo) (hs : handlers) : Prop :=
  Forall (fun h => mapM (supply G m c ei) (fst h) = None) (flat hs).

(** ** Collections of active contexts stay usable *)
Definition ok_at (c : cid) (s : smem) : Prop := forall a q, actxs s !! c = Some a -> ac_coll a = Some q -> q_ok q = true.

Lemma atom_ok_at c s s' : atom s s' -> c ∈ stack s -> ok_at c s -> ok_at c s'.
Proof.
  intros Hat Hin Hok a0 q0. destruct Hat as [? c0 a T' ? ? Hf|? c0 a T' ? ? ? Hf Hd|? c0 a T'|? c0 a q|? c0 a T' ? ? ?]; simpl.
  - destruct (decide (c = c0)) as [->|?]; [|rewrite lookup_insert_ne by done; apply Hok]. rewrite lookup_insert. intros ? Hq. simplify_eq.
    apply set_e_ok in Hq as (q1 & Hq1 & ->). apply find_ctx_in in Hf as (_ & Ha & _). eapply Hok; eauto.
  - destruct (decide (c = c0)) as [->|?]; [|rewrite lookup_insert_ne by done; apply Hok]. rewrite lookup_insert. intros ? Hq. by simplify_eq/=.
  - rewrite lookup_insert_ne by congruence. apply Hok.
  - rewrite lookup_insert_ne by congruence. apply Hok.
  - rewrite lookup_insert_ne by congruence. apply Hok.
Qed.
Lemma wb_ok_at c s s' : wb s s' -> swf s -> c ∈ stack s -> ok_at c s -> ok_at c s'.
Proof.
  induction 1; intros Hwf Hin Hok; auto.
  - apply IHwb2; [eapply same_wf; eauto; by apply wb_same|by rewrite (wb_stack _ _ H)|auto].
  - by eapply atom_ok_at.
  - destruct (wf_fresh _ Hwf) as [Hf1 Hf2]. assert (c <> snc s) as Hne by congruence.
    apply sdestroy_inv in H1 as [_ ->]. intros a q. simpl. rewrite lookup_delete_ne by done. apply IHwb; [by apply snew_wf|done|].
    intros a1 q1. simpl. rewrite lookup_insert_ne by done. apply Hok.
  - pose proof (sact_wf _ _ _ Hwf H) as Hwf1. apply sact_stack in H as (A1 & A2 & A3).
    apply sdeact_inv in H1 as (D1 & D2 & D3). unfold ok_at in *. rewrite D2. rewrite A2 in *. apply IHwb; auto. rewrite A1. by constructor.
Qed.
Definition aok (s : smem) : Prop := forall c, c ∈ stack s -> ok_at c s.
Lemma wb_aok s s' : wb s s' -> swf s -> aok s -> aok s'.
Proof. intros Hw Hwf Ha c Hc. rewrite (wb_stack _ _ Hw) in Hc. eapply wb_ok_at; eauto. Qed.
Lemma aok_dok s : aok s -> dok s.
Proof. intros Ha c a q Hf. apply find_ctx_in in Hf as (Hin & Hc & _). by apply (Ha c Hin). Qed.

(** All active contexts which collect objects can take more. *)
Definition healthy (m : mem) : Prop := forall c d, active m c -> dhp m !! c = Some d -> d_key d <> 0 -> d_last d = true.
Lemma R_healthy m s : R m s -> healthy m <-> aok s.
Proof.
  intros HR. split.
  - intros H c Hc a q Ha Hq. destruct (R_look _ _ _ _ HR Ha) as (k & Hk & []). destruct (decide (SDA ∈ ac_tup a)) as [Hd|Hd].
    + destruct (cr_coll Hd) as (d & Hd1 & Hd2). rewrite Hq in Hd2. destruct Hd2 as (Hz & Hkey & <- & _).
      apply (H c d); auto; [by apply (R_active _ _ _ HR)|by rewrite Hkey].
    + destruct (cr_nocoll Hd); congruence.
  - intros H c d Hc Hd Hz. apply (R_active _ _ _ HR) in Hc. destruct (R_in _ _ HR c Hc) as [a Ha].
    destruct (R_look _ _ _ _ HR Ha) as (k & Hk & []). destruct (decide (SDA ∈ ac_tup a)) as [Hx|Hx].
    + destruct (cr_coll Hx) as (d' & Hd1 & Hd2). simplify_eq. destruct (ac_coll a) as [q|] eqn:Hq; [|by destruct Hd2].
      destruct Hd2 as (_ & _ & -> & _). eapply H; eauto.
    + destruct (cr_nocoll Hx); congruence.
Qed.

Theorem healthy_preserved G caught p m g o m' g' : runs G caught p m g o m' g' -> healthy m -> healthy m'.
Proof.
  intros (_ & s & s' & HR & HR' & H) Hh. apply (R_healthy _ _ HR'). apply (R_healthy _ _ HR) in Hh.
  apply (proj1 (eval_wb _)) in H. eapply wb_aok; eauto. by eapply R_wf.
Qed.

(** ** Leaving *)
Lemma delete_held m s m' s' c c' T : R m s -> R m' s' -> actxs s' = delete c (actxs s) -> c' <> c -> held m' c' T = held m c' T.
Proof.
  intros HR HR' E Hne. destruct (actxs s !! c') as [a|] eqn:Ha.
  - rewrite (R_held _ _ _ _ T HR Ha). apply (R_held _ _ _ _ T HR'). by rewrite E, lookup_delete_ne.
  - unfold held, caddr. rewrite (R_look_none _ _ _ HR Ha). rewrite (R_look_none _ _ c' HR'); [done|]. by rewrite E, lookup_delete_ne.
Qed.

(** ** C13 *)
Theorem C13_success_passes_through :
  forall G k caught p hs m s g, R m s ->
  exists c m1 s1,
    ctxs m !! c = None /\ enter (pmach G) (deduce G hs) (m, g) = Ok (c, (m1, g)) /\ R m1 s1 /\
    forall r sb gb, spec_run G caught p s1 g (ORet r) sb gb -> (k = KCatch \/ exists z, r = RVal z) ->
    exists mb m' s',
      lib_run G caught p m1 g (ORet r) mb gb /\
      lib_run G caught (PScope k p hs) m g (ORet r) m' gb /\ R m' s' /\
      ctxs m' = ctxs m /\ tlsd m' = tlsd m /\
      (forall c' T, c' <> c -> held m' c' T = held mb c' T).
Proof.
  intros G k caught p hs m s g HR.
  destruct (enter_both G (deduce G hs) m s g (deduce_nodup G hs) HR) as (s1 & m1 & E1 & E2 & HR1 & A1 & A2 & A3).
  pose proof (R_wf _ _ HR) as Hwf. destruct (wf_fresh _ Hwf) as [Hf1 Hf2].
  exists (snc s), m1, s1. split; [by apply (R_look_none _ _ _ HR)|]. split; [done|]. split; [done|]. intros r sb gb Hb Hr.
  destruct (C48_pointer_free_semantics _ _ _ _ _ _ _ _ _ HR1 Hb) as (mb & Hlb & HRb).
  pose proof (proj1 (eval_wb _) _ _ _ _ _ Hb) as Hw. simpl in Hw. pose proof (wb_same _ _ Hw (R_wf _ _ HR1)) as Hs.
  destruct (sm_tup _ _ Hs (snc s) (ACtx (deduce G hs) ∅ None)) as (ab & Hab & _); [rewrite A2; by rewrite lookup_insert|].
  set (s' := SMem (stack s) (delete (snc s) (actxs sb)) (snc sb)).
  assert (spec_run G caught (PScope k p hs) s g (ORet r) s' gb) as Hspec.
  { rewrite eval_scope_s. unfold scope_run. rewrite deduce_on, E1. cbn [rbind fst snd]. eapply rb_ok; [exact Hb|]. unfold scope_end.
    eapply (rb_ok _ _ (ORet r, (sb, gb))); [destruct Hr as [->|[z ->]]; [done|]; by destruct k|].
    cbn [rbind fst snd]. assert (success k (ORet r) = true) as ->. { destruct Hr as [->|[z ->]]; [done|]. by destruct k. }
    unfold deact_leave, leave, on_mem. simpl. unfold sdeact. rewrite (sm_stack _ _ Hs), A1, bool_decide_true by done. simpl.
    unfold sdestroy. simpl. rewrite Hab, bool_decide_false by done. done. }
  destruct (C48_pointer_free_semantics _ _ _ _ _ _ _ _ _ HR Hspec) as (m' & Hl & HR').
  exists mb, m', s'. split; [done|]. split; [done|]. split; [done|].
  pose proof (proj1 (eval_wb _) _ _ _ _ _ Hspec) as Hw'. simpl in Hw'. pose proof (wb_same _ _ Hw' Hwf) as Hs'.
  assert (ctxs m' = ctxs m) as Ec by exact (same_ctxs _ _ _ _ HR HR' Hs').
  split; [done|]. split.
  - rewrite (R_tlsd_find _ _ HR), (R_tlsd_find _ _ HR'). by apply same_find_d.
  - intros c' T Hne. eapply delete_held; eauto.
Qed.
Print Assumptions C13_success_passes_through.

(** ** The phases of a failing scope on both machines *)
Lemma failed_both G k caught p hs m s g o m' s' g' c ob mb gb o2 ei caught' m3 g3 :
  R m s -> spec_run G caught (PScope k p hs) s g o s' g' -> lib_run G caught (PScope k p hs) m g o m' g' ->
  failed G k caught p hs m g c ob mb gb o2 ei caught' m3 g3 ->
  exists m1 s1 sb m2 s2 g2 s3,
    c = snc s /\
    enter (pmach G) (deduce G hs) (m, g) = Ok (c, (m1, g)) /\
    enter (smach (asserts_on G)) (deduce G hs) (s, g) = Ok (c, (s1, g)) /\ R m1 s1 /\
    lib_run G caught p m1 g ob mb gb /\ spec_run G caught p s1 g ob sb gb /\ R mb sb /\
    settle (pmach G) k (ob, (mb, gb)) = Ok (o2, (m2, g2)) /\ settle (smach (asserts_on G)) k (ob, (sb, gb)) = Ok (o2, (s2, g2)) /\ R m2 s2 /\
    success k o2 = false /\
    detect G (pmach G) c caught (o2, (m2, g2)) = Ok (ei, caught', (m3, g3)) /\
    detect (asserts_on G) (smach (asserts_on G)) c caught (o2, (s2, g2)) = Ok (ei, caught', (s3, g3)) /\ R m3 s3 /\
    exists o4 m4 s4 g4,
      evalH G (pmach G) caught' hs c ei (unhandled (pmach G) k c (ei_id ei) o2) (m3, g3) = Ok (o4, (m4, g4)) /\
      evalH (asserts_on G) (smach (asserts_on G)) caught' hs c ei (unhandled (smach (asserts_on G)) k c (ei_id ei) o2) (s3, g3) = Ok (o4, (s4, g4)) /\ R m4 s4 /\
      finish G (pmach G) k c (o4, (m4, g4)) = Ok (o, (m', g')) /\
      finish (asserts_on G) (smach (asserts_on G)) k c (o4, (s4, g4)) = Ok (o, (s', g')) /\ R m' s'.
Proof.
  intros HR H Hl (m1 & m2 & g2 & F1 & F2 & F3 & F4 & F5).
  destruct (scope_inv _ _ _ _ _ _ _ _ _ _ _ HR H) as (m'' & Hl' & HR' & c0 & m1' & s1 & A1 & A2 & A3 & A4 & ob' & mb' & sb & gb' & B1 & B2 & B3 & o2' & m2' & s2 & g2' & C1 & C2 & C3 & D).
  assert (m'' = m') as -> by (rewrite Hl in Hl'; by simplify_eq).
  assert (m1' = m1 /\ c0 = c) as [-> ->] by (rewrite F1 in A1; by simplify_eq).
  assert (ob' = ob /\ mb' = mb /\ gb' = gb) as (-> & -> & ->). { pose proof (eq_trans (eq_sym F2) B1). by simplify_eq. }
  assert (o2' = o2 /\ m2' = m2 /\ g2' = g2) as (-> & -> & ->). { pose proof (eq_trans (eq_sym F3) C1). by simplify_eq. }
  destruct D as [[D _]|[_ (ei' & caught'' & m3' & s3 & g3' & o4 & m4 & s4 & g4 & D1 & D2 & D3 & D4 & D5 & D6 & D7 & D8)]]; [congruence|].
  assert (ei' = ei /\ caught'' = caught' /\ m3' = m3 /\ g3' = g3) as (-> & -> & -> & ->). { pose proof (eq_trans (eq_sym F5) D1). by simplify_eq. }
  exists m1, s1, sb, m2, s2, g2, s3. repeat (split; [done|]). exists o4, m4, s4, g4. done.
Qed.

Lemma evalH_both G caught hs c ei : forall d m s g o4 s4 g4,
  R m s -> is_Some (ctxs m !! c) -> ei_id ei <> 0 ->
  evalH (asserts_on G) (smach (asserts_on G)) caught hs c ei d (s, g) = Ok (o4, (s4, g4)) ->
  (exists args w b vs m5 s5, chosen G m c ei hs args w b vs /\ set_all (pmach G) c (ei_id ei) (writes args (w vs)) m = Ok m5 /\
     R m5 s5 /\ wb s s5 /\ spec_run G caught (b vs) s5 g o4 s4 g4) \/
  (nobody G m c ei hs /\ d (s, g) = Ok (o4, (s4, g4))).
Proof.
  unfold chosen, nobody. intros d m s g o4 s4 g4 HR [k Hk] Hid. revert d.
  induction hs as [|args w b hs IH|hs1 IH1 hs2 IH2]; intros d H.
  - right. split; [constructor|done].
  - cbn [evalH flat] in *. ok_inv H. simpl fst in E.
    destruct (sim_ok _ _ _ _ (sim_args G args c ei m s HR) E) as (a' & Ea & ->).
    rewrite (args_get_spec _ _ _ _ _ _ _ HR Hk Hid) in Ea. injection Ea as <-.
    destruct (mapM (supply G m c ei) args) as [vs|] eqn:Es.
    + left. ok_inv H. rename a into s5. destruct (sim_ok _ _ _ _ (sim_set_all G c (ei_id ei) (writes args (w vs)) m s HR) E0) as (m5 & E5 & HR5).
      exists args, w, b, vs, m5, s5. split; [exists [], (flat hs); auto|]. split; [done|]. split; [done|]. split; [|exact H].
      apply wb_atoms. eapply set_all_atom. exact E0.
    + destruct (IH _ H) as [(args' & w' & b' & vs & m5 & s5 & (pre & post & H1 & H2 & H3) & H4)|(H1 & H2)].
      * left. exists args', w', b', vs, m5, s5. split; [|done]. exists ((args, (w, b)) :: pre), post. rewrite H1. split; [done|]. split; [by constructor|done].
      * right. split; [by constructor|done].
  - cbn [evalH flat] in *. destruct (IH1 _ H) as [(args' & w' & b' & vs & m5 & s5 & (pre & post & H1 & H2 & H3) & H4)|(H1 & H2)].
    + left. exists args', w', b', vs, m5, s5. split; [|done]. exists pre, (post ++ flat hs2). rewrite H1, <- app_assoc. done.
    + destruct (IH2 _ H2) as [(args' & w' & b' & vs & m5 & s5 & (pre & post & H3 & H4 & H5) & H6)|(H3 & H4)].
      * left. exists args', w', b', vs, m5, s5. split; [|done]. exists (flat hs1 ++ pre), post. rewrite H3, <- app_assoc. split; [done|]. split; [by apply Forall_app|]. done.
      * right. split; [by apply Forall_app|done].
Qed.

(** A scope's context exists as long as the scope does. *)
Lemma failed_alive G k caught p hs m s g o m' s' g' c ob mb gb o2 ei caught' m3 g3 :
  R m s -> spec_run G caught (PScope k p hs) s g o s' g' -> lib_run G caught (PScope k p hs) m g o m' g' ->
  failed G k caught p hs m g c ob mb gb o2 ei caught' m3 g3 -> inactive m3 c /\ ctxs m !! c = None.
Proof.
  intros HR H Hl HF. destruct (failed_both _ _ _ _ _ _ _ _ _ _ _ _ _ _ _ _ _ _ _ _ _ HR H Hl HF)
    as (m1 & s1 & sb & m2 & s2 & g2 & s3 & -> & A1 & A2 & HR1 & B1 & B2 & HRb & C1 & C2 & HR2 & D & E1 & E2 & HR3 & _).
  destruct (enter_both G (deduce G hs) m s g (deduce_nodup G hs) HR) as (s1' & m1' & A1' & A2' & _ & S1 & S2 & S3).
  assert (s1' = s1) as -> by (rewrite A2 in A1'; by simplify_eq).
  destruct (wf_fresh _ (R_wf _ _ HR)) as [Hf1 Hf2]. split; [|by apply (R_look_none _ _ _ HR)].
  apply (R_inactive _ _ _ HR3).
  assert (same s1 s2) as Hs.
  { apply wb_same; [|by eapply R_wf]. eapply wb_trans; [eapply (proj1 (eval_wb _) _ _ (s1, g) _ (sb, gb)); exact B2|].
    destruct k, ob; simpl in C2; simplify_eq; try apply wb_refl; by eapply (wb_unload_ret _ _ (sb, gb) _ (s2, g2)). }
  assert (exists s2', same s2 s2' /\ sdeact (snc s) s2' = Ok s3) as (s2' & Hs' & Hd).
  { destruct o2 as [r|x]; unfold detect in E2.
    - ok_inv E2. destruct a as [i s2']. ok_inv E2. ok_inv E2. simplify_eq. apply on_mem_inv in E0 as [E0 _].
      exists (fst s2'). split; [|exact E0]. apply wb_same; [|by eapply R_wf]. by eapply (wb_err_id _ _ (s2, g2)).
    - ok_inv E2. destruct a as [i s3']. simplify_eq. apply exn_info_inv in E as [E _]. exists s2. split; [apply same_refl|exact E]. }
  pose proof (same_trans _ _ _ Hs Hs') as Hss. apply sdeact_inv in Hd as (D1 & D2 & D3). rewrite (sm_stack _ _ Hss), S1 in D1.
  injection D1 as D1. rewrite <- D1. split; [done|]. rewrite D2.
  destruct (sm_tup _ _ Hss (snc s) (ACtx (deduce G hs) ∅ None)) as (a & -> & _); [|by eauto]. by rewrite S2, lookup_insert.
Qed.

(** Everything about a failing scope from detection on. *)
Lemma failed_full G k caught p hs m s g o m' s' g' c ob mb gb o2 ei caught' m3 g3 :
  R m s -> spec_run G caught (PScope k p hs) s g o s' g' -> lib_run G caught (PScope k p hs) m g o m' g' ->
  failed G k caught p hs m g c ob mb gb o2 ei caught' m3 g3 -> ei_id ei <> 0 ->
  exists s3 o4 m4 s4 g4, R m3 s3 /\ R m4 s4 /\ R m' s' /\
    finish G (pmach G) k c (o4, (m4, g4)) = Ok (o, (m', g')) /\
    finish (asserts_on G) (smach (asserts_on G)) k c (o4, (s4, g4)) = Ok (o, (s', g')) /\
    ((exists args w b vs m5 s5, chosen G m3 c ei hs args w b vs /\ assigned m3 c (ei_id ei) args (w vs) m5 /\ R m5 s5 /\ wb s3 s5 /\
        lib_run G caught' (b vs) m5 g3 o4 m4 g4 /\ spec_run G caught' (b vs) s5 g3 o4 s4 g4) \/
     (nobody G m3 c ei hs /\ unhandled (pmach G) k c (ei_id ei) o2 (m3, g3) = Ok (o4, (m4, g4)) /\
      unhandled (smach (asserts_on G)) k c (ei_id ei) o2 (s3, g3) = Ok (o4, (s4, g4)))).
Proof.
  intros HR H Hl HF Hid.
  destruct (failed_alive _ _ _ _ _ _ _ _ _ _ _ _ _ _ _ _ _ _ _ _ _ HR H Hl HF) as [(k3 & Hk3 & _) _].
  destruct (failed_both _ _ _ _ _ _ _ _ _ _ _ _ _ _ _ _ _ _ _ _ _ HR H Hl HF)
    as (m1 & s1 & sb & m2 & s2 & g2 & s3 & _ & A1 & A2 & HR1 & B1 & B2 & HRb & C1 & C2 & HR2 & D & E1 & E2 & HR3 & o4 & m4 & s4 & g4 & F1 & F2 & HR4 & F3 & F4 & HR').
  exists s3, o4, m4, s4, g4. repeat (split; [done|]). destruct (evalH_both _ _ _ _ _ _ _ _ _ _ _ _ HR3 (ex_intro _ _ Hk3) Hid F2) as [(args & w & b & vs & m5 & s5 & Hch & Hset & HR5 & W5 & Hb)|[Hn Hd]].
  - left. exists args, w, b, vs, m5, s5. split; [done|]. destruct (C48_pointer_free_semantics _ _ _ _ _ _ _ _ _ HR5 Hb) as (m4' & Hb' & HR4').
    destruct (assigned_R G c (ei_id ei) args (w vs) _ _ _ HR3 Hk3 Hid) as (m5' & s5' & Hset' & _ & _ & Has).
    assert (m5' = m5) as ->. { pose proof (eq_trans (eq_sym Hset) Hset'). by simplify_eq. }
    assert (evalH G (pmach G) caught' hs c ei (unhandled (pmach G) k c (ei_id ei) o2) (m3, g3) = eval G (pmach G) caught' (b vs) (m5, g3)) as Ee.
    { destruct (first_handler G caught' hs c ei (unhandled (pmach G) k c (ei_id ei) o2) m3 s3 g3 HR3 (ex_intro _ _ Hk3) Hid)
        as [(pre & args' & w' & b' & post & vs' & m5' & G1 & G2 & G3 & G5 & G6 & G4)|[G1 _]].
      - destruct Hch as (pre' & post' & K1 & K2 & K3). rewrite G4. assert ((args', (w', b')) = (args, (w, b))) as [= -> -> ->].
        { rewrite G1 in K1. clear -K1 K2 K3 G2 G3. revert pre' K1 K2. induction pre as [|h pre IH]; intros [|h' pre'] K1 K2; simplify_eq/=.
          - done.
          - apply Forall_cons in K2 as [K2 _]. simpl in K2. congruence.
          - apply Forall_cons in G2 as [G2 _]. simpl in G2. congruence.
          - apply Forall_cons in K2 as [_ K2]. apply Forall_cons in G2 as [_ G2]. eauto. }
        assert (vs' = vs) as -> by congruence. assert (m5' = m5) as ->; [|done]. pose proof (eq_trans (eq_sym Hset) G5). by simplify_eq.
      - destruct Hch as (pre' & post' & K1 & K2 & K3). rewrite K1 in G1. apply Forall_app in G1 as [_ G1]. apply Forall_cons in G1 as [G1 _]. simpl in G1. congruence. }
    rewrite Ee in F1. assert (m4' = m4) as ->. { pose proof (eq_trans (eq_sym F1) Hb'). by simplify_eq. }
    done.
  - right. split; [done|]. destruct (first_handler G caught' hs c ei (unhandled (pmach G) k c (ei_id ei) o2) m3 s3 g3 HR3 (ex_intro _ _ Hk3) Hid)
      as [(pre & args' & w' & b' & post & vs' & m5' & G1 & G2 & G3 & G5 & G6 & G4)|[G1 G2]].
    + unfold nobody in Hn. rewrite G1 in Hn. apply Forall_app in Hn as [_ Hn]. apply Forall_cons in Hn as [Hn _]. simpl in Hn. congruence.
    + rewrite G2 in F1. done.
Qed.

(** ** C11 for a whole scope *)
Theorem C11_scope_calls_first_matching_handler :
  forall G k caught p hs m g o m' g' c ob mb gb o2 ei caught' m3 g3,
    runs G caught (PScope k p hs) m g o m' g' ->
    failed G k caught p hs m g c ob mb gb o2 ei caught' m3 g3 -> ei_id ei <> 0 ->
    exists o4 m4 g4, finish G (pmach G) k c (o4, (m4, g4)) = Ok (o, (m', g')) /\
      ((exists args w b vs m5, chosen G m3 c ei hs args w b vs /\ assigned m3 c (ei_id ei) args (w vs) m5 /\ runs G caught' (b vs) m5 g3 o4 m4 g4) \/
       (nobody G m3 c ei hs /\ unhandled (pmach G) k c (ei_id ei) o2 (m3, g3) = Ok (o4, (m4, g4)))).
Proof.
  intros G k caught p hs m g o m' g' c ob mb gb o2 ei caught' m3 g3 (Hl & s & s' & HR & HR' & H) HF Hid.
  destruct (failed_full _ _ _ _ _ _ _ _ _ _ _ _ _ _ _ _ _ _ _ _ _ HR H Hl HF Hid) as (s3 & o4 & m4 & s4 & g4 & HR3 & HR4 & _ & F1 & F2 & F3).
  exists o4, m4, g4. split; [done|]. destruct F3 as [(args & w & b & vs & m5 & s5 & F3 & F4 & F5 & F6 & F7 & F8)|(F3 & F4 & F5)].
  - left. exists args, w, b, vs, m5. split; [done|]. split; [done|]. split; [done|]. by exists s5, s4.
  - by right.
Qed.
Print Assumptions C11_scope_calls_first_matching_handler.
