(** C25, C29: errors which pass through several scopes. *)
From Verif Require Export PropsConv.
Open Scope Z_scope.

Lemma GX_good : good_sup GX.
Proof. intros n. simpl. change 3 with (Z.ones 2). rewrite Z.land_ones by lia. rewrite Z.add_comm, Z.mul_comm, Z.mod_add by done. done. Qed.

(** ** Auxiliary: contexts of a state, in terms of what they hold *)
Lemma hasT_held m s T c : R m s -> c ∈ stack s -> hasT T c s = bool_decide (T ∈ members m c) || bool_decide (is_Some (held m c T)).
Proof.
  intros HR Hc. destruct (R_in _ _ HR c Hc) as [a Ha]. unfold hasT. rewrite Ha, has_e_alt, <- (R_held _ _ _ _ T HR Ha). f_equal.
  apply bool_decide_ext. symmetry. pose proof (R_ctxs _ _ c HR) as Hk. rewrite Ha in Hk. simpl in Hk. by rewrite (elem_members _ _ _ T Hk).
Qed.
Lemma serves_first m s T c : R m s -> serves m T c <-> first_of (fun c => hasT T c s) (stack s) = Some c.
Proof. intros HR. by rewrite (R_serves _ _ _ _ HR), (find_e_first _ _ (R_wf _ _ HR)). Qed.
Lemma serves_active m s T c : R m s -> serves m T c -> active m c.
Proof. intros HR H. apply (serves_first _ _ _ _ HR), first_of_Some in H as [H _]. by apply (R_active _ _ _ HR). Qed.
Lemma serves_has m s T c : R m s -> serves m T c -> T ∈ members m c \/ is_Some (held m c T).
Proof.
  intros HR H. apply (serves_first _ _ _ _ HR), first_of_Some in H as [Hc H]. rewrite (hasT_held _ _ _ _ HR Hc) in H.
  apply orb_true_iff in H as [H|H]; apply bool_decide_eq_true in H; auto.
Qed.
Lemma serves_fun m T c1 c2 s : R m s -> serves m T c1 -> serves m T c2 -> c1 = c2.
Proof. intros HR H1 H2. apply (R_serves _ _ _ _ HR) in H1, H2. congruence. Qed.

(** After objects have been received, a type is served by the same context as before, or, if it was not served, by the collecting context
    which took an object of this type. *)
Lemma moved_serves G id src m s m' s' T c : R m s -> R m' s' -> stack s' = stack s -> (forall c, c ∈ stack s -> members m' c = members m c) ->
  moved G id src m m' -> serves m' T c -> serves m T c \/ (collects G m T c /\ exists v, src T = Some v /\ held m' c T = Some (id, v)).
Proof.
  intros HR HR' Hst Hmem Hmv H. destruct (decide (tls m !! T = None)) as [Hn|Hn].
  - right. apply (serves_first _ _ _ _ HR') in H. pose proof (first_of_Some _ _ _ H) as [Hc Hh]. rewrite Hst in Hc.
    rewrite (hasT_held _ _ _ _ HR') in Hh by (by rewrite Hst). rewrite (Hmem c Hc) in Hh.
    assert (hasT T c s = false) as Hf.
    { assert (first_of (fun c => hasT T c s) (stack s) = None) as E. { rewrite <- (find_e_first _ _ (R_wf _ _ HR)). apply (R_unserved _ _ _ HR) in Hn. by rewrite Hn. }
      rewrite first_of_None in E. by apply E. }
    rewrite (hasT_held _ _ _ _ HR Hc) in Hf. apply orb_false_iff in Hf as [Hf1 Hf2]. rewrite Hf1 in Hh. simpl in Hh. apply bool_decide_eq_true in Hh.
    apply bool_decide_eq_false in Hf2. pose proof (Hmv c T) as Hv. rewrite (R_active _ _ _ HR) in Hv. specialize (Hv Hc). destruct (src T) as [v|] eqn:Ev.
    + destruct Hv as (_ & H2 & H3). destruct (decide (g_capture G = true)) as [Hg|Hg]; [destruct (decide (tlsd m = Some c)) as [Hd|Hd]|].
      * split; [done|]. exists v. split; [done|]. by apply H2.
      * rewrite H3 in Hh; [done| |]. { intros Hs. by apply serves_not_unserved in Hs. } intros (_ & _ & ?). done.
      * rewrite H3 in Hh; [done| |]. { intros Hs. by apply serves_not_unserved in Hs. } intros (_ & ? & _). done.
    + rewrite Hv in Hh. done.
  - left. destruct (not_unserved _ _ _ HR Hn) as [c1 H1]. assert (serves m' T c1) as H1'; [|by rewrite <- (serves_fun _ _ _ _ _ HR' H1' H)].
    apply (serves_first _ _ _ _ HR'). rewrite Hst. pose proof H1 as H1f. apply (serves_first _ _ _ _ HR) in H1f. rewrite <- H1f. apply first_of_ext.
    intros c2 Hc2. rewrite (hasT_held _ _ _ _ HR Hc2), (hasT_held _ _ _ _ HR') by (by rewrite Hst). rewrite (Hmem c2 Hc2).
    pose proof (Hmv c2 T) as Hv. rewrite (R_active _ _ _ HR) in Hv. specialize (Hv Hc2). destruct (src T) as [v|] eqn:Ev; [|by rewrite Hv].
    destruct Hv as (V1 & _ & V3). destruct (decide (c2 = c1)) as [->|Hne].
    + destruct (serves_has _ _ _ _ HR H1) as [Hm|Hm]; [by rewrite (bool_decide_true _ Hm)|]. rewrite (bool_decide_true (is_Some (held m c1 T))) by done.
      rewrite orb_true_r. rewrite (bool_decide_true (is_Some _)); [by rewrite orb_true_r|]. rewrite (V1 H1). by destruct (sees id (held m c1 T)).
    + rewrite V3; [done| |]. { intros Hs. by rewrite (serves_fun _ _ _ _ _ HR Hs H1) in Hne. } intros (? & _). done.
Qed.
Lemma moved_serves_r G id src m s m' s' T c : R m s -> R m' s' -> stack s' = stack s -> (forall c, c ∈ stack s -> members m' c = members m c) ->
  moved G id src m m' -> serves m T c -> serves m' T c.
Proof.
  intros HR HR' Hst Hmem Hmv H. destruct (decide (tls m' !! T = None)) as [Hn|Hn].
  - exfalso. pose proof (serves_active _ _ _ _ HR H) as Hac. assert (hasT T c s' = false) as Hf.
    { assert (first_of (fun c => hasT T c s') (stack s') = None) as E. { rewrite <- (find_e_first _ _ (R_wf _ _ HR')). apply (R_unserved _ _ _ HR') in Hn. by rewrite Hn. }
      rewrite first_of_None in E. apply E. rewrite Hst. by apply (R_active _ _ _ HR). }
    apply (R_active _ _ _ HR) in Hac. rewrite (hasT_held _ _ _ _ HR') in Hf by (by rewrite Hst). rewrite (Hmem c Hac) in Hf.
    apply orb_false_iff in Hf as [Hf1 Hf2]. apply bool_decide_eq_false in Hf1, Hf2. destruct (serves_has _ _ _ _ HR H) as [?|Hh]; [done|].
    apply Hf2. pose proof (Hmv c T) as Hv. rewrite (R_active _ _ _ HR) in Hv. specialize (Hv Hac). destruct (src T) as [v|]; [|by rewrite Hv].
    destruct Hv as (V1 & _). rewrite (V1 H). by destruct (sees id (held m c T)).
  - destruct (not_unserved _ _ _ HR' Hn) as [c1 H1]. destruct (moved_serves _ _ _ _ _ _ _ _ _ HR HR' Hst Hmem Hmv H1) as [H1'|[[Hu _] _]].
    + by rewrite (serves_fun _ _ _ _ _ HR H H1').
    + by apply serves_not_unserved in H.
Qed.

(** A scope deactivates its context: what is held stays; types the context does not have are served as before. *)
Record popped (c : cid) (mb m3 : mem) : Prop := {
  pp_held c' T : held m3 c' T = held mb c' T;
  pp_members c' : members m3 c' = members mb c';
  pp_active c' : active m3 c' -> active mb c' /\ c' <> c;
  pp_active' c' : active mb c' -> c' <> c -> active m3 c';
  pp_act : active mb c;
  pp_own T : T ∈ members mb c \/ is_Some (held mb c T) -> serves mb T c;
  pp_own' T : serves mb T c -> T ∈ members mb c \/ is_Some (held mb c T);
  pp_serves T c' : serves m3 T c' -> serves mb T c' \/ serves mb T c;
  pp_serves' T c' : serves mb T c' -> c' <> c -> serves m3 T c' }.
Lemma deact_popped c mb sb m3 s3 : R mb sb -> R m3 s3 -> sdeact c sb = Ok s3 -> popped c mb m3.
Proof.
  intros HRb HR3 Hd. apply sdeact_inv in Hd as (D1 & D2 & D3).
  assert (forall c' T, held m3 c' T = held mb c' T) as Hh by (intros; apply (held_actxs _ _ _ _ _ _ HRb HR3); by rewrite D2).
  assert (forall c', members m3 c' = members mb c') as Hm.
  { intros c'. unfold members. rewrite (R_ctxs _ _ c' HRb), (R_ctxs _ _ c' HR3), D2. by destruct (actxs sb !! c'). }
  assert (forall T c', hasT T c' s3 = hasT T c' sb) as Hs by (intros; unfold hasT; by rewrite D2).
  assert (NoDup (stack sb)) as Hnd by (apply R_wf in HRb; by destruct HRb). rewrite D1 in Hnd. apply NoDup_cons in Hnd as [Hnc _].
  assert (forall T c', serves mb T c' <-> (if hasT T c sb then c' = c else first_of (fun c => hasT T c sb) (stack s3) = Some c')) as Hsv.
  { intros T c'. rewrite (serves_first _ _ _ _ HRb), D1. simpl. destruct (hasT T c sb); [|done]. split; [by intros [= ->]|by intros ->]. }
  assert (forall T c', serves m3 T c' <-> first_of (fun c => hasT T c sb) (stack s3) = Some c') as Hs3.
  { intros T c'. rewrite (serves_first _ _ _ _ HR3). erewrite first_of_ext; [done|]. intros. apply Hs. }
  assert (forall T, hasT T c sb = true <-> T ∈ members mb c \/ is_Some (held mb c T)) as Hc.
  { intros T. rewrite (hasT_held _ _ _ _ HRb) by (rewrite D1; by constructor). by rewrite orb_true_iff, !bool_decide_eq_true. }
  split; auto; try (rewrite (R_active _ _ _ HRb), D1; by constructor).
  - intros c'. rewrite (R_active _ _ _ HR3), (R_active _ _ _ HRb), D1. intros H. split; [by constructor|]. by intros ->.
  - intros c'. rewrite (R_active _ _ _ HR3), (R_active _ _ _ HRb), D1. intros H Hne. by apply elem_of_cons in H as [?|?].
  - intros T H. apply Hsv. rewrite (proj2 (Hc T) H). done.
  - intros T H. apply Hc. apply Hsv in H. destruct (hasT T c sb) eqn:E; [done|]. apply first_of_Some in H as [H _]. done.
  - intros T c' H. rewrite !Hsv. apply Hs3 in H. destruct (hasT T c sb); auto.
  - intros T c' H Hne. apply Hs3. apply Hsv in H. by destruct (hasT T c sb).
Qed.

Definition direct (ob : out) : Prop := match ob with ORet (RErr _) | OThrow _ => True | _ => False end.
Lemma failed_popped G k caught p hs m s g o m' s' g' c ob mb gb o2 ei caught' m3 g3 :
  R m s -> spec_run G caught (PScope k p hs) s g o s' g' -> lib_run G caught (PScope k p hs) m g o m' g' ->
  failed G k caught p hs m g c ob mb gb o2 ei caught' m3 g3 -> direct ob -> popped c mb m3 /\ (exists sb, R mb sb) /\ exists s3, R m3 s3.
Proof.
  intros HR H Hl HF Hob.
  destruct (failed_both _ _ _ _ _ _ _ _ _ _ _ _ _ _ _ _ _ _ _ _ _ HR H Hl HF)
    as (m1 & s1 & sb & m2 & s2 & g2 & s3 & -> & A1 & A2 & HR1 & B1 & B2 & HRb & C1 & C2 & HR2 & D & E1 & E2 & HR3 & _).
  destruct (detect_split _ _ _ _ _ _ _ _ _ _ _ _ _ _ C2 E2) as (s2' & W & Hd & Hsame). rewrite (Hsame Hob) in Hd.
  split; [exact (deact_popped _ _ _ _ _ HRb HR3 Hd)|]. split; by eexists.
Qed.

(** ** C25 *)

(** The object of type T a list of items ends up with: that of the last item of this type. *)
Definition final (its : list item) (T : ety) (v : val) : Prop :=
  exists l1 l2, its = l1 ++ IVal T v :: l2 /\ Forall (fun it => ity it <> Some T) l2.

(** Where the objects P of error id are: in the contexts serving their types. Nowhere else. *)
Definition placed (id : Z) (P : ety -> val -> Prop) (m : mem) : Prop :=
  forall T c, (serves m T c -> forall v, P T v -> held m c T = Some (id, v)) /\
              (active m c -> ~ serves m T c -> sees id (held m c T) = None).

Lemma placed_loads G id its : forall m s g m' g', R m s -> loaded_all G false id its m g m' g' ->
  (forall T c, active m c -> sees id (held m c T) = None) -> placed id (final its) m'.
Proof.
  assert (forall its m g m' g', loaded_all G false id its m g m' g' -> (forall T c, active m c -> ~ serves m T c -> sees id (held m c T) = None) ->
    (forall T c v, serves m T c -> held m c T = Some (id, v) -> Forall (fun it => ity it <> Some T) its -> serves m' T c /\ held m' c T = Some (id, v)) /\
    (forall T c, active m' c -> ~ serves m' T c -> sees id (held m' c T) = None) /\
    (forall T c, Forall (fun it => ity it <> Some T) its -> serves m' T c <-> serves m T c) /\
    (forall T c v, final its T v -> serves m' T c -> held m' c T = Some (id, v))) as Hg.
  { intros its'. induction its' as [|it its' IH]; intros m g m' g' H Hq.
    - inversion H; subst. split; [done|]. split; [done|]. split; [done|]. intros T c v (l1 & l2 & E & _). by destruct l1.
    - inversion H as [|? ? ? ? m1 g1 ? ? L [s HR] [s1 HR1] H']; subst. 
      assert (forall T c, active m1 c -> ~ serves m1 T c -> sees id (held m1 c T) = None) as Hq1.
      { intros T c Ha Hs. rewrite (ld_serves _ _ _ _ _ _ _ _ L) in Hs. rewrite (ld_old _ _ _ _ _ _ _ _ L).
        - apply Hq; [|tauto]. unfold active in *. by rewrite (ld_ctxs _ _ _ _ _ _ _ _ L) in Ha.
        - intros Ei [[? _]|?]; apply Hs; tauto. }
      destruct (IH _ _ _ _ H' Hq1) as (I1 & I2 & I3 & I4). split; [|split; [done|split]].
      + intros T c v Hs Hh HF. apply Forall_cons in HF as [HF1 HF]. apply I1; [|by rewrite (ld_old _ _ _ _ _ _ _ _ L)|done].
        apply (ld_serves _ _ _ _ _ _ _ _ L). by left.
      + intros T c HF. apply Forall_cons in HF as [HF1 HF]. rewrite (I3 T c HF), (ld_serves _ _ _ _ _ _ _ _ L). tauto.
      + intros T c v (l1 & l2 & E & HF) Hs. destruct l1 as [|it0 l1].
        * injection E as -> ->. apply I3 in Hs; [|done]. apply I1; [done| |done]. apply (ld_new _ _ _ _ _ _ _ _ L c T v); [done|done|].
          apply (ld_serves _ _ _ _ _ _ _ _ L) in Hs as [Hs|[_ Hs]]; [left|by right]. split; [done|]. intros [? _]. done.
        * injection E as -> ->. apply I4; [|done]. by exists l1, l2. }
  intros m s g m' g' HR H Hf. destruct (Hg _ _ _ _ _ H) as (_ & H2 & _ & H4); [auto|]. intros T c. split; [|auto]. intros Hs v Hv. eauto.
Qed.

(** The exception x, which started out as B says somewhere in the program, leaves the program without having been handled. *)
Inductive escapes (G : cfg) (B : option exn -> prog -> mem -> glob -> exn -> mem -> glob -> Prop) :
    option exn -> prog -> mem -> glob -> exn -> mem -> glob -> Prop :=
| esc_here caught p m g x m' g' : runs G caught p m g (OThrow x) m' g' -> B caught p m g x m' g' -> escapes G B caught p m g x m' g'
| esc_first caught p k m g x m' g' : escapes G B caught p m g x m' g' -> escapes G B caught (PBind p k) m g x m' g'
| esc_then caught p k m g r m1 g1 x m' g' :
    lib_run G caught p m g (ORet r) m1 g1 -> escapes G B caught (k r) m1 g1 x m' g' -> escapes G B caught (PBind p k) m g x m' g'
| esc_scope caught k p hs m g c m1 mb gb ei caught' m3 g3 x m' g' :
    runs G caught (PScope k p hs) m g (OThrow x) m' g' -> healthy m ->
    enter (pmach G) (deduce G hs) (m, g) = Ok (c, (m1, g)) ->
    escapes G B caught p m1 g x mb gb ->
    failed G k caught p hs m g c (OThrow x) mb gb (OThrow x) ei caught' m3 g3 -> nobody G m3 c ei hs ->
    escapes G B caught (PScope k p hs) m g x m' g'.

Lemma escapes_run G B caught p m g x m' g' : escapes G B caught p m g x m' g' -> lib_run G caught p m g (OThrow x) m' g'.
Proof.
  induction 1 as [caught p m g x m' g' [H _] _|caught p k m g x m' g' H IH|caught p k m g r m1 g1 x m' g' Hp H IH|caught k p hs m g c m1 mb gb ei caught' m3 g3 x m' g' [Hr _] Hh He H IH HF Hn].
  - exact H.
  - cbn [eval]. eapply rb_ok; [exact IH|done].
  - cbn [eval]. eapply rb_ok; [exact Hp|exact IH].
  - exact Hr.
Qed.

(** The id the library associates with a caught exception; it is the only thing about the thread's state that matters for it. *)
Definition exn_id (x : exn) (g : glob) : Z := fst (fst (catch_info x g)).
Lemma exn_id_cur x g g' : cur g' = cur g -> exn_id x g' = exn_id x g.
Proof. intros E. unfold exn_id, catch_info. destruct (x_std x); simpl; [|by rewrite E]. destruct (x_leaf x); simpl; [done|]. by rewrite E. Qed.
Lemma exn_id_set x id g : mk id = id -> exn_id x g = id -> exn_id x (set_cur id g) = id.
Proof.
  intros Hm. unfold exn_id, catch_info. destruct (x_std x); simpl; [|by rewrite Hm]. destruct (x_leaf x); simpl; [done|].
  destruct (x_eid x); simpl; [done|]. by rewrite Hm.
Qed.
Lemma catch_cur x g : cur (snd (catch_info x g)) = cur g.
Proof. unfold catch_info. destruct (x_std x); [|done]. by destruct (x_leaf x). Qed.

Lemma exn_detect G c caught x m2 g2 ei caught' m3 g3 :
  detect G (pmach G) c caught (OThrow x, (m2, g2)) = Ok (ei, caught', (m3, g3)) ->
  ei_id ei = exn_id x g2 /\ ei_ex ei = snd (fst (catch_info x g2)) /\ caught' = Some x /\ cur g3 = cur g2.
Proof.
  intros H. unfold detect, exn_info in H. ok_inv H. destruct a as [e [ma ga]]. ok_inv E. destruct a as [mz gz].
  unfold on_mem in E0. ok_inv E0. injection E0 as -> <-. pose proof (catch_cur x g2) as Hc. unfold exn_id. cbn [fst snd] in *.
  destruct (catch_info x g2) as [[id ex] gx]. ok_inv E. injection E as <- <- <-. injection H as <- <- _ <-. done.
Qed.

Lemma escapes_placed G (B : option exn -> prog -> mem -> glob -> exn -> mem -> glob -> Prop) id P : mk id = id -> id <> 0 ->
  (forall caught p m g x m' g', runs G caught p m g (OThrow x) m' g' -> B caught p m g x m' g' -> exn_id x g' = id /\ placed id P m') ->
  forall caught p m g x m' g', escapes G B caught p m g x m' g' -> exn_id x g' = id /\ placed id P m'.
Proof.
  intros Hmk Hnz Hbase. induction 1 as [caught p m g x m' g' Hr HB|caught p k m g x m' g' H IH|caught p k m g r m1 g1 x m' g' Hp H IH|caught k p hs m g c m1 mb gb ei caught' m3 g3 x m' g' Hr Hh He H IH HF Hn]; auto.
  - by eapply Hbase.
  - destruct IH as [Hxid Hp]. pose proof Hr as (Hl & s & s' & HR & HR' & Hspec).
    destruct (failed_both _ _ _ _ _ _ _ _ _ _ _ _ _ _ _ _ _ _ _ _ _ HR Hspec Hl HF)
      as (m1b & s1 & sb & m2 & s2 & g2 & s3 & Ec & A1 & A2 & HR1 & B1 & B2 & HRb & C1 & C2 & HR2 & D & E1 & E2 & HR3 & _).
    destruct (enter_both G (deduce G hs) m s g (deduce_nodup G hs) HR) as (s1' & m1a & A1' & A2' & _ & S1 & S2 & S3).
    assert (s1' = s1) as -> by (rewrite <- Ec in A1'; pose proof (eq_trans (eq_sym A2) A1') as X; by injection X).
    destruct (detect_split _ _ _ _ _ _ _ _ _ _ _ _ _ _ C2 E2) as (s2' & W & Hd & Hsame). rewrite (Hsame I) in Hd.
    pose proof (deact_popped _ _ _ _ _ HRb HR3 Hd) as PP.
    destruct (exn_detect _ _ _ _ _ _ _ _ _ _ E1) as (Eid & _ & _ & Ecur).
    assert (m2 = mb /\ g2 = gb) as [-> ->] by (destruct k; simpl in C1; by injection C1 as <- <-). rewrite Hxid in Eid.
    split.
    { destruct (failed_full _ _ _ _ _ _ _ _ _ _ _ _ _ _ _ _ _ _ _ _ _ HR Hspec Hl HF) as (s3' & o4 & m4 & s4 & g4 & HR3' & HR4 & _ & F1 & F2 & F3); [by rewrite Eid|].
      destruct F3 as [(args & w & b & vs & m5 & s5 & (pre & post & K1 & K2 & K3) & _)|(_ & F4 & F5)].
      { unfold nobody in Hn. rewrite K1 in Hn. apply Forall_app in Hn as [_ Hn]. apply Forall_cons in Hn as [Hn _]. simpl in Hn. congruence. }
      assert (g4 = g') as ->. { unfold unhandled in F5. apply unload_rethrow_inv in F5 as [-> _]. destruct k; simpl in F2; by apply leave_inv in F2 as (_ & _ & F2). }
      unfold unhandled, unload_rethrow in F4. ok_inv F4. injection F4 as _ F4. destruct a as [ma ga]. injection F4 as -> ->.
      destruct (mi_unl _ _ _ _ (pmach_inv G Fall) _ _ _ _ _ _ E (no_coll_all _)) as [_ [->|[_ ->]]]; cbn [snd].
      - by rewrite (exn_id_cur x _ _ Ecur).
      - rewrite Eid. apply exn_id_set; [done|]. by rewrite (exn_id_cur x _ _ Ecur). }
    destruct (C09_unhandled_error_carries_objects_out _ _ _ _ _ _ _ _ _ _ _ _ _ _ _ _ _ _ _ Hr Hh HF) as (_ & Hctx & Hmv); [by rewrite Eid|done|done|].
    rewrite Eid in Hmv.
    (* the contexts active in the end are those active once c has been deactivated *)
    assert (stack s' = stack s3 /\ forall c, c ∈ stack s3 -> members m' c = members m3 c) as [Hst Hmem].
    { pose proof (wb_same _ _ (proj1 (eval_wb _) _ _ _ _ _ B2) (R_wf _ _ HR1)) as Hsm. simpl in Hsm.
      apply sdeact_inv in Hd as (D1 & D2 & D3).
      assert (stack s3 = stack s) as Es3. { rewrite (sm_stack _ _ Hsm), S1 in D1. by injection D1. }
      pose proof (wb_same _ _ (proj1 (eval_wb _) _ _ _ _ _ Hspec) (R_wf _ _ HR)) as Hsm'. simpl in Hsm'.
      split; [by rewrite (sm_stack _ _ Hsm'), Es3|]. intros c0 Hc0. rewrite Es3 in Hc0.
      destruct (R_in _ _ HR c0 Hc0) as [a Ha]. unfold members. rewrite (R_ctxs _ _ c0 HR'), (R_ctxs _ _ c0 HR3).
      destruct (sm_tup _ _ Hsm' _ _ Ha) as (a' & Ha' & Ht'). rewrite Ha'.
      assert (c0 <> c) as Hne. { intros ->. rewrite Ec in Ha. destruct (wf_fresh _ (R_wf _ _ HR)) as [Hf _]. congruence. }
      destruct (sm_tup _ _ Hsm c0 a) as (a3 & Ha3 & Ht3); [rewrite S2, <- Ec, lookup_insert_ne by done; done|]. rewrite D2, Ha3. simpl. by rewrite Ht', Ht3. }
    assert (forall T c', serves m' T c' -> serves m3 T c' \/ (collects G m3 T c' /\ exists v, sees id (held m3 c T) = Some v /\ held m' c' T = Some (id, v))) as Hsv.
    { intros T c'. exact (moved_serves _ _ _ _ _ _ _ _ _ HR3 HR' Hst Hmem Hmv). }
    assert (forall T c', serves m3 T c' -> serves m' T c') as Hsv'.
    { intros T c'. exact (moved_serves_r _ _ _ _ _ _ _ _ _ HR3 HR' Hst Hmem Hmv). }
    intros T c'. split.
    + intros Hs v Hv. destruct (Hsv _ _ Hs) as [Hs3|(Hcol & v' & Hsee & Hh')].
      * pose proof (serves_active _ _ _ _ HR3 Hs3) as Hac. pose proof (Hmv c' T Hac) as Hx. cbv beta in Hx.
        destruct (pp_serves _ _ _ PP _ _ Hs3) as [Hsb|Hsb].
        -- (* c does not have T *)
           assert (sees id (held m3 c T) = None) as En.
           { rewrite (pp_held _ _ _ PP). apply (proj2 (Hp T c)).
             - exact (pp_act _ _ _ PP).
             - intros Hc. pose proof (serves_fun _ _ _ _ _ HRb Hc Hsb) as ->. destruct (pp_active _ _ _ PP _ Hac) as [_ ?]. done. }
           rewrite En in Hx. rewrite Hx, (pp_held _ _ _ PP). by apply (proj1 (Hp T c') Hsb).
        -- pose proof (proj1 (Hp T c) Hsb v Hv) as Hhc. rewrite (pp_held _ _ _ PP), Hhc in Hx. simpl in Hx. rewrite Z.eqb_refl in Hx. destruct Hx as (Hx & _).
           rewrite (Hx Hs3), (pp_held _ _ _ PP). rewrite (proj2 (Hp T c')); [done| |].
           ++ by apply (pp_active _ _ _ PP).
           ++ intros Hc'. pose proof (serves_fun _ _ _ _ _ HRb Hc' Hsb) as ->. destruct (pp_active _ _ _ PP _ Hac) as [_ ?]. done.
      * rewrite Hh'. rewrite (pp_held _ _ _ PP) in Hsee. destruct (held mb c T) as [[key w]|] eqn:Hhb; [|done]. simpl in Hsee.
        assert (serves mb T c) as Hsb by (apply (pp_own _ _ _ PP); right; by rewrite Hhb). pose proof (proj1 (Hp T c) Hsb v Hv) as Hhc. rewrite Hhb in Hhc.
        injection Hhc as -> ->. rewrite Z.eqb_refl in Hsee. by injection Hsee as ->.
    + intros Hac Hns. assert (active m3 c') as Hac3. { apply (R_active _ _ _ HR3). rewrite <- Hst. by apply (R_active _ _ _ HR'). }
      pose proof (Hmv c' T Hac3) as Hx. cbv beta in Hx.
      assert (held m' c' T = held m3 c' T) as ->.
      { destruct (sees id (held m3 c T)) as [w|] eqn:Es; [|done]. destruct Hx as (_ & X2 & X3). apply X3; [by intros Hs3; apply Hns, Hsv'|].
        intros (Y1 & Y2 & Y3). apply Hns. apply (serves_first _ _ _ _ HR').
        (* then c' would serve T now *)
        assert (held m' c' T = Some (id, w)) as Hw by (by apply X2).
        destruct (decide (tls m' !! T = None)) as [Hn'|Hn'].
        - exfalso. apply (R_unserved _ _ _ HR') in Hn'. pose proof (find_e_first T s' (R_wf _ _ HR')) as F. rewrite Hn' in F. symmetry in F. simpl in F.
          rewrite first_of_None in F. assert (c' ∈ stack s') as Hin by (by apply (R_active _ _ _ HR')). specialize (F c' Hin). rewrite (hasT_held _ _ _ _ HR' Hin), Hw in F.
          apply orb_false_iff in F as [_ F]. apply bool_decide_eq_false in F. apply F. eauto.
        - destruct (not_unserved _ _ _ HR' Hn') as [c1 H1]. destruct (Hsv _ _ H1) as [H3|[(_ & _ & H3) _]]; [by apply serves_not_unserved in H3|].
          assert (c1 = c') as -> by congruence. by apply (serves_first _ _ _ _ HR') in H1. }
      rewrite (pp_held _ _ _ PP). apply (proj2 (Hp T c')); [by apply (pp_active _ _ _ PP)|]. intros Hsb. apply Hns, Hsv', (pp_serves' _ _ _ PP); [done|].
      by apply (pp_active _ _ _ PP).
Qed.

(** The scope which examines the exception next. *)
Lemma escapes_scope G (B : option exn -> prog -> mem -> glob -> exn -> mem -> glob -> Prop) id P k caught p hs m g o m' g' c m1 ob mb gb o2 ei caught' m3 g3 x mx gx :
  mk id = id -> id <> 0 ->
  (forall caught p m g x m' g', runs G caught p m g (OThrow x) m' g' -> B caught p m g x m' g' -> exn_id x g' = id /\ placed id P m') ->
  runs G caught (PScope k p hs) m g o m' g' ->
  enter (pmach G) (deduce G hs) (m, g) = Ok (c, (m1, g)) ->
  escapes G B caught p m1 g x mx gx ->
  failed G k caught p hs m g c ob mb gb o2 ei caught' m3 g3 ->
  o2 = OThrow x /\ ei_id ei = id /\ ei_ex ei = (if x_std x then Some x else None) /\ caught' = Some x /\
  forall T v, T ∈ members m3 c -> P T v -> obj G m3 c ei T = Some v.
Proof.
  intros Hmk Hnz Hbase (Hl & s & s' & HR & HR' & Hspec) He Hesc HF.
  assert (ob = OThrow x /\ mb = mx /\ gb = gx) as (-> & -> & ->).
  { destruct HF as (m1a & m2a & g2a & F1 & F2 & _). pose proof (eq_trans (eq_sym F1) He) as X. injection X as ->.
    pose proof (eq_trans (eq_sym F2) (escapes_run _ _ _ _ _ _ _ _ _ Hesc)) as Y. by injection Y as -> -> ->. }
  destruct (escapes_placed _ _ _ _ Hmk Hnz Hbase _ _ _ _ _ _ _ Hesc) as [Hxid Hp].
  assert (o2 = OThrow x) as ->.
  { destruct HF as (m1a & m2a & g2a & _ & _ & F3 & _). destruct k; simpl in F3; by injection F3. }
  destruct (failed_popped _ _ _ _ _ _ _ _ _ _ _ _ _ _ _ _ _ _ _ _ _ HR Hspec Hl HF I) as [PP _].
  destruct HF as (m1a & m2a & g2a & _ & _ & F3 & _ & Hdet). destruct (exn_detect _ _ _ _ _ _ _ _ _ _ Hdet) as (Ei & Ex & Ec & _).
  assert (g2a = gx) as -> by (destruct k; simpl in F3; by injection F3). rewrite Hxid in Ei.
  split; [done|]. split; [done|]. split. { rewrite Ex. unfold catch_info. destruct (x_std x); [|done]. by destruct (x_leaf x). }
  split; [done|]. intros T v HT Hv. unfold obj. rewrite decide_True by done.
  rewrite (pp_held _ _ _ PP), (proj1 (Hp T c)) with (v := v); [|apply (pp_own _ _ _ PP); left; by rewrite <- (pp_members _ _ _ PP)|done].
  simpl. by rewrite Ei, Z.eqb_refl.
Qed.

(** x is thrown with these items, as error id. There are no objects of this error anywhere yet. *)
Definition thrown (G : cfg) (xs : xspec) (its : list item) (id : Z) (caught : option exn) (p : prog) (m : mem) (g : glob) (x : exn) (m' : mem) (g' : glob) : Prop :=
  p = PThrow None xs its /\ id = g_sup G (ngen g) /\ usable m /\ Forall (fun it => fine G m (id, it)) its /\
  forall T c, active m c -> sees id (held m c T) = None.

Lemma throw_std G caught xs its m g x m' g' : lib_run G caught (PThrow None xs its) m g (OThrow x) m' g' ->
  x_std x = true /\ x_leaf x = Some (mk (g_sup G (ngen g))).
Proof. intros H. cbn [eval] in H. unfold gnew in H. simpl in H. ok_inv H. injection H as <- _. done. Qed.

Lemma thrown_placed G xs its id : good_sup G -> forall caught p m g x m' g',
  runs G caught p m g (OThrow x) m' g' -> thrown G xs its id caught p m g x m' g' -> exn_id x g' = id /\ placed id (final its) m'.
Proof.
  intros Hg caught p m g x m' g' [H (s & s' & HR & HR' & _)] (-> & -> & Hu & HF & Hfresh). pose proof (Hg (ngen g)) as Hid.
  destruct (throw_std _ _ _ _ _ _ _ _ _ H) as [Hs Hl]. rewrite (mk_good _ Hid) in Hl.
  split; [unfold exn_id, catch_info; by rewrite Hs, Hl|].
  destruct (load_all G false (g_sup G (ngen g)) its (good_nz _ Hid) m s (snd (gnew G g)) HR Hu HF) as (m1 & s1 & g1 & E & HR1 & _ & L).
  assert (m' = m1) as ->.
  { cbn [eval] in H. unfold gnew in H. simpl in H. unfold id_load in H. rewrite (mk_good _ Hid), (proj2 (Z.eqb_neq _ 0) (good_nz _ Hid)) in H.
    ok_inv H. injection H as _ <- _. unfold gnew in E. simpl in E. pose proof (eq_trans (eq_sym E0) E) as E'. injection E' as ->. done. }
  exact (placed_loads _ _ _ _ _ _ _ _ HR L Hfresh).
Qed.

(** Any scope examining the exception, whatever the scopes in between: it identifies the error by the id it was thrown with; the objects
    are those given to the throw. *)
Theorem C25_exception_recognised_at_every_level :
  forall G xs its id k caught p hs m g o m' g' c m1 ob mb gb o2 ei caught' m3 g3 x mx gx,
    good_sup G ->
    runs G caught (PScope k p hs) m g o m' g' ->
    enter (pmach G) (deduce G hs) (m, g) = Ok (c, (m1, g)) ->
    escapes G (thrown G xs its id) caught p m1 g x mx gx ->
    failed G k caught p hs m g c ob mb gb o2 ei caught' m3 g3 ->
    ei_id ei = id /\ ei_ex ei = Some x /\ caught' = Some x /\
    forall T v, T ∈ members m3 c -> final its T v -> obj G m3 c ei T = Some v.
Proof.
  intros G xs its id k caught p hs m g o m' g' c m1 ob mb gb o2 ei caught' m3 g3 x mx gx Hg Hr He Hesc HF.
  assert (Z.land id 3 = 1 /\ x_std x = true) as [Hid Hs].
  { clear - Hesc Hg. induction Hesc as [caught p m g x m' g' [H _] (-> & -> & _)| | |]; auto. split; [apply Hg|]. by apply throw_std in H as [? _]. }
  destruct (escapes_scope G _ id _ k _ _ _ _ _ _ _ _ _ _ _ _ _ _ _ _ _ _ _ _ _ (mk_good _ Hid) (good_nz _ Hid) (thrown_placed G xs its id Hg) Hr He Hesc HF) as (_ & E1 & E2 & E3 & E4).
  rewrite Hs in E2. done.
Qed.
Print Assumptions C25_exception_recognised_at_every_level.

(** Thrown with two objects, passing through two scopes: one that has no use for either type, and one which could have stored TB. *)
Definition ex25_its : list item := [IVal TB (VZ 4); IVal TA (VZ 3); IVal TB (VZ 5)].
Definition ex25_xs : xspec := XSpec true [T_STDEX] 5 None None.
Definition ex25_throw : prog := PThrow None ex25_xs ex25_its.
Definition ex25_hs1 : handlers := HCons [AE TC] (fun _ => PRet (RVal 1)) HNil.
Definition ex25_hs2 : handlers := HCons [AE TC; APtr TB] (fun _ => PRet (RVal 2)) HNil.
Definition ex25_hs3 : handlers := HCons [AE TA; AE TB] (fun _ => PRet (RVal 3)) HNil.
Definition ex25_p1 : prog := PBind (PRet (RVal 0)) (fun _ => PTHS ex25_throw ex25_hs1).
Definition ex25_p2 : prog := PBind (PTC ex25_p1 ex25_hs2) (fun _ => PRet (RVal 9)).

(** For concrete programs. *)
Definition entered (tup : list sty) (m : mem) : mem := match enter (pmach GX) tup (m, glob0) with Ok (_, (m, _)) => m | _ => mem0 end.
Definition entered_s (tup : list sty) (s : smem) : smem := match enter (smach (asserts_on GX)) tup (s, glob0) with Ok (_, (s, _)) => s | _ => smem0 end.
Lemma entered_R tup m s : NoDup tup -> R m s -> R (entered tup m) (entered_s tup s) /\ exists c, enter (pmach GX) tup (m, glob0) = Ok (c, (entered tup m, glob0)).
Proof.
  intros Hnd HR. destruct (enter_both GX tup m s glob0 Hnd HR) as (s1 & m1 & E1 & E2 & HR1 & _).
  unfold entered, entered_s. rewrite E1, E2. eauto.
Qed.
Lemma escapes_throw_ex m s : R m s -> usable m -> (forall T c, active m c -> sees 5 (held m c T) = None) ->
  match eval (asserts_on GX) (smach (asserts_on GX)) None ex25_throw (s, glob0), eval GX (pmach GX) None ex25_throw (m, glob0) with Ok _, Ok (OThrow _, _) => true | _, _ => false end = true ->
  exists x m' g', escapes GX (thrown GX ex25_xs ex25_its 5) None ex25_throw m glob0 x m' g'.
Proof.
  intros HR Hu Hf H. destruct (eval (asserts_on GX) _ _ _ _) as [[os [s' gs]]|] eqn:Es; [|done].
  destruct (eval GX _ _ _ _) as [[[o|x] [m' g']]|] eqn:Em; [done| |done]. exists x, m', g'.
  assert (os = OThrow x /\ gs = g') as [-> ->].
  { destruct (C48_pointer_free_semantics _ _ _ _ _ _ _ _ _ HR Es) as (m1 & Hl & HR'). pose proof (eq_trans (eq_sym Em) Hl) as X. by injection X. }
  constructor; [exact (runs_intro _ _ _ _ _ _ _ _ _ _ HR Em Es)|]. split; [done|]. split; [done|]. split; [done|]. split; [|exact Hf].
  repeat constructor; done.
Qed.
Lemma escapes_scope_ex k p hs m s : R m s -> healthy m -> 
  (exists x mb gb, escapes GX (thrown GX ex25_xs ex25_its 5) None p (entered (deduce GX hs) m) glob0 x mb gb) ->
  match eval (asserts_on GX) (smach (asserts_on GX)) None (PScope k p hs) (s, glob0), eval GX (pmach GX) None (PScope k p hs) (m, glob0), phases GX k None p hs m glob0 with
  | Ok _, Ok _, Ok (c, _, _, (ei, _, (m3, _))) => bool_decide (Forall (fun h => mapM (supply GX m3 c ei) (fst h) = None) (flat hs))
  | _, _, _ => false end = true ->
  exists x m' g', escapes GX (thrown GX ex25_xs ex25_its 5) None (PScope k p hs) m glob0 x m' g'.
Proof.
  intros HR Hh (x & mx & gx & He) H.
  destruct (eval (asserts_on GX) _ _ _ _) as [[os [s' gs]]|] eqn:Es; [|done].
  destruct (eval GX _ _ _ _) as [[o [m' g']]|] eqn:Em; [|done].
  destruct (phases _ _ _ _ _ _ _) as [[[[c [ob [mb gb]]] o2] [[ei caught'] [m3 g3]]]|] eqn:Ep; [|done].
  apply bool_decide_eq_true in H. apply phases_failed in Ep.
  destruct (C48_pointer_free_semantics _ _ _ _ _ _ _ _ _ HR Es) as (m1 & Hl & HR'). pose proof (eq_trans (eq_sym Em) Hl) as X. injection X as -> -> ->.
  assert (runs GX None (PScope k p hs) m glob0 os m1 gs) as Hr. { split; [done|]. by exists s, s'. }
  destruct (entered_R (deduce GX hs) m s (deduce_nodup GX hs) HR) as [_ [c' Ent]].
  assert (c' = c) as ->. { pose proof Ep as (m1a & _ & _ & F1 & _). pose proof (eq_trans (eq_sym Ent) F1) as X. by injection X. }
  destruct (C25_exception_recognised_at_every_level GX ex25_xs ex25_its 5 k None p hs m glob0 os m1 gs c _ ob mb gb o2 ei caught' m3 g3 x mx gx GX_good Hr Ent He Ep) as (Ei & _ & _ & _).
  assert (ob = OThrow x /\ mb = mx /\ gb = gx) as (-> & -> & ->).
  { destruct Ep as (m1a & m2a & g2a & F1 & F2 & _). pose proof (eq_trans (eq_sym F1) Ent) as X. injection X as ->.
    pose proof (eq_trans (eq_sym F2) (escapes_run _ _ _ _ _ _ _ _ _ He)) as Y. by injection Y as -> -> ->. }
  assert (o2 = OThrow x) as ->. { destruct Ep as (m1a & m2a & g2a & _ & _ & F3 & _). destruct k; simpl in F3; by injection F3. }
  destruct (C09_unhandled_error_carries_objects_out _ _ _ _ _ _ _ _ _ _ _ _ _ _ _ _ _ _ _ Hr Hh Ep) as (-> & _); [by rewrite Ei|done|done|].
  exists x, m1, gs. by eapply esc_scope.
Qed.

Local Notation ex25_m := (nest_m [[SE TA]]).
Local Notation ex25_m2 := (entered (deduce GX ex25_hs3) ex25_m).
Local Notation ex25_m1 := (entered (deduce GX ex25_hs2) ex25_m2).
Local Notation ex25_m0 := (entered (deduce GX ex25_hs1) ex25_m1).
Local Notation ex25_s2 := (entered_s (deduce GX ex25_hs3) (nest_s [[SE TA]])).
Local Notation ex25_s1 := (entered_s (deduce GX ex25_hs2) ex25_s2).
Local Notation ex25_s0 := (entered_s (deduce GX ex25_hs1) ex25_s1).
Lemma ex25_R : R ex25_m2 ex25_s2 /\ R ex25_m1 ex25_s1 /\ R ex25_m0 ex25_s0.
Proof.
  assert (R ex25_m2 ex25_s2) as H2. { apply entered_R; [apply deduce_nodup|]. apply nest_R. constructor; [|constructor]. apply (bool_decide_unpack _). vm_compute. exact I. }
  assert (R ex25_m1 ex25_s1) as H1 by (apply entered_R; [apply deduce_nodup|done]).
  split; [done|]. split; [done|]. apply entered_R; [apply deduce_nodup|done].
Qed.
(** A context without objects. *)
Lemma none_held m s : R m s -> map_Forall (fun _ a => ac_cell a = ∅ /\ ac_coll a = None) (actxs s) -> forall c T, held m c T = None.
Proof.
  intros HR H c T. destruct (actxs s !! c) as [a|] eqn:Ha.
  - rewrite (R_held _ _ _ _ T HR Ha). destruct (H c a Ha) as [E1 E2]. unfold get_e, nodes. rewrite E1, E2, lookup_empty. by destruct (bool_decide _).
  - pose proof (R_ctxs _ _ c HR) as Hk. rewrite Ha in Hk. unfold held, caddr. by rewrite Hk.
Qed.
Lemma ex25_escapes : exists x m' g', escapes GX (thrown GX ex25_xs ex25_its 5) None ex25_p2 ex25_m2 glob0 x m' g'.
Proof.
  destruct ex25_R as (H2 & H1 & H0).
  assert (exists x m' g', escapes GX (thrown GX ex25_xs ex25_its 5) None ex25_p1 ex25_m1 glob0 x m' g') as (x & m' & g' & He).
  { edestruct (escapes_scope_ex KSome ex25_throw ex25_hs1) as (x & m' & g' & He); [exact H1| | | |].
    4: { exists x, m', g'. eapply esc_then; [reflexivity|exact He]. }
    - intros c d _ H. vm_compute in H. done.
    - eapply (escapes_throw_ex _ _ H0).
      + intros c d H. vm_compute in H. discriminate H.
      + intros T c _. rewrite (none_held _ _ H0); [done|]. apply (bool_decide_unpack _). vm_compute. exact I.
      + vm_compute. reflexivity.
    - vm_compute. reflexivity. }
  edestruct (escapes_scope_ex KCatch ex25_p1 ex25_hs2) as (x2 & m2' & g2' & He2); [exact H2| | | |].
  4: { exists x2, m2', g2'. apply esc_first, He2. }
  - intros c d _ H. vm_compute in H. done.
  - exists x, m', g'. exact He.
  - vm_compute. reflexivity.
Qed.
Example ex25 : exists x mx gx o m' g' c ob mb gb o2 ei caught' m3 g3,
  escapes GX (thrown GX ex25_xs ex25_its 5) None ex25_p2 ex25_m2 glob0 x mx gx /\
  enter (pmach GX) (deduce GX ex25_hs3) (ex25_m, glob0) = Ok (c, (ex25_m2, glob0)) /\
  runs GX None (PTHA ex25_p2 ex25_hs3) ex25_m glob0 o m' g' /\
  failed GX KAll None ex25_p2 ex25_hs3 ex25_m glob0 c ob mb gb o2 ei caught' m3 g3 /\
  (o = ORet (RVal 3) /\ ei_id ei = 5 /\ TB ∈ members m3 c /\ obj GX m3 c ei TB = Some (VZ 5)) /\ final ex25_its TB (VZ 5).
Proof.
  destruct ex25_escapes as (x & mx & gx & He).
  assert (R ex25_m (nest_s [[SE TA]])) as HR. { apply nest_R. constructor; [|constructor]. apply (bool_decide_unpack _). vm_compute. exact I. }
  edestruct (scope_ex GX KAll ex25_p2 ex25_hs3 ex25_m (nest_s [[SE TA]]) glob0
    (fun o m' c o2 ei m3 => o = ORet (RVal 3) /\ ei_id ei = 5 /\ TB ∈ members m3 c /\ obj GX m3 c ei TB = Some (VZ 5)))
    as (o & m' & g' & c & ob & mb & gb & o2 & ei & caught' & m3 & g3 & Hr & HF & HP); [exact HR|vm_compute; reflexivity|].
  destruct (entered_R (deduce GX ex25_hs3) ex25_m _ (deduce_nodup GX ex25_hs3) HR) as [_ [c' Ent]].
  assert (c' = c) as ->. { pose proof HF as (m1a & _ & _ & F1 & _). pose proof (eq_trans (eq_sym Ent) F1) as X. by injection X. }
  exists x, mx, gx, o, m', g', c, ob, mb, gb, o2, ei, caught', m3, g3. repeat (split; [done|]). exists [IVal TB (VZ 4); IVal TA (VZ 3)], []. done.
Qed.

(** ** C29 *)

Lemma detect_for G M c caught cat v (s : mst M) g : v <> 0 -> cat <> LEAFCAT ->
  detect G M c caught (ORet (RFor cat v), (s, g)) =
  (let! s1 := m_load M false (g_sup G (ngen g)) (IVal T_EC (VEC cat v)) s (snd (gnew G g)) in
   let! s3 := on_mem M (m_deact M c) s1 in
   let! loc := m_get M c T_LOC (mk (g_sup G (ngen g))) (fst s3) in Ok (EInfo (mk (g_sup G (ngen g))) None loc, caught, s3)).
Proof.
  intros Hv Hcat. unfold detect, err_id_of, import_ec. rewrite (proj2 (Z.eqb_neq _ _) Hv), (proj2 (Nat.eqb_neq _ _) Hcat).
  unfold gnew. cbn [fst snd]. by destruct (m_load _ _ _ _ _ _).
Qed.

(** A third-party result with an error code of another category: handlers receive this code, for an error with a new id. *)
Theorem C29_handlers_receive_the_code :
  forall G k caught p hs m g o m' g' c mb gb o2 ei caught' m3 g3 cat v,
    good_sup G -> runs G caught (PScope k p hs) m g o m' g' -> healthy m ->
    failed G k caught p hs m g c (ORet (RFor cat v)) mb gb o2 ei caught' m3 g3 ->
    v <> 0 -> cat <> LEAFCAT ->
    o2 = ORet (RFor cat v) /\ ei_id ei = g_sup G (ngen gb) /\ ei_ex ei = None /\
    (T_EC ∈ members m3 c -> obj G m3 c ei T_EC = Some (VEC cat v)).
Proof.
  intros G k caught p hs m g o m' g' c mb gb o2 ei caught' m3 g3 cat v Hg (Hl & s & s' & HR & HR' & Hspec) Hh HF Hv Hcat.
  destruct (failed_both _ _ _ _ _ _ _ _ _ _ _ _ _ _ _ _ _ _ _ _ _ HR Hspec Hl HF)
    as (m1 & s1 & sb & m2 & s2 & g2 & s3 & Ec & A1 & A2 & HR1 & B1 & B2 & HRb & C1 & C2 & HR2 & D & E1 & E2 & HR3 & _).
  assert (o2 = ORet (RFor cat v) /\ m2 = mb /\ g2 = gb /\ s2 = sb) as (-> & -> & -> & ->).
  { destruct k; simpl in C1, C2; injection C1 as <- <- <-; injection C2 as <-; done. }
  assert (healthy m1) as Hh1.
  { destruct (enter_both G (deduce G hs) m s g (deduce_nodup G hs) HR) as (s1' & m1a & A1' & A2' & _ & S1 & S2 & S3).
    assert (s1' = s1) as -> by (rewrite <- Ec in A1'; pose proof (eq_trans (eq_sym A2) A1') as X; by injection X).
    apply (R_healthy _ _ HR1). apply (R_healthy _ _ HR) in Hh. intros c0 Hc0 a q Ha Hq. rewrite S1 in Hc0. rewrite S2 in Ha.
    apply lookup_insert_Some in Ha as [[_ <-]|[Hne Ha]]; [done|]. apply elem_of_cons in Hc0 as [?|Hc0]; [done|]. by apply (Hh c0 Hc0 a q). }
  assert (healthy mb) as Hhb. { eapply healthy_preserved; [|exact Hh1]. split; [exact B1|]. by exists s1, sb. }
  assert (usable mb) as Hub. { apply (R_usable _ _ HRb), aok_dok. by apply (R_healthy _ _ HRb). }
  pose proof (Hg (ngen gb)) as Hid. set (id := g_sup G (ngen gb)) in *.
  destruct (load_one G false id (IVal T_EC (VEC cat v)) mb sb (snd (gnew G gb)) HRb (good_nz _ Hid) Hub I) as (ma & ga & sa & L1 & HRa & _ & L).
  rewrite (detect_for _ (pmach G) _ _ _ _ _ _ Hv Hcat) in E1. rewrite (detect_for _ (smach (asserts_on G)) _ _ _ _ _ _ Hv Hcat) in E2.
  change (gnew (asserts_on G) gb) with (gnew G gb) in E2.
  ok_inv E2. destruct a as [sy gy]. ok_inv E2. destruct a as [sx gx]. ok_inv E2. injection E2 as <- <- -> ->. apply on_mem_inv in E0 as [E0 _].
  destruct (sim_ok _ _ _ _ (sim_load G false id (IVal T_EC (VEC cat v)) (mb, snd (gnew G gb)) (sb, snd (gnew G gb)) ltac:(by split)) E) as ([mq gq] & Eq & HRq & _).
  pose proof (eq_trans (eq_sym L1) Eq) as X. injection X as -> ->.
  assert (popped c mq m3) as PP by exact (deact_popped _ _ _ _ _ HRq HR3 E0).
  change (g_sup (asserts_on G) (ngen gb)) with id. fold id. rewrite (mk_good _ Hid). cbn [ei_id ei_ex].
  split; [done|]. split; [done|]. split; [done|]. intros HT. unfold obj. rewrite decide_True by done. rewrite (pp_held _ _ _ PP).
  rewrite (pp_members _ _ _ PP) in HT. pose proof (pp_own _ _ _ PP _ (or_introl HT)) as Hs. apply (ld_serves _ _ _ _ _ _ _ _ L) in Hs.
  rewrite (ld_new _ _ _ _ _ _ _ _ L c T_EC (VEC cat v)); [simpl; by rewrite Z.eqb_refl|done|done|].
  destruct Hs as [Hs|[_ Hs]]; [left|by right]. split; [done|]. intros [? _]. done.
Qed.
Print Assumptions C29_handlers_receive_the_code.

(** Unhandled, the same third-party result is returned: an enclosing scope receives the same code in turn. *)
Theorem C29_unhandled_code_is_passed_on :
  forall G k caught p hs m g o m' g' c mb gb o2 ei caught' m3 g3 cat v,
    good_sup G -> runs G caught (PScope k p hs) m g o m' g' -> healthy m ->
    failed G k caught p hs m g c (ORet (RFor cat v)) mb gb o2 ei caught' m3 g3 ->
    v <> 0 -> cat <> LEAFCAT -> nobody G m3 c ei hs ->
    o = ORet (RFor cat v) /\ ctxs m' = ctxs m.
Proof.
  intros G k caught p hs m g o m' g' c mb gb o2 ei caught' m3 g3 cat v Hg Hr Hh HF Hv Hcat Hn.
  destruct (C29_handlers_receive_the_code _ _ _ _ _ _ _ _ _ _ _ _ _ _ _ _ _ _ _ _ Hg Hr Hh HF Hv Hcat) as (-> & Ei & _ & _).
  destruct Hr as (Hl & s & s' & HR & HR' & H).
  destruct (failed_full _ _ _ _ _ _ _ _ _ _ _ _ _ _ _ _ _ _ _ _ _ HR H Hl HF) as (s3 & o4 & m4 & s4 & g4 & HR3 & HR4 & _ & F1 & F2 & F3).
  { rewrite Ei. by apply good_nz. }
  split.
  2:{ apply (proj1 (eval_wb _)) in H. simpl in H. exact (same_ctxs _ _ _ _ HR HR' (wb_same _ _ H (R_wf _ _ HR))). }
  destruct F3 as [(args & w & b & vs & m5 & s5 & (pre & post & K1 & K2 & K3) & _)|(_ & F4 & F5)].
  { unfold nobody in Hn. rewrite K1 in Hn. apply Forall_app in Hn as [_ Hn]. apply Forall_cons in Hn as [Hn _]. simpl in Hn. congruence. }
  simpl in F5. destruct k; try done. injection F5 as <- <- <-. simpl in F2. unfold ths_end in F2. simpl in F2. destruct (v =? 0) eqn:Ev; [apply Z.eqb_eq in Ev; done|]. simpl in F2.
  ok_inv F2. ok_inv F2. by apply leave_inv in F2 as (-> & _).
Qed.
Print Assumptions C29_unhandled_code_is_passed_on.

(** A code of the LEAF category is the error id it was made from; it behaves like a LEAF result with this id. *)
Theorem C29_leaf_code_is_the_same_error :
  forall G k caught p hs m g o m' g' c mb gb o2 ei caught' m3 g3 v,
    runs G caught (PScope k p hs) m g o m' g' -> healthy m ->
    failed G k caught p hs m g c (ORet (RFor LEAFCAT v)) mb gb o2 ei caught' m3 g3 ->
    v <> 0 -> Z.land v 3 = 1 ->
    ei_id ei = v /\ ei_ex ei = None /\ (forall c T, held m3 c T = held mb c T) /\
    (nobody G m3 c ei hs -> o = ORet (RFor LEAFCAT v) /\ ctxs m' = ctxs m /\ moved G v (fun T => sees v (held m3 c T)) m3 m').
Proof.
  intros G k caught p hs m g o m' g' c mb gb o2 ei caught' m3 g3 v (Hl & s & s' & HR & HR' & H) Hh HF Hv Hg.
  destruct (failed_both _ _ _ _ _ _ _ _ _ _ _ _ _ _ _ _ _ _ _ _ _ HR H Hl HF)
    as (m1 & s1 & sb & m2 & s2 & g2 & s3 & Ec & A1 & A2 & HR1 & B1 & B2 & HRb & C1 & C2 & HR2 & D & E1 & E2 & HR3 & _).
  assert (o2 = ORet (RFor LEAFCAT v) /\ m2 = mb /\ g2 = gb /\ s2 = sb) as (-> & -> & -> & ->).
  { destruct k; simpl in C1, C2; injection C1 as <- <- <-; injection C2 as <-; done. }
  assert (forall (G' : cfg) M (s : st M), err_id_of G' M (RFor LEAFCAT v) s = Ok (v, s)) as Hid.
  { intros G' M s0. simpl. unfold import_ec. rewrite (proj2 (Z.eqb_neq _ _) Hv), Nat.eqb_refl, (proj2 (Z.eqb_eq _ _) Hg), (mk_good _ Hg). unfold assert. simpl. by destruct (g_asserts G'). }
  unfold detect in E2. rewrite Hid in E2. cbn [rbind fst snd] in E2. ok_inv E2. destruct a as [sx gx]. ok_inv E2. injection E2 as <- <- -> ->. apply on_mem_inv in E as [E _].
  pose proof (deact_popped _ _ _ _ _ HRb HR3 E) as PP. cbn [ei_id ei_ex] in *.
  split; [done|]. split; [done|]. split; [exact (pp_held _ _ _ PP)|]. intros Hn.
  pose proof (failed_aok _ _ _ _ _ _ _ _ _ _ _ _ _ _ _ _ _ _ _ _ _ _ HR H Hl HF Hh HR3) as Hok.
  destruct (failed_full _ _ _ _ _ _ _ _ _ _ _ _ _ _ _ _ _ _ _ _ _ HR H Hl HF Hv) as (s3' & o4 & m4 & s4 & g4 & HR3' & HR4 & _ & F1 & F2 & F3).
  assert (ctxs m' = ctxs m) as Ecx.
  { apply (proj1 (eval_wb _)) in H. simpl in H. exact (same_ctxs _ _ _ _ HR HR' (wb_same _ _ H (R_wf _ _ HR))). }
  destruct F3 as [(args & w & b & vs & m5 & s5 & (pre & post & K1 & K2 & K3) & _)|(_ & F4 & F5)].
  { unfold nobody in Hn. rewrite K1 in Hn. apply Forall_app in Hn as [_ Hn]. apply Forall_cons in Hn as [Hn _]. simpl in Hn. congruence. }
  pose proof (failed_aok _ _ _ _ _ _ _ _ _ _ _ _ _ _ _ _ _ _ _ _ _ _ HR H Hl HF Hh HR3') as Hok'.
  simpl in F4, F5. destruct k; try done. injection F5 as <- <- <-. injection F4 as <-. unfold finish, ths_end in F2. cbn [fst snd] in F2.
  assert (is_val (RFor LEAFCAT v) = false) as Hnv by exact D. rewrite Hnv, Hid in F2. cbn [rbind fst snd] in F2.
  ok_inv F2. destruct a0 as [s5 g5]. apply leave_inv in F2 as (-> & Hd & _). simpl in Hd.
  split; [done|]. split; [done|]. by eapply unload_leave_moved.
Qed.
Print Assumptions C29_leaf_code_is_the_same_error.

(** The promise that objects of the failure stay with it when no handler matches does not hold for other categories: each scope the result
    passes through takes it for a new error. An object loaded (here by on_error) for the error the inner scope started is not available
    to the handlers of the outer scope, although their types are all handled there and the code itself is.
    With a LEAF result in its place, the object is available (C09, C29_leaf_code_is_the_same_error). *)
Definition ex29_prog (r : prog) : prog :=
  PTHA (POnError [IVal TA (VZ 7)] (PTHS r (HCons [AE TC] (fun _ => PRet (RVal 1)) HNil)))
    (HCons [AE TA; AE T_EC] (fun _ => PRet (RVal 2)) (HCons [AE T_EC] (fun _ => PRet (RVal 3)) (HCons [AE TA] (fun _ => PRet (RVal 4)) (HCons [] (fun _ => PRet (RVal 5)) HNil)))).
Definition ex29_out (p : prog) : option out := match eval GX (pmach GX) None p (mem0, glob0) with Ok (o, _) => Some o | _ => None end.
Theorem C29_objects_of_third_party_failure_refuted :
  exists cat v, cat <> LEAFCAT /\ v <> 0 /\
    ex29_out (ex29_prog (PRet (RFor cat v))) = Some (ORet (RVal 3)) /\
    ex29_out (ex29_prog (PNewError [] (fun id => PRet (RErr id)))) = Some (ORet (RVal 4)) /\
    ex29_out (ex29_prog (PNewError [] (fun id => PRet (RFor LEAFCAT id)))) = Some (ORet (RVal 4)).
Proof. exists 5%nat, 42. repeat (split; [done|]). repeat split; vm_compute; reflexivity. Qed.
Print Assumptions C29_objects_of_third_party_failure_refuted.

(** Two scopes, the inner one has no handler for codes. *)
Example ex29 : exists o m' g' c ob mb gb o2 ei caught' m3 g3,
  runs GX None (PTHS (PRet (RFor 5 42)) (HCons [APtr T_EC; AE TC] (fun _ => PRet (RVal 1)) HNil)) out_m glob0 o m' g' /\
  failed GX KSome None (PRet (RFor 5 42)) (HCons [APtr T_EC; AE TC] (fun _ => PRet (RVal 1)) HNil) out_m glob0 c ob mb gb o2 ei caught' m3 g3 /\
  (o = ORet (RFor 5 42) /\ ei_id ei = 5 /\ T_EC ∈ members m3 c /\ obj GX m3 c ei T_EC = Some (VEC 5 42)).
Proof.
  eapply (scope_ex GX KSome _ _ _ _ _ (fun o m' c o2 ei m3 => o = ORet (RFor 5 42) /\ ei_id ei = 5 /\ T_EC ∈ members m3 c /\ obj GX m3 c ei T_EC = Some (VEC 5 42))); [exact out_R|].
  vm_compute. reflexivity.
Qed.
(** The code made from an id: the id's objects are offered to handlers, and carried out. *)
Definition ex29_hs : handlers := HCons [AE TC; APtr TB] (fun _ => PRet (RVal 1)) HNil.
Definition ex29_body : prog := PNewError [IVal TB (VZ 80)] (fun id => PRet (RFor LEAFCAT id)).
Example ex29_leaf : exists o m' g' c ob mb gb o2 ei caught' m3 g3,
  runs GX None (PTHS ex29_body ex29_hs) out_m glob0 o m' g' /\
  failed GX KSome None ex29_body ex29_hs out_m glob0 c ob mb gb o2 ei caught' m3 g3 /\
  (o = ORet (RFor LEAFCAT 5) /\ ei_id ei = 5 /\ held m3 c TB = Some (5, VZ 80) /\ held m3 0%nat TB = None /\ held m' 0%nat TB = Some (5, VZ 80)).
Proof.
  eapply (scope_ex GX KSome _ _ _ _ _ (fun o m' c o2 ei m3 => o = ORet (RFor LEAFCAT 5) /\ ei_id ei = 5 /\ held m3 c TB = Some (5, VZ 80) /\ held m3 0%nat TB = None /\ held m' 0%nat TB = Some (5, VZ 80)));
    [exact out_R|]. vm_compute. reflexivity.
Qed.
