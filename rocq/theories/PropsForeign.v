(** C27: exceptions not thrown through LEAF. *)
From Verif Require Export PropsOwn PropsNest.
Open Scope Z_scope.

(** The exception does not carry an error id. *)
Definition foreign (x : exn) : Prop := x_leaf x = None /\ x_eid x = None.

(** ** Without on_error
    The library has nothing to go by but the current error. *)
Theorem C27_without_on_error :
  forall G k caught p hs m g c x mb gb o2 ei caught' m3 g3,
    foreign x -> failed G k caught p hs m g c (OThrow x) mb gb o2 ei caught' m3 g3 -> ei_id ei = mk (cur gb).
Proof.
  intros G k caught p hs m g c x mb gb o2 ei caught' m3 g3 [H1 H2] (m1 & m2 & g2 & _ & _ & F3 & _ & Hdet).
  assert (o2 = OThrow x /\ g2 = gb) as [-> ->] by (destruct k; simpl in F3; by injection F3 as <- <- <-).
  destruct (exn_detect _ _ _ _ _ _ _ _ _ _ Hdet) as (-> & _). unfold exn_id, catch_info. rewrite H1, H2. by destruct (x_std x).
Qed.
Print Assumptions C27_without_on_error.

(** If an earlier, unrelated error, handled meanwhile, left an object in the scope, it is passed to the handler. *)
Definition ex27_inner : prog := (* an error with two objects, handled by a scope which only has use for one of them *)
  PTHA (PNewError [IVal TA (VZ 1); IVal TB (VZ 2)] (fun id => PRet (RErr id))) (HCons [AE TA] (fun _ => PRet (RVal 0)) (HCons [] (fun _ => PRet (RVal 1)) HNil)).
Definition ex27_stale : prog :=
  PTC (PBind ex27_inner (fun _ => PThrowX (XSpec true [T_STDEX] 9 None None)))
      (HCons [AE TB] (fun l => match l with [VE (VZ z)] => PRet (RVal z) | _ => PRet (RVal 0) end) (HCons [] (fun _ => PRet (RVal 1)) HNil)).
Theorem C27_objects_of_earlier_errors_refuted :
  exists m' g', runs GX None ex27_stale mem0 glob0 (ORet (RVal 2)) m' g'.
Proof.
  destruct (eval (asserts_on GX) (smach (asserts_on GX)) None ex27_stale (smem0, glob0)) as [[o [s' g']]|] eqn:E; [|by vm_compute in E].
  assert (o = ORet (RVal 2)) as ->. { vm_compute in E. by injection E. }
  destruct (C48_pointer_free_semantics _ _ _ _ _ _ _ _ _ R0 E) as (m' & H & HR'). exists m', g'.
  split; [exact H|]. exists smem0, s'. split; [exact R0|]. split; [exact HR'|exact E].
Qed.
Print Assumptions C27_objects_of_earlier_errors_refuted.

(** ** With on_error
    The values a list of items can produce for an error without objects. *)
Inductive made (G : cfg) (its : list item) : ety -> val -> Prop :=
| made_val T v : IVal T v ∈ its -> made G its T v
| made_def T tag gf t : IDef T tag gf ∈ its -> made G its T (gf t)
| made_first T tag h : IAcc T tag h ∈ its -> made G its T (h (g_def G T))
| made_acc T tag h v : IAcc T tag h ∈ its -> made G its T v -> made G its T (h v).

(** The foreign exception x is thrown by code directly or indirectly covered by an on_error, then passes further on_errors and scopes without being handled.
    f, the N-th id, is the one it is assigned by the first on_error; [its]: the items of the on_errors it has passed.
    [calm]: code which ran before, and has nothing to do with f. *)
Notation calm f p := (avoids f (fun _ _ => False) p).
Inductive travels (G : cfg) (N : nat) : list item -> option exn -> prog -> mem -> glob -> exn -> mem -> glob -> Prop :=
| tv_start its caught p m g x m1 g1 m' g' :
    lib_run G caught p m g (OThrow x) m1 g1 -> foreign x -> cur g1 = cur g -> N = ngen g1 -> calm (g_sup G N) p ->
    Forall (citem (g_sup G N)) its ->
    lib_run G caught (POnError its p) m g (OThrow x) m' g' -> travels G N its caught (POnError its p) m g x m' g'
| tv_first its caught p k m g x m' g' :
    travels G N its caught p m g x m' g' -> travels G N its caught (PBind p k) m g x m' g'
| tv_then its caught p k m g r m1 g1 x m' g' :
    lib_run G caught p m g (ORet r) m1 g1 -> calm (g_sup G N) p ->
    travels G N its caught (k r) m1 g1 x m' g' -> travels G N its caught (PBind p k) m g x m' g'
| tv_on_error its its2 caught p m g x m1 g1 m' g' :
    travels G N its caught p m g x m1 g1 -> Forall (citem (g_sup G N)) its2 ->
    lib_run G caught (POnError its2 p) m g (OThrow x) m' g' -> travels G N (its ++ its2) caught (POnError its2 p) m g x m' g'
| tv_scope its caught k p hs m g c m1 mb gb ei caught' m3 g3 x m' g' :
    enter (pmach G) (deduce G hs) (m, g) = Ok (c, (m1, g)) ->
    travels G N its caught p m1 g x mb gb ->
    failed G k caught p hs m g c (OThrow x) mb gb (OThrow x) ei caught' m3 g3 -> nobody G m3 c ei hs ->
    lib_run G caught (PScope k p hs) m g (OThrow x) m' g' ->
    travels G N its caught (PScope k p hs) m g x m' g'.

Lemma travels_run G N its caught p m g x m' g' : travels G N its caught p m g x m' g' -> lib_run G caught p m g (OThrow x) m' g'.
Proof.
  induction 1 as [ |its caught p k m g x m' g' H IH|its caught p k m g r m1 g1 x m' g' Hp Hc H IH| | ]; try done.
  - cbn [eval]. eapply rb_ok; [exact IH|done].
  - cbn [eval]. eapply rb_ok; [exact Hp|exact IH].
Qed.
Lemma travels_foreign G N its caught p m g x m' g' : travels G N its caught p m g x m' g' -> foreign x.
Proof. by induction 1. Qed.

Section sp.
Context (G : cfg) (N : nat).
Notation f := (g_sup G N).
Context (Hg : good_sup G) (H1 : f <> 1) (Hdef : forall T, cval f (g_def G T)).
Notation GS := (asserts_on G).
Notation NO := (fun _ _ => False).

Lemma f_mk : mk f = f.
Proof. apply mk_good, Hg. Qed.
Lemma f_nz : f <> 0.
Proof. apply good_nz, Hg. Qed.

Lemma cobj_mono (P Q : ety -> val -> Prop) n : (forall T v, P T v -> Q T v) -> cobj f P n -> cobj f Q n.
Proof. intros H [A B]. split; auto. Qed.
Lemma cmem_mono (P Q : ety -> val -> Prop) s : (forall T v, P T v -> Q T v) -> cmem f P s -> cmem f Q s.
Proof.
  intros H Hm c a Ha. destruct (Hm c a Ha) as [A B]. split.
  - intros T x HT Hx. eapply cobj_mono; eauto.
  - eapply Forall_impl; [exact B|]. intros n. by apply cobj_mono.
Qed.
Lemma made_mono its its2 T v : its ⊆ its2 -> made G its T v -> made G its2 T v.
Proof. intros Hs. induction 1; [eapply made_val|eapply made_def|eapply made_first|eapply made_acc]; eauto. Qed.
Lemma made_feeds its its2 : its2 ⊆ its -> Forall (feeds (made G its) GS) its2.
Proof.
  intros Hs. apply Forall_forall. intros it Hi. apply Hs in Hi. destruct it as [T v|T tag gf|T tag h|tag]; simpl.
  - by apply made_val.
  - intros t. by eapply made_def.
  - split; [by eapply made_first|]. intros v. by eapply made_acc.
  - done.
Qed.

Lemma c_load_items P o its : Forall (citem f) its -> Forall (feeds P GS) its -> forall (s s' : st (smach GS)), load_items (smach GS) o f its s = Ok s' ->
  cmem f P (fst s) -> cmem f P (fst s') /\ cur (snd s') = cur (snd s).
Proof.
  intros HF. induction HF as [|it its Hit HF IH]; simpl; intros Hfe s s' E H; [by simplify_eq|]. apply Forall_cons in Hfe as [Hf1 Hf2]. ok_inv E. destruct s as [m g], a as [m1 g1].
  cbn [fst snd] in *. eapply (c_load f P H1 GS Hdef) in E0 as [Hm1 Hg1]; eauto. destruct (IH Hf2 _ _ E Hm1) as [? Hc]. split; [done|]. refine (eq_trans Hc _). cbn [fst snd].
  destruct Hg1 as [-> | [e ->]]; done.
Qed.

(** f is not among the ids generated before. *)
Lemma travels_le its caught p m g x m' g' : travels G N its caught p m g x m' g' ->
  forall s s', R m s -> spec_run G caught p s g (OThrow x) s' g' -> (ngen g <= N)%nat.
Proof.
  induction 1 as [its caught p m g x m1 g1 m' g' Hp Hfor Hcur HN Hcalm Hits Hrun
                 |its caught p k m g x m' g' H IH
                 |its caught p k m g r m1 g1 x m' g' Hp Hcalm H IH
                 |its its2 caught p m g x m1 g1 m' g' H IH Hits Hrun
                 |its caught k p hs m g c m1 mb gb ei caught' m3 g3 x m' g' He H IH HF Hn Hrun]; intros s s' HR Hsp.
  - cbn [eval] in Hsp. ok_inv Hsp. destruct a as [o1 [s1 g1']]. destruct (C48_pointer_free_semantics _ _ _ _ _ _ _ _ _ HR E) as (m1' & Hp' & HR1).
    pose proof (eq_trans (eq_sym Hp') Hp) as X. injection X as -> -> ->. pose proof (eval_grows f H1 GS _ _ _ _ _ E) as Hle. unfold grows in Hle. cbn [fst snd] in Hle. lia.
  - cbn [eval] in Hsp. ok_inv Hsp. destruct a as [o1 [s1 g1]]. destruct (C48_pointer_free_semantics _ _ _ _ _ _ _ _ _ HR E) as (m1 & Hp' & HR1).
    pose proof (eq_trans (eq_sym Hp') (travels_run _ _ _ _ _ _ _ _ _ _ H)) as X. injection X as -> -> ->. eapply IH; [exact HR|exact E].
  - cbn [eval] in Hsp. ok_inv Hsp. destruct a as [o1 [s1 g1']]. destruct (C48_pointer_free_semantics _ _ _ _ _ _ _ _ _ HR E) as (m1' & Hp' & HR1).
    pose proof (eq_trans (eq_sym Hp') Hp) as X. injection X as -> -> ->. cbn [fst snd] in Hsp.
    pose proof (eval_grows f H1 GS _ _ _ _ _ E) as Hle. unfold grows in Hle. cbn [fst snd] in Hle. specialize (IH _ _ HR1 Hsp). lia.
  - cbn [eval] in Hsp. ok_inv Hsp. destruct a as [o1 [s1 g1']]. destruct (C48_pointer_free_semantics _ _ _ _ _ _ _ _ _ HR E) as (m1' & Hp' & HR1).
    pose proof (eq_trans (eq_sym Hp') (travels_run _ _ _ _ _ _ _ _ _ _ H)) as X. injection X as -> -> ->. eapply IH; [exact HR|exact E].
  - destruct (failed_both _ _ _ _ _ _ _ _ _ _ _ _ _ _ _ _ _ _ _ _ _ HR Hsp Hrun HF)
      as (m1b & s1 & sb & m2 & s2 & g2 & s3 & Ec & A1 & A2 & HR1 & B1 & B2 & HRb & _).
    pose proof (eq_trans (eq_sym A1) He) as X. injection X as ->. eapply IH; [exact HR1|exact B2].
Qed.

(** What is known while the exception is on its way. *)
Lemma travels_made its caught p m g x m' g' : travels G N its caught p m g x m' g' ->
  forall s s', R m s -> spec_run G caught p s g (OThrow x) s' g' ->
    cmem f NO s -> cid_ f (cur g) -> coexn f caught -> (forall n, (ngen g <= n < N)%nat -> g_sup G n <> f) ->
    cmem f (made G its) s' /\ cur g' = f.
Proof.
  pose proof f_mk as Hmk. pose proof f_nz as Hnz.
  assert (forall n, g_sup G n <> f -> cid_ f (g_sup G n)) as Hcl. { intros n Hn. unfold cid_. rewrite mk_good by apply Hg. done. }
  induction 1 as [its caught p m g x m1 g1 m' g' Hp Hfor Hcur HN Hcalm Hits Hrun
                 |its caught p k m g x m' g' H IH
                 |its caught p k m g r m1 g1 x m' g' Hp Hcalm H IH
                 |its its2 caught p m g x m1 g1 m' g' H IH Hits Hrun
                 |its caught k p hs m g c m1 mb gb ei caught' m3 g3 x m' g' He H IH HF Hn Hrun]; intros s s' HR Hsp Hm Hc Hca Hd.
  - cbn [eval] in Hsp. ok_inv Hsp. destruct a as [o1 [s1 g1']]. destruct (C48_pointer_free_semantics _ _ _ _ _ _ _ _ _ HR E) as (m1' & Hp' & HR1).
    pose proof (eq_trans (eq_sym Hp') Hp) as X. injection X as -> -> ->. cbn [fst snd] in Hsp. rewrite Hcur, Z.eqb_refl in Hsp. cbn [negb gnew] in Hsp.
    unfold gnew in Hsp. cbn [g_sup asserts_on] in Hsp. rewrite <- HN in Hsp. change (g_sup GS N) with f in Hsp. rewrite (proj2 (Z.eqb_neq f 0) Hnz) in Hsp. ok_inv Hsp. destruct a as [sa ga]. injection Hsp as -> ->.
    destruct (proj1 (eval_own f NO H1 Hmk GS Hdef (ngen g) (ngen g1) (fun n Hn => Hcl n (Hd n ltac:(lia)))) p caught (s, g) (OThrow x) (s1, g1) Hcalm Hca E) as (_ & Hm1 & _).
    { split; [done|]. split; [done|]. simpl. lia. }
    { unfold upto. simpl. lia. }
    eapply c_load_items in E0 as [Hm2 Hc2]; [split; [exact Hm2|exact Hc2]|done|by apply made_feeds|]. simpl. eapply cmem_mono; [|exact Hm1]. done.
  - cbn [eval] in Hsp. ok_inv Hsp. destruct a as [o1 [s1 g1]]. destruct (C48_pointer_free_semantics _ _ _ _ _ _ _ _ _ HR E) as (m1 & Hp' & HR1).
    pose proof (eq_trans (eq_sym Hp') (travels_run _ _ _ _ _ _ _ _ _ _ H)) as X. injection X as -> -> ->. cbn [fst snd] in Hsp. simplify_eq. eapply IH; eauto.
  - cbn [eval] in Hsp. ok_inv Hsp. destruct a as [o1 [s1 g1']]. destruct (C48_pointer_free_semantics _ _ _ _ _ _ _ _ _ HR E) as (m1' & Hp' & HR1).
    pose proof (eq_trans (eq_sym Hp') Hp) as X. injection X as -> -> ->. cbn [fst snd] in Hsp.
    assert (ngen g <= ngen g1)%nat as Hle by exact (eval_grows f H1 GS _ _ _ _ _ E).
    assert (ngen g1 <= N)%nat as HleN.
    { eapply travels_le; [exact H|exact HR1|exact Hsp]. }
    destruct (proj1 (eval_own f NO H1 Hmk GS Hdef (ngen g) (ngen g1) (fun n Hn => Hcl n (Hd n ltac:(lia)))) p caught (s, g) (ORet r) (s1, g1) Hcalm Hca E) as (_ & Hm1 & Hc1 & _).
    { split; [done|]. split; [done|]. simpl. lia. }
    { unfold upto. simpl. lia. }
    eapply (IH s1 s'); eauto. intros n Hn. apply Hd. lia.
  - cbn [eval] in Hsp. ok_inv Hsp. destruct a as [o1 [s1 g1']]. destruct (C48_pointer_free_semantics _ _ _ _ _ _ _ _ _ HR E) as (m1' & Hp' & HR1).
    pose proof (eq_trans (eq_sym Hp') (travels_run _ _ _ _ _ _ _ _ _ _ H)) as X. injection X as -> -> ->. cbn [fst snd] in Hsp.
    destruct (IH _ _ HR E Hm Hc Hca Hd) as [Hm1 Hc1]. rewrite Hc1 in Hsp.
    rewrite (proj2 (Z.eqb_neq f (cur g))) in Hsp; [|intros Ex; apply Hc; by rewrite <- Ex]. cbn [negb] in Hsp. rewrite (proj2 (Z.eqb_neq f 0) Hnz) in Hsp. ok_inv Hsp. simplify_eq.
    eapply c_load_items in E0 as [Hm2 Hc2]; [split; [exact Hm2|exact (eq_trans Hc2 Hc1)]|done|apply made_feeds; set_solver|]. simpl. eapply cmem_mono; [|exact Hm1].
    intros T v. apply made_mono. set_solver.
  - destruct (failed_both _ _ _ _ _ _ _ _ _ _ _ _ _ _ _ _ _ _ _ _ _ HR Hsp Hrun HF)
      as (m1b & s1 & sb & m2 & s2 & g2 & s3 & Ec & A1 & A2 & HR1 & B1 & B2 & HRb & C1 & C2 & HR2 & D & E1 & E2 & HR3 & o4 & m4 & s4 & g4 & F1 & F2 & HR4 & F3 & F4 & HR').
    pose proof (eq_trans (eq_sym A1) He) as X. injection X as ->.
    assert (cmem f NO s1) as Hm1.
    { unfold enter in A2. destruct (m_new _ _ _) as [c' sx] eqn:En. ok_inv A2. destruct a as [sa ga]. unfold on_mem in E. ok_inv E. simplify_eq. simpl in *.
      eapply c_act; [exact E0|]. eapply c_new; [exact En|done]. }
    destruct (IH _ _ HR1 B2 Hm1 Hc Hca Hd) as [Hmb Hcb].
    assert (m2 = mb /\ g2 = gb) as [-> ->] by (destruct k; simpl in C1; by injection C1 as <- <-).
    destruct (exn_detect _ _ _ _ _ _ _ _ _ _ E1) as (Eid & _ & _ & Ecur).
    assert (ei_id ei = f) as Ef.
    { rewrite Eid. destruct (travels_foreign _ _ _ _ _ _ _ _ _ _ H) as [X1 X2]. unfold exn_id, catch_info. rewrite X1, X2. destruct (x_std x); simpl; by rewrite Hcb, Hmk. }
    destruct (detect_split _ _ _ _ _ _ _ _ _ _ _ _ _ _ C2 E2) as (s2' & W & Hde & Hsame). rewrite (Hsame I) in Hde.
    pose proof (c_deact f _ _ _ _ Hde Hmb) as Hm3.
    destruct (failed_alive _ _ _ _ _ _ _ _ _ _ _ _ _ _ _ _ _ _ _ _ _ HR Hsp Hrun HF) as [(kk & Hk & _) _].
    destruct (evalH_both _ _ _ _ _ _ _ _ _ _ _ _ HR3 (ex_intro _ _ Hk) ltac:(by rewrite Ef) F2) as [(args & w & b & vs & m5 & s5 & (pre & post & K1 & K2 & K3) & _)|[_ Hun]].
    { unfold nobody in Hn. rewrite K1 in Hn. apply Forall_app in Hn as [_ Hn]. apply Forall_cons in Hn as [Hn _]. simpl in Hn. congruence. }
    unfold unhandled in Hun. apply unload_rethrow_inv in Hun as [-> Hun]. cbn [fst snd] in Hun.
    destruct (c_unload f (made G its) H1 GS _ _ _ _ _ _ Hm3 Hun) as [Hm4 Hg4].
    assert (sdestroy c s4 = Ok s' /\ g' = g4) as [Hdst ->]. { destruct k; simpl in F4; apply leave_inv in F4 as (_ & ? & ?); auto. }
    split; [by eapply c_destroy|]. destruct Hg4 as [-> | ->]; [by rewrite Ecur|exact Ef].
Qed.
End sp.

(** The scope which examines the exception: it takes it for error f; handlers and diagnostics get only objects which the on_errors it passed have loaded
    (beside the exception itself, converted), whatever errors occurred before. *)
Theorem C27_foreign_exception_objects_partial :
  forall G N its k caught p hs m g o m' g' c m1 x mx gx ob mb gb o2 ei caught' m3 g3,
    good_sup G -> g_sup G N <> 1 -> (forall T, cval (g_sup G N) (g_def G T)) ->
    runs G caught (PScope k p hs) m g o m' g' ->
    enter (pmach G) (deduce G hs) (m, g) = Ok (c, (m1, g)) ->
    travels G N its caught p m1 g x mx gx ->
    failed G k caught p hs m g c ob mb gb o2 ei caught' m3 g3 ->
    no_mention (g_sup G N) m -> (forall T v, ~ stored (g_sup G N) m T v) -> mk (cur g) <> g_sup G N -> coexn (g_sup G N) caught ->
    (forall n, (ngen g <= n < N)%nat -> g_sup G n <> g_sup G N) ->
    ei_id ei = g_sup G N /\
    (forall T v, obj G m3 c ei T = Some v -> made G its T v \/ from_exn G ei T = Some v) /\
    (forall l T v, (T, v) ∈ listing G m3 c ei l -> made G its T v).
Proof.
  intros G N its k caught p hs m g o m' g' c m1 x mx gx ob mb gb o2 ei caught' m3 g3 Hg H1 Hdef (Hl & s & s' & HR & HR' & Hsp) He Htr HF Hnm Hns Hcur Hca Hd.
  set (f := g_sup G N) in *.
  destruct (failed_both _ _ _ _ _ _ _ _ _ _ _ _ _ _ _ _ _ _ _ _ _ HR Hsp Hl HF)
    as (m1b & s1 & sb & m2 & s2 & g2 & s3 & Ec & A1 & A2 & HR1 & B1 & B2 & HRb & C1 & C2 & HR2 & D & E1 & E2 & HR3 & _).
  pose proof (eq_trans (eq_sym A1) He) as X. injection X as ->.
  pose proof (eq_trans (eq_sym B1) (travels_run _ _ _ _ _ _ _ _ _ _ Htr)) as X. injection X as -> -> ->.
  assert (cmem f (fun _ _ => False) s) as Hm.
  { apply (R_confined f _ _ _ HR). intros c0 T [key v] Hh. split; simpl; [|by eapply Hnm]. intros ->. eapply Hns. by exists c0. }
  assert (cmem f (fun _ _ => False) s1) as Hm1.
  { unfold enter in A2. destruct (m_new _ _ _) as [c' sx] eqn:En. ok_inv A2. destruct a as [sa ga]. unfold on_mem in E. ok_inv E. simplify_eq. simpl in *.
    eapply c_act; [exact E0|]. eapply c_new; [exact En|done]. }
  destruct (travels_made G N Hg H1 Hdef _ _ _ _ _ _ _ _ Htr _ _ HR1 B2 Hm1 Hcur Hca Hd) as [Hmb Hcb].
  assert (o2 = OThrow x /\ m2 = mx /\ g2 = gx) as (-> & -> & ->) by (destruct k; simpl in C1; by injection C1 as <- <- <-).
  destruct (exn_detect _ _ _ _ _ _ _ _ _ _ E1) as (Eid & _).
  assert (ei_id ei = f) as Ef.
  { rewrite Eid. destruct (travels_foreign _ _ _ _ _ _ _ _ _ _ Htr) as [X1 X2]. unfold exn_id, catch_info. rewrite X1, X2.
    destruct (x_std x); simpl; rewrite Hcb; apply mk_good, Hg. }
  destruct (detect_split _ _ _ _ _ _ _ _ _ _ _ _ _ _ C2 E2) as (s2' & W & Hde & Hsame). rewrite (Hsame I) in Hde.
  pose proof (c_deact f _ _ _ _ Hde Hmb) as Hm3. apply (R_confined f _ _ _ HR3) in Hm3.
  assert (forall T v, sees (ei_id ei) (held m3 c T) = Some v -> made G its T v) as Hsee.
  { intros T v Hs. rewrite Ef in Hs. destruct (held m3 c T) as [[key w]|] eqn:Hh; [|done]. simpl in Hs. destruct (Z.eqb_spec key f) as [->|]; [|done]. injection Hs as ->.
    by apply (Hm3 _ _ _ Hh). }
  split; [done|]. split.
  - intros T v. unfold obj. destruct (decide _); [|auto]. destruct (sees _ _) eqn:Es; [|auto]. intros Hv. injection Hv as <-. left. by apply Hsee.
  - intros l T v Hin. unfold listing in Hin. apply elem_of_list_omap in Hin as (T' & _ & Hin). destruct (sees _ _) eqn:Es; [|done]. destruct (g_show G T'); [|done].
    injection Hin as <- <-. by apply Hsee.
Qed.
Print Assumptions C27_foreign_exception_objects_partial.

(** As before, but this time with on_errors: the object left by the earlier error is not passed. *)
Definition ex27_throw : prog := PThrowX (XSpec true [T_STDEX] 9 None None).
Definition ex27_its : list item := [IVal TC (VZ 5)].
Definition ex27_its2 : list item := [IVal TC (VZ 6); IAcc TA 0 (fun v => match v with VZ z => VZ (z + 7) | v => v end)].
Definition ex27_on : prog := POnError ex27_its2 (POnError ex27_its ex27_throw).
Definition ex27_body : prog := PBind ex27_inner (fun _ => ex27_on).
Definition ex27_hs : handlers := HCons [AE TB] (fun _ => PRet (RVal 1)) (HCons [AE TC; AE TA; ADiag] (fun _ => PRet (RVal 2)) (HCons [] (fun _ => PRet (RVal 3)) HNil)).
Lemma ex27_its2_ok : Forall (citem 9) ex27_its2.
Proof. constructor; [exact I|]. constructor; [|constructor]. intros v Hv. destruct v; exact Hv. Qed.
Lemma ex27_inner_calm : calm 9 ex27_inner.
Proof. cbn. split; [split; [do 2 (constructor; [exact I|]); constructor|intros id Hid; exact Hid]|]. split; [|split; [|exact I]]; intros l _; (split; [constructor|exact I]). Qed.

Lemma step_ex p m s g o g' : R m s ->
  match eval (asserts_on GX) (smach (asserts_on GX)) None p (s, g) with Ok (o, (_, g')) => Some (o, g') | _ => None end = Some (o, g') ->
  exists m' s', lib_run GX None p m g o m' g' /\ spec_run GX None p s g o s' g' /\ R m' s'.
Proof.
  intros HR H. destruct (eval _ _ _ _ _) as [[o' [s' g2]]|] eqn:E; [|done]. injection H as -> ->.
  destruct (C48_pointer_free_semantics _ _ _ _ _ _ _ _ _ HR E) as (m' & H & HR'). eauto 10.
Qed.

Local Notation ex27_m1 := (entered (deduce GX ex27_hs) mem0).
Local Notation ex27_s1 := (entered_s (deduce GX ex27_hs) smem0).
Example ex27 : exists x mx gx o m' g' c ob mb gb o2 ei caught' m3 g3,
  g_sup GX 1 = 9 /\
  travels GX 1 (ex27_its ++ ex27_its2) None ex27_body ex27_m1 glob0 x mx gx /\
  enter (pmach GX) (deduce GX ex27_hs) (mem0, glob0) = Ok (c, (ex27_m1, glob0)) /\
  runs GX None (PTC ex27_body ex27_hs) mem0 glob0 o m' g' /\
  failed GX KCatch None ex27_body ex27_hs mem0 glob0 c ob mb gb o2 ei caught' m3 g3 /\
  no_mention 9 mem0 /\ (forall T v, ~ stored 9 mem0 T v) /\ (forall n, (0 <= n < 1)%nat -> g_sup GX n <> 9) /\
  o = ORet (RVal 2) /\ held m3 c TB = Some (5, VZ 2) /\ obj GX m3 c ei TB = None /\ obj GX m3 c ei TC = Some (VZ 5) /\ obj GX m3 c ei TA = Some (VZ 7).
Proof.
  destruct (entered_R (deduce GX ex27_hs) _ _ (deduce_nodup GX ex27_hs) R0) as [HR1 [c Ent]].
  assert (exists x mx gx, travels GX 1 (ex27_its ++ ex27_its2) None ex27_body ex27_m1 glob0 x mx gx) as (x & mx & gx & Htr).
  { unfold ex27_body.
    edestruct (step_ex ex27_body ex27_m1 ex27_s1 glob0) as (mz & sz & LZ & SZ & HRZ); [exact HR1|vm_compute; reflexivity|].
    edestruct (step_ex ex27_inner ex27_m1 ex27_s1 glob0) as (m2 & s2 & L1 & S1 & HR2); [exact HR1|vm_compute; reflexivity|].
    assert (lib_run GX None ex27_on m2 (Glob 5 1 0 [] []) (OThrow (Exn 0 true [3%nat] 9 None None None)) mz (Glob 9 2 1 [] [EvAcc 0])) as L2.
    { refine (eq_trans _ LZ). unfold ex27_body. cbn [eval]. by rewrite L1. }
    assert (exists my, lib_run GX None (POnError ex27_its ex27_throw) m2 (Glob 5 1 0 [] []) (OThrow (Exn 0 true [3%nat] 9 None None None)) my (Glob 9 2 1 [] [])) as [my L3].
    { edestruct (step_ex (POnError ex27_its ex27_throw) m2 s2 (Glob 5 1 0 [] [])) as (my & sy & L3 & _ & _); [exact HR2| |by exists my].
      assert (match eval (asserts_on GX) (smach (asserts_on GX)) None ex27_inner (ex27_s1, glob0) with Ok (_, (s, g)) =>
               match eval (asserts_on GX) (smach (asserts_on GX)) None (POnError ex27_its ex27_throw) (s, g) with Ok (o, (_, g')) => Some (o, g') | _ => None end | _ => None end =
              Some (OThrow (Exn 0 true [3%nat] 9 None None None), Glob 9 2 1 [] [])) as X by (vm_compute; reflexivity).
      rewrite S1 in X. exact X. }
    exists (Exn 0 true [3%nat] 9 None None None), mz, (Glob 9 2 1 [] [EvAcc 0]).
    apply (tv_then GX 1 _ None ex27_inner (fun _ => ex27_on) _ _ (RVal 0) m2 (Glob 5 1 0 [] []) _ _ _ L1 ex27_inner_calm).
    apply (tv_on_error GX 1 ex27_its ex27_its2 None (POnError ex27_its ex27_throw) m2 (Glob 5 1 0 [] []) _ my (Glob 9 2 1 [] []) mz _); [|exact ex27_its2_ok|exact L2].
    apply (tv_start GX 1 ex27_its None ex27_throw m2 (Glob 5 1 0 [] []) _ m2 (Glob 5 1 1 [] []) my _); [|by split|..|exact L3].
    - cbn. reflexivity.
    - reflexivity.
    - reflexivity.
    - cbn. repeat split; exact I.
    - constructor; [exact I|constructor]. }
  edestruct (scope_ex GX KCatch ex27_body ex27_hs mem0 smem0 glob0
    (fun o m' c o2 ei m3 => o = ORet (RVal 2) /\ held m3 c TB = Some (5, VZ 2) /\ obj GX m3 c ei TB = None /\ obj GX m3 c ei TC = Some (VZ 5) /\ obj GX m3 c ei TA = Some (VZ 7)))
    as (o & m' & g' & c' & ob & mb & gb & o2 & ei & caught' & m3 & g3 & Hr & HF & HP); [exact R0|vm_compute; reflexivity|].
  assert (c' = c) as ->. { pose proof HF as (m1a & _ & _ & F1 & _). pose proof (eq_trans (eq_sym Ent) F1) as X. by injection X. }
  exists x, mx, gx, o, m', g', c, ob, mb, gb, o2, ei, caught', m3, g3. do 5 (split; [done|]).
  assert (forall c T, held mem0 c T = None) as Hn by (intros c0 T0; apply held_dead, lookup_empty).
  split; [intros ? ? ? ?; by rewrite Hn|]. split; [intros T v [c0 Hc0]; by rewrite Hn in Hc0|]. split; [|exact HP]. intros n Hn'. by assert (n = 0%nat) as -> by lia.
Qed.

(** ** Exceptions of types derived from error_id
    A new error is started, with these items, then n others; then an exception that carries the first one's id is thrown, not through LEAF. *)
Fixpoint others (n : nat) (p : prog) : prog := match n with O => p | S n => PNewError [] (fun _ => others n p) end.
Definition thrown_eid (G : cfg) (cls : list nat) (z : Z) (its : list item) (id : Z) (caught : option exn) (p : prog) (m : mem) (g : glob) (x : exn) (m' : mem) (g' : glob) : Prop :=
  (exists n, p = PNewError its (fun i => others n (PThrowX (XSpec true cls z None (Some i))))) /\ id = g_sup G (ngen g) /\ usable m /\ Forall (fun it => fine G m (id, it)) its /\
  forall T c, active m c -> sees id (held m c T) = None.

Lemma others_run G M caught p n (m : mst M) g : exists g', eval G M caught (others n p) (m, g) = eval G M caught p (m, g').
Proof.
  revert g. induction n as [|n IH]; intros g; [by exists g|]. cbn [others eval]. unfold gnew, id_load. cbn [fst snd].
  destruct (_ =? 0); cbn [rbind load_items]; apply IH.
Qed.
Lemma thrown_eid_run G caught cls z n its m g x m' g' :
  lib_run G caught (PNewError its (fun i => others n (PThrowX (XSpec true cls z None (Some i))))) m g (OThrow x) m' g' ->
  (exists g1, id_load (pmach G) (mk (g_sup G (ngen g))) its (m, snd (gnew G g)) = Ok (m', g1)) /\ x_std x = true /\ x_leaf x = None /\ x_eid x = Some (mk (g_sup G (ngen g))).
Proof.
  intros H. cbn [eval] in H. unfold gnew in H. cbn [fst snd] in H. ok_inv H. destruct a as [m1 g1].
  destruct (others_run G (pmach G) caught (PThrowX (XSpec true cls z None (Some (mk (g_sup G (ngen g)))))) n m1 g1) as [g2 E2]. rewrite E2 in H. cbn [eval] in H.
  unfold throw_plain in H. injection H as <- <- _. split; [by exists g1|done].
Qed.
Lemma thrown_eid_placed G cls z its id : good_sup G -> forall caught p m g x m' g',
  runs G caught p m g (OThrow x) m' g' -> thrown_eid G cls z its id caught p m g x m' g' -> exn_id x g' = id /\ placed id (final its) m'.
Proof.
  intros Hg caught p m g x m' g' [H (s & s' & HR & HR' & _)] ([n ->] & -> & Hu & HF & Hfresh). pose proof (Hg (ngen g)) as Hid.
  destruct (load_all G false (g_sup G (ngen g)) its (good_nz _ Hid) m s (snd (gnew G g)) HR Hu HF) as (m1 & s1 & g1 & E & HR1 & _ & L).
  destruct (thrown_eid_run _ _ _ _ _ _ _ _ _ _ _ H) as ([g2 E0] & X1 & X2 & X3). rewrite (mk_good _ Hid) in *.
  unfold id_load in E0. rewrite (proj2 (Z.eqb_neq _ 0) (good_nz _ Hid)) in E0. pose proof (eq_trans (eq_sym E0) E) as E'. injection E' as -> _.
  split; [unfold exn_id, catch_info; by rewrite X1, X2, X3|]. exact (placed_loads _ _ _ _ _ _ _ _ HR L Hfresh).
Qed.

Theorem C25_exception_derived_from_error_id :
  forall G cls z its id k caught p hs m g o m' g' c m1 ob mb gb o2 ei caught' m3 g3 x mx gx,
    good_sup G ->
    runs G caught (PScope k p hs) m g o m' g' ->
    enter (pmach G) (deduce G hs) (m, g) = Ok (c, (m1, g)) ->
    escapes G (thrown_eid G cls z its id) caught p m1 g x mx gx ->
    failed G k caught p hs m g c ob mb gb o2 ei caught' m3 g3 ->
    ei_id ei = id /\ ei_ex ei = Some x /\ caught' = Some x /\
    forall T v, T ∈ members m3 c -> final its T v -> obj G m3 c ei T = Some v.
Proof.
  intros G cls z its id k caught p hs m g o m' g' c m1 ob mb gb o2 ei caught' m3 g3 x mx gx Hg Hr He Hesc HF.
  assert (Z.land id 3 = 1 /\ x_std x = true) as [Hid Hs].
  { clear - Hesc Hg. induction Hesc as [caught p m g x m' g' [H _] ([n ->] & -> & _)| | |]; auto. split; [apply Hg|]. by apply thrown_eid_run in H as (_ & ? & _). }
  destruct (escapes_scope G _ id _ k _ _ _ _ _ _ _ _ _ _ _ _ _ _ _ _ _ _ _ _ _ (mk_good _ Hid) (good_nz _ Hid) (thrown_eid_placed G cls z its id Hg) Hr He Hesc HF) as (_ & E1 & E2 & E3 & E4).
  rewrite Hs in E2. done.
Qed.
Print Assumptions C25_exception_derived_from_error_id.

(** Thrown and handled. *)
Definition ex25_eid : prog := PNewError [IVal TA (VZ 3)] (fun i => PNewError [] (fun _ => PThrowX (XSpec true [T_STDEX] 9 None (Some i)))).
Definition ex25_eid_hs : handlers := HCons [AE TA] (fun _ => PRet (RVal 2)) (HCons [] (fun _ => PRet (RVal 1)) HNil).
Local Notation ex25_eid_m1 := (entered (deduce GX ex25_eid_hs) mem0).
Example ex25_derived : exists x mx gx o m' g' c ob mb gb o2 ei caught' m3 g3,
  escapes GX (thrown_eid GX [T_STDEX] 9 [IVal TA (VZ 3)] 5) None ex25_eid ex25_eid_m1 glob0 x mx gx /\
  enter (pmach GX) (deduce GX ex25_eid_hs) (mem0, glob0) = Ok (c, (ex25_eid_m1, glob0)) /\
  runs GX None (PTC ex25_eid ex25_eid_hs) mem0 glob0 o m' g' /\
  failed GX KCatch None ex25_eid ex25_eid_hs mem0 glob0 c ob mb gb o2 ei caught' m3 g3 /\
  o = ORet (RVal 2) /\ ei_id ei = 5 /\ TA ∈ members m3 c /\ obj GX m3 c ei TA = Some (VZ 3).
Proof.
  destruct (entered_R (deduce GX ex25_eid_hs) _ _ (deduce_nodup GX ex25_eid_hs) R0) as [HR1 [c Ent]].
  edestruct (step_ex ex25_eid ex25_eid_m1 (entered_s (deduce GX ex25_eid_hs) smem0) glob0) as (mz & sz & LZ & SZ & HRZ); [exact HR1|vm_compute; reflexivity|].
  edestruct (scope_ex GX KCatch ex25_eid ex25_eid_hs mem0 smem0 glob0
    (fun o m' c o2 ei m3 => o = ORet (RVal 2) /\ ei_id ei = 5 /\ TA ∈ members m3 c /\ obj GX m3 c ei TA = Some (VZ 3)))
    as (o & m' & g' & c' & ob & mb & gb & o2 & ei & caught' & m3 & g3 & Hr & HF & HP); [exact R0|vm_compute; reflexivity|].
  assert (c' = c) as ->. { pose proof HF as (m1a & _ & _ & F1 & _). pose proof (eq_trans (eq_sym Ent) F1) as X. by injection X. }
  eexists _, _, _, o, m', g', c, ob, mb, gb, o2, ei, caught', m3, g3. split; [|do 3 (split; [done|]); exact HP].
  constructor; [exact (runs_intro _ _ _ _ _ _ _ _ _ _ HR1 LZ SZ)|]. split; [exists 1%nat; reflexivity|]. split; [reflexivity|]. split; [|split].
  - intros c0 d H. vm_compute in H. discriminate H.
  - repeat constructor; done.
  - intros T c0 _. rewrite (none_held _ _ HR1); [done|]. apply (bool_decide_unpack _). vm_compute. exact I.
Qed.
