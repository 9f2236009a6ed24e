(** C47: diagnostic_details and the objects of an error. *)
From Verif Require Export PropsForeign PropsMp11 PropsTryEx.
Open Scope Z_scope.

(** ** The objects of an error *)
Definition objs : Type := ety -> option val.
Definition none : objs := fun _ => None.
Definition put1 (P : objs) (T : ety) (v : val) : objs := fun T' => if decide (T' = T) then Some v else P T'.
(** Loading replaces an object of the same type; on_error does not. *)
Definition store1 (onerr : bool) (P : objs) (T : ety) (v : val) : objs := if onerr then match P T with Some _ => P | None => put1 P T v end else put1 P T v.
Fixpoint stores (onerr : bool) (P : objs) (l : list (ety * val)) : objs :=
  match l with [] => P | (T, v) :: l => stores onerr (store1 onerr P T v) l end.
Definition vals (l : list (ety * val)) : list item := map (fun x => IVal (fst x) (snd x)) l.

Definition fresh (id : Z) (m : mem) : Prop := forall T c, active m c -> sees id (held m c T) = None.

(** How an error reaches a scope: p reports error id, having loaded the objects P for it. It is made by new_error or thrown; more objects are
    loaded for it, or added by on_error; it is returned or propagates from calls, possibly made after other things were done; scopes
    examine it and do not handle it. *)
Inductive reports (G : cfg) (id : Z) : objs -> option exn -> prog -> mem -> glob -> out -> mem -> glob -> Prop :=
| rp_new l caught m g o m' g' :
    id = g_sup G (ngen g) -> fresh id m ->
    runs G caught (PNewError (vals l) (fun i => PRet (RErr i))) m g o m' g' ->
    reports G id (stores false none l) caught (PNewError (vals l) (fun i => PRet (RErr i))) m g o m' g'
| rp_throw l xs caught m g o m' g' :
    id = g_sup G (ngen g) -> fresh id m ->
    runs G caught (PThrow None xs (vals l)) m g o m' g' ->
    reports G id (stores false none l) caught (PThrow None xs (vals l)) m g o m' g'
| rp_load P l caught p k m g m1 g1 o m' g' :
    reports G id P caught p m g (ORet (RErr id)) m1 g1 -> k (RErr id) = PLoad id (vals l) (PRet (RErr id)) ->
    runs G caught (k (RErr id)) m1 g1 o m' g' ->
    reports G id (stores false P l) caught (PBind p k) m g o m' g'
| rp_on_error P l caught p m g o m1 g1 m' g' :
    reports G id P caught p m g o m1 g1 -> cur g <> id ->
    runs G caught (POnError (vals l) p) m g o m' g' ->
    reports G id (stores true P l) caught (POnError (vals l) p) m g o m' g'
| rp_pass P caught p k m g m' g' :
    reports G id P caught p m g (ORet (RErr id)) m' g' -> k (RErr id) = PRet (RErr id) ->
    reports G id P caught (PBind p k) m g (ORet (RErr id)) m' g'
| rp_first P caught p k m g x m' g' :
    reports G id P caught p m g (OThrow x) m' g' -> reports G id P caught (PBind p k) m g (OThrow x) m' g'
| rp_then P caught p k m g r m1 g1 o m' g' :
    runs G caught p m g (ORet r) m1 g1 -> reports G id P caught (k r) m1 g1 o m' g' ->
    reports G id P caught (PBind p k) m g o m' g'
| rp_scope P caught k p hs m g c m1 mb gb ei caught' m3 g3 o m' g' :
    enter (pmach G) (deduce G hs) (m, g) = Ok (c, (m1, g)) ->
    reports G id P caught p m1 g o mb gb ->
    failed G k caught p hs m g c o mb gb o ei caught' m3 g3 -> nobody G m3 c ei hs ->
    runs G caught (PScope k p hs) m g o m' g' ->
    reports G id P caught (PScope k p hs) m g o m' g'.

(** ** Proofs *)
(** The objects P of error id are in the contexts which serve their types. *)
Definition kept (id : Z) (P : objs) (m : mem) : Prop :=
  (forall T c, serves m T c -> sees id (held m c T) = P T) /\
  (forall T c, active m c -> ~ serves m T c -> sees id (held m c T) = None) /\
  (forall T, P T <> None -> exists c, serves m T c).

Lemma fresh_kept id m s : R m s -> fresh id m -> kept id none m.
Proof. intros HR H. split; [|split; [|done]]; intros T c Hc; [|intros _; by apply H]. apply H. by eapply serves_active. Qed.

Lemma store1_spec onerr P T v T' : store1 onerr P T v T' =
  if decide (T' = T) then match P T with Some w => if onerr then Some w else Some v | None => Some v end else P T'.
Proof.
  unfold store1, put1. destruct onerr; [destruct (P T) eqn:E|].
  - destruct (decide (T' = T)) as [-> | ?]; done.
  - done.
  - destruct (decide (T' = T)); [|done]. by destruct (P T).
Qed.

Lemma load_kept G onerr id P T v m s g m1 s1 g1 : id <> 0 -> g_capture G = true -> tlsd m <> None -> R m s -> R m1 s1 ->
  loaded G onerr id (IVal T v) m g m1 g1 -> kept id P m -> kept id (store1 onerr P T v) m1.
Proof.
  intros Hnz Hcap Hd HR HR1 L (K1 & K2 & K3).
  assert (forall c, active m1 c -> active m c) as Hact. { intros c H. unfold active in *. by rewrite (ld_ctxs _ _ _ _ _ _ _ _ L) in H. }
  assert (forall c, serves m T c -> (skipped onerr id (IVal T v) m <-> onerr = true /\ P T <> None)) as Hsk.
  { intros c Hs. simpl. by rewrite (serves_visible _ _ _ Hs), (K1 _ _ Hs). }
  assert (forall T' c, T' <> T -> held m1 c T' = held m c T') as Ho.
  { intros T' c Hne. apply (ld_old _ _ _ _ _ _ _ _ L). simpl. intros [= <-]. done. }
  split; [|split].
  - intros T' c Hs. rewrite store1_spec. destruct (decide (T' = T)) as [-> |Hne].
    + apply (ld_serves _ _ _ _ _ _ _ _ L) in Hs as [Hs|[_ Hs]].
      * destruct (decide (onerr = true /\ P T <> None)) as [Hk|Hk].
        -- rewrite (ld_old _ _ _ _ _ _ _ _ L); [|intros _ [[_ X]|X]; [by apply X, (Hsk _ Hs)|by apply (serves_not_unserved _ _ _ Hs), X]].
           rewrite (K1 _ _ Hs). destruct Hk as [-> Hk]. by destruct (P T).
        -- rewrite (ld_new _ _ _ _ _ _ _ _ L c T v); [|done|done|left; split; [done|by rewrite (Hsk _ Hs)]].
           simpl. rewrite Z.eqb_refl. destruct (P T); [|done]. destruct onerr; [|done]. exfalso. by apply Hk.
      * assert (P T = None) as ->. { destruct (P T) eqn:E; [|done]. destruct (K3 T) as [c' Hc']; [congruence|]. exfalso. by apply (serves_not_unserved _ _ _ Hc'), Hs. }
        rewrite (ld_new _ _ _ _ _ _ _ _ L c T v); [|done|done|by right]. simpl. by rewrite Z.eqb_refl.
    + rewrite Ho by done. apply K1. apply (ld_serves _ _ _ _ _ _ _ _ L) in Hs as [Hs|[[= <-] _]]; done.
  - intros T' c Hc Hs. rewrite (ld_serves _ _ _ _ _ _ _ _ L) in Hs. rewrite (ld_old _ _ _ _ _ _ _ _ L).
    + apply K2; [eauto|tauto].
    + simpl. intros [= <-] [[X _]|X]; apply Hs; [by left|right; split; [done|exact X]].
  - intros T' Hp. rewrite store1_spec in Hp. destruct (decide (T' = T)) as [-> |Hne].
    + destruct (decide (unserved m T)) as [Hu|Hu].
      * destruct (tlsd m) as [d|] eqn:Ed; [|done]. exists d. apply (ld_serves _ _ _ _ _ _ _ _ L). right. done.
      * destruct (not_unserved _ _ _ HR Hu) as [c Hc]. exists c. apply (ld_serves _ _ _ _ _ _ _ _ L). by left.
    + destruct (K3 T' Hp) as [c Hc]. exists c. apply (ld_serves _ _ _ _ _ _ _ _ L). by left.
Qed.

Lemma loads_kept G onerr id l : id <> 0 -> g_capture G = true -> forall P m g m' g',
  tlsd m <> None -> loaded_all G onerr id (vals l) m g m' g' -> kept id P m -> kept id (stores onerr P l) m' /\ cur g' = cur g.
Proof.
  intros Hnz Hcap. induction l as [|[T v] l IH]; intros P m g m' g' Hd H HK.
  - inversion H; subst. done.
  - inversion H as [|? ? ? ? m1 g1 ? ? L [s HR] [s1 HR1] H']; subst. simpl.
    destruct (IH (store1 onerr P T v) m1 g1 m' g') as [A B].
    + by rewrite (ld_tlsd _ _ _ _ _ _ _ _ L).
    + done.
    + by eapply load_kept.
    + split; [done|]. rewrite B. by destruct (ld_quiet _ _ _ _ _ _ _ _ L).
Qed.
Lemma vals_fine G m id l : id <> 0 -> Forall (fun it => fine G m (id, it)) (vals l).
Proof. intros H. unfold vals. apply Forall_fmap, Forall_forall. intros [T v] _. done. Qed.

(** Loading succeeds, in the library. *)
Lemma load_vals G onerr id l P m s g m' g' : id <> 0 -> g_capture G = true -> R m s -> healthy m -> tlsd m <> None ->
  load_items (pmach G) onerr id (vals l) (m, g) = Ok (m', g') -> kept id P m -> kept id (stores onerr P l) m' /\ cur g' = cur g.
Proof.
  intros Hnz Hcap HR Hh Hd E HK.
  assert (usable m) as Hu. { apply (R_usable _ _ HR), aok_dok. by apply (R_healthy _ _ HR). }
  destruct (load_all G onerr id (vals l) Hnz m s g HR Hu (vals_fine _ _ _ _ Hnz)) as (m1 & s1 & g1 & E' & _ & _ & L).
  pose proof (eq_trans (eq_sym E') E) as X. injection X as -> ->. by eapply loads_kept.
Qed.

Lemma runs_tlsd G caught p m g o m' g' : runs G caught p m g o m' g' -> tlsd m' = tlsd m.
Proof.
  intros (_ & s & s' & HR & HR' & H). apply (proj1 (eval_wb _)) in H. simpl in H.
  rewrite (R_tlsd_find _ _ HR), (R_tlsd_find _ _ HR'). apply same_find_d; [by eapply R_wf|]. apply wb_same; [done|by eapply R_wf].
Qed.
Lemma enter_fine G hs m s g c m1 : R m s -> healthy m -> enter (pmach G) (deduce G hs) (m, g) = Ok (c, (m1, g)) ->
  (exists s1, R m1 s1) /\ healthy m1 /\ tlsd m1 = (if bool_decide (SDA ∈ deduce G hs) then Some c else tlsd m).
Proof.
  intros HR Hh He. destruct (enter_both G (deduce G hs) m s g (deduce_nodup G hs) HR) as (s1 & m1' & A1 & A2 & HR1 & S1 & S2 & S3).
  pose proof (eq_trans (eq_sym A2) He) as X. injection X as <- ->. split; [by exists s1|].
  destruct (wf_fresh _ (R_wf _ _ HR)) as [Hf1 Hf2]. split.
  - apply (R_healthy _ _ HR1). apply (R_healthy _ _ HR) in Hh. intros c Hc a q. rewrite S2. rewrite S1 in Hc. destruct (decide (c = snc s)) as [->|Hne].
    + rewrite lookup_insert. intros. by simplify_eq.
    + rewrite lookup_insert_ne by done. apply elem_of_cons in Hc as [?|Hc]; [done|]. by apply Hh.
  - rewrite (R_tlsd_find _ _ HR), (R_tlsd_find _ _ HR1). unfold find_d. rewrite S1, S2. simpl. rewrite lookup_insert. unfold has_d at 1. simpl.
    destruct (bool_decide (SDA ∈ deduce G hs)); [done|]. by rewrite find_ctx_inactive.
Qed.

(** The error leaves a scope unhandled. *)
Lemma unhandled_kept G k caught p hs m g c mb gb o ei caught' m3 g3 m' g' id P :
  g_capture G = true -> tlsd m <> None ->
  runs G caught (PScope k p hs) m g o m' g' -> healthy m ->
  failed G k caught p hs m g c o mb gb o ei caught' m3 g3 -> direct o -> ei_id ei = id -> id <> 0 -> nobody G m3 c ei hs ->
  kept id P mb -> kept id P m'.
Proof.
  intros Hcap Htl Hr Hh HF Hdir Eid Hnz Hn (K1 & K2 & K3). pose proof Hr as (Hl & s & s' & HR & HR' & Hspec).
  destruct (failed_both _ _ _ _ _ _ _ _ _ _ _ _ _ _ _ _ _ _ _ _ _ HR Hspec Hl HF)
    as (m1b & s1 & sb & m2 & s2 & g2 & s3 & Ec & A1 & A2 & HR1 & B1 & B2 & HRb & C1 & C2 & HR2 & D & E1 & E2 & HR3 & _).
  destruct (enter_both G (deduce G hs) m s g (deduce_nodup G hs) HR) as (s1' & m1a & A1' & A2' & _ & S1 & S2 & S3).
  assert (s1' = s1) as -> by (rewrite <- Ec in A1'; pose proof (eq_trans (eq_sym A2) A1') as X; by injection X).
  destruct (detect_split _ _ _ _ _ _ _ _ _ _ _ _ _ _ C2 E2) as (s2' & W & Hd & Hsame). rewrite (Hsame Hdir) in Hd.
  pose proof (deact_popped _ _ _ _ _ HRb HR3 Hd) as PP.
  destruct (C09_unhandled_error_carries_objects_out _ _ _ _ _ _ _ _ _ _ _ _ _ _ _ _ _ _ _ Hr Hh HF) as (_ & Hctx & Hmv); [by rewrite Eid|done|by intros cat v ->|].
  rewrite Eid in Hmv.
  assert (stack s3 = stack s /\ stack s' = stack s3 /\ forall c, c ∈ stack s3 -> members m' c = members m3 c) as (Es3 & Hst & Hmem).
  { pose proof (wb_same _ _ (proj1 (eval_wb _) _ _ _ _ _ B2) (R_wf _ _ HR1)) as Hsm. simpl in Hsm.
    apply sdeact_inv in Hd as (D1 & D2 & D3).
    assert (stack s3 = stack s) as Es3. { rewrite (sm_stack _ _ Hsm), S1 in D1. by injection D1. }
    pose proof (wb_same _ _ (proj1 (eval_wb _) _ _ _ _ _ Hspec) (R_wf _ _ HR)) as Hsm'. simpl in Hsm'.
    split; [done|]. split; [by rewrite (sm_stack _ _ Hsm'), Es3|]. intros c0 Hc0. rewrite Es3 in Hc0.
    destruct (R_in _ _ HR c0 Hc0) as [a Ha]. unfold members. rewrite (R_ctxs _ _ c0 HR'), (R_ctxs _ _ c0 HR3).
    destruct (sm_tup _ _ Hsm' _ _ Ha) as (a' & Ha' & Ht'). rewrite Ha'.
    assert (c0 <> c) as Hne. { intros ->. rewrite Ec in Ha. destruct (wf_fresh _ (R_wf _ _ HR)) as [Hf _]. congruence. }
    destruct (sm_tup _ _ Hsm c0 a) as (a3 & Ha3 & Ht3); [rewrite S2, <- Ec, lookup_insert_ne by done; done|]. rewrite D2, Ha3. simpl. by rewrite Ht', Ht3. }
  assert (tlsd m3 <> None) as Htl3.
  { rewrite (R_tlsd_find _ _ HR3). rewrite (R_tlsd_find _ _ HR) in Htl. rewrite find_d_first in * by eauto using R_wf. rewrite Es3. intros X. apply Htl.
    rewrite <- X. apply first_of_ext. intros c0 Hc0.
    pose proof (wb_same _ _ (proj1 (eval_wb _) _ _ _ _ _ B2) (R_wf _ _ HR1)) as Hsm. simpl in Hsm. apply sdeact_inv in Hd as (D1 & D2 & D3).
    unfold hasD. rewrite D2. destruct (R_in _ _ HR c0 Hc0) as [a Ha].
    assert (c0 <> c) as Hne. { intros ->. rewrite Ec in Ha. destruct (wf_fresh _ (R_wf _ _ HR)) as [Hf _]. congruence. }
    destruct (sm_tup _ _ Hsm c0 a) as (a3 & Ha3 & Ht3); [rewrite S2, <- Ec, lookup_insert_ne by done; done|]. rewrite Ha, Ha3. unfold has_d. by rewrite Ht3. }
  assert (forall T c', serves m' T c' -> serves m3 T c' \/ (collects G m3 T c' /\ exists v, sees id (held m3 c T) = Some v /\ held m' c' T = Some (id, v))) as Hsv.
  { intros T c'. exact (moved_serves _ _ _ _ _ _ _ _ _ HR3 HR' Hst Hmem Hmv). }
  assert (forall T c', serves m3 T c' -> serves m' T c') as Hsv'.
  { intros T c'. exact (moved_serves_r _ _ _ _ _ _ _ _ _ HR3 HR' Hst Hmem Hmv). }
  assert (forall T c', active m' c' -> is_Some (held m' c' T) -> exists c1, serves m' T c1) as Hheld.
  { intros T c' Hac Hs. apply (not_unserved _ _ _ HR'). intros Hu. apply (R_unserved _ _ _ HR') in Hu. pose proof (find_e_first T s' (R_wf _ _ HR')) as F.
    rewrite Hu in F. symmetry in F. simpl in F. rewrite first_of_None in F. assert (c' ∈ stack s') as Hin by (by apply (R_active _ _ _ HR')).
    specialize (F c' Hin). rewrite (hasT_held _ _ _ _ HR' Hin) in F. apply orb_false_iff in F as [_ F]. by apply bool_decide_eq_false in F. }
  assert (forall c', active m3 c' -> active m' c') as Hac'. { intros c' H. apply (R_active _ _ _ HR'). rewrite Hst. by apply (R_active _ _ _ HR3). }
  assert (forall c', active m' c' -> active m3 c') as Hac3. { intros c' H. apply (R_active _ _ _ HR3). rewrite <- Hst. by apply (R_active _ _ _ HR'). }
  split; [|split].
  - intros T c' Hs. destruct (Hsv _ _ Hs) as [Hs3|(Hcol & v' & Hsee & Hh')].
    + pose proof (serves_active _ _ _ _ HR3 Hs3) as Hac. pose proof (Hmv c' T Hac) as Hx. cbv beta in Hx.
      destruct (pp_active _ _ _ PP _ Hac) as [Hab Hne].
      destruct (pp_serves _ _ _ PP _ _ Hs3) as [Hsb|Hsb].
      * assert (sees id (held m3 c T) = None) as En.
        { rewrite (pp_held _ _ _ PP). apply K2; [exact (pp_act _ _ _ PP)|]. intros Hc. by pose proof (serves_fun _ _ _ _ _ HRb Hc Hsb) as ->. }
        rewrite En in Hx. rewrite Hx, (pp_held _ _ _ PP). by apply K1.
      * rewrite (pp_held _ _ _ PP c T), (K1 _ _ Hsb) in Hx. 
        assert (sees id (held m3 c' T) = None) as En.
        { rewrite (pp_held _ _ _ PP). apply K2; [done|]. intros Hc. by pose proof (serves_fun _ _ _ _ _ HRb Hc Hsb) as ->. }
        destruct (P T) as [v|].
        -- destruct Hx as (Hx & _). rewrite (Hx Hs3), En. simpl. by rewrite Z.eqb_refl.
        -- by rewrite Hx.
    + rewrite Hh'. simpl. rewrite Z.eqb_refl. rewrite (pp_held _ _ _ PP) in Hsee. rewrite <- Hsee. apply K1. apply (pp_own _ _ _ PP). right.
      destruct (held mb c T); [eauto|done].
  - intros T c' Hac Hns. pose proof (Hmv c' T (Hac3 _ Hac)) as Hx. cbv beta in Hx.
    destruct (pp_active _ _ _ PP _ (Hac3 _ Hac)) as [Hab Hne].
    assert (held m' c' T = held m3 c' T) as ->.
    { destruct (sees id (held m3 c T)) as [w|] eqn:Es; [|done]. destruct Hx as (_ & X2 & X3). apply X3; [by intros Hs3; apply Hns, Hsv'|].
      intros (Y1 & Y2 & Y3). apply Hns. assert (held m' c' T = Some (id, w)) as Hw by (by apply X2).
      destruct (Hheld T c' Hac) as [c1 H1]; [by rewrite Hw|]. destruct (Hsv _ _ H1) as [H3|[(_ & _ & H3) _]]; [by apply serves_not_unserved in H3|].
      by assert (c1 = c') as <- by congruence. }
    rewrite (pp_held _ _ _ PP). apply K2; [done|]. intros Hsb. apply Hns, Hsv', (pp_serves' _ _ _ PP); done.
  - intros T HP. destruct (K3 T HP) as [c0 Hc0]. destruct (decide (c0 = c)) as [-> |Hne].
    + destruct (decide (unserved m3 T)) as [Hu|Hu].
      * destruct (tlsd m3) as [d|] eqn:Ed; [|done].
        assert (active m3 d) as Had.
        { rewrite (R_tlsd_find _ _ HR3) in Ed. destruct (find_d s3) as [[d' a]|] eqn:Ef; [|done]. injection Ed as ->. apply Frame.find_ctx_in in Ef as (? & _). by apply (R_active _ _ _ HR3). }
        pose proof (Hmv d T Had) as Hx. cbv beta in Hx. rewrite (pp_held _ _ _ PP c T), (K1 _ _ Hc0) in Hx. destruct (P T) as [v|]; [|done].
        destruct Hx as (_ & Hx & _). apply (Hheld T d); [auto|]. rewrite Hx by done. eauto.
      * destruct (not_unserved _ _ _ HR3 Hu) as [c1 H1]. eauto.
    + exists c0. apply Hsv', (pp_serves' _ _ _ PP); done.
Qed.

(** Which error an outcome reports. *)
Definition reported (id : Z) (o : out) (g : glob) : Prop := match o with ORet r => r = RErr id | OThrow x => exn_id x g = id end.
Lemma reported_direct id o g : reported id o g -> direct o.
Proof. destruct o as [r|x]; [intros ->|]; done. Qed.

(** The scope's view: the error is id, its objects are where the try block left them. *)
Lemma reported_scope G k caught p hs m g c o mb gb ei caught' m3 g3 o2 id : mk id = id -> reported id o gb ->
  failed G k caught p hs m g c o mb gb o2 ei caught' m3 g3 -> o2 = o /\ ei_id ei = id /\ (cur g3 = cur gb).
Proof.
  intros Hmk Hrep (m1 & m2 & g2 & F1 & F2 & F3 & F4 & F5). destruct o as [r|x]; simpl in Hrep.
  - subst r. assert (o2 = ORet (RErr id) /\ m2 = mb /\ g2 = gb) as (-> & -> & ->). { destruct k; simpl in F3; by injection F3 as <- <- <-. }
    split; [done|]. unfold detect in F5. cbn [err_id_of rbind fst snd] in F5. ok_inv F5. ok_inv F5. injection F5 as <- _ ->.
    unfold on_mem in E. cbn [fst snd] in E. ok_inv E. injection E as _ <-. simpl. by rewrite Hmk.
  - assert (o2 = OThrow x /\ m2 = mb /\ g2 = gb) as (-> & -> & ->). { destruct k; simpl in F3; by injection F3 as <- <- <-. }
    destruct (exn_detect _ _ _ _ _ _ _ _ _ _ F5) as (-> & _ & _ & ->). done.
Qed.

Lemma unhandled_cur G k caught p hs m g c mb gb o ei caught' m3 g3 m' g' id : ei_id ei = id -> mk id = id -> id <> 0 -> reported id o gb ->
  runs G caught (PScope k p hs) m g o m' g' -> failed G k caught p hs m g c o mb gb o ei caught' m3 g3 -> nobody G m3 c ei hs ->
  cur g3 = id -> cur g' = id.
Proof.
  intros Eid Hmk Hnz Hrep (Hl & s & s' & HR & HR' & Hspec) HF Hn Ecur.
  destruct (failed_full _ _ _ _ _ _ _ _ _ _ _ _ _ _ _ _ _ _ _ _ _ HR Hspec Hl HF) as (s3' & o4 & m4 & s4 & g4 & HR3' & HR4 & _ & F1 & F2 & F3); [by rewrite Eid|].
  destruct F3 as [(args & w & b & vs & m5 & s5 & (pre & post & K1 & K2 & K3) & _)|(_ & F4 & F5)].
  { unfold nobody in Hn. rewrite K1 in Hn. apply Forall_app in Hn as [_ Hn]. apply Forall_cons in Hn as [Hn _]. simpl in Hn. congruence. }
  destruct o as [r|x]; simpl in Hrep.
  - subst r. destruct k; simpl in F4; try done. injection F4 as <- <- <-. simpl in F1. unfold ths_end in F1. cbn [is_val err_id_of rbind fst snd] in F1.
    ok_inv F1. destruct a as [ma ga]. unfold leave in F1. ok_inv F1. injection F1 as ->. unfold on_mem in E0. ok_inv E0. injection E0 as _ <-. cbn [snd].
    destruct (mi_unl _ _ _ _ (pmach_inv G Fall) _ _ _ _ _ _ E (no_coll_all _)) as [_ [->|[_ ->]]]; done.
  - simpl in F4. unfold unload_rethrow in F4. ok_inv F4. injection F4 as <- F4. destruct a as [ma ga]. injection F4 as -> ->.
    assert (cur g4 = id) as E4. { destruct (mi_unl _ _ _ _ (pmach_inv G Fall) _ _ _ _ _ _ E (no_coll_all _)) as [_ [->|[_ ->]]]; done. }
    rewrite <- E4. f_equal. destruct k; simpl in F2; by apply leave_inv in F2 as (_ & _ & F2).
Qed.

Lemma reports_kept G id : good_sup G -> g_capture G = true -> Z.land id 3 = 1 -> forall P caught p m g o m' g',
  reports G id P caught p m g o m' g' -> healthy m -> tlsd m <> None ->
  lib_run G caught p m g o m' g' /\ healthy m' /\ tlsd m' = tlsd m /\ (exists s', R m' s') /\ kept id P m' /\ cur g' = id /\ reported id o g'.
Proof.
  intros Hgs Hcap Hid. pose proof (mk_good _ Hid) as Hmk. pose proof (good_nz _ Hid) as Hnz.
  induction 1 as [l caught m g o m' g' -> Hf Hr|l xs caught m g o m' g' -> Hf Hr|P l caught p k m g m1 g1 o m' g' H IH Hk Hr
    |P l caught p m g o m1 g1 m' g' H IH Hc Hr|P caught p k m g m' g' H IH Hk|P caught p k m g x m' g' H IH|P caught p k m g r m1 g1 o m' g' Hr H IH
    |P caught k p hs m g c m1 mb gb ei caught' m3 g3 o m' g' He H IH HF Hn Hr]; intros Hh Htl.
  - pose proof (runs_tlsd _ _ _ _ _ _ _ _ Hr) as Ht. pose proof Hr as (Hl & s & s' & HR & HR' & Hspec).
    split; [done|]. split; [by eapply healthy_preserved|]. split; [done|]. split; [eauto|].
    cbn [eval] in Hl. unfold gnew in Hl. simpl in Hl. unfold id_load in Hl. rewrite Hmk, (proj2 (Z.eqb_neq _ 0) Hnz) in Hl.
    ok_inv Hl. destruct a as [ma ga]. injection Hl as <- <- <-.
    destruct (load_vals _ _ _ _ _ _ _ _ _ _ Hnz Hcap HR Hh Htl E (fresh_kept _ _ _ HR Hf)) as [HK Hcur].
    split; [done|]. by rewrite Hcur.
  - pose proof (runs_tlsd _ _ _ _ _ _ _ _ Hr) as Ht. pose proof Hr as (Hl & s & s' & HR & HR' & Hspec).
    split; [done|]. split; [by eapply healthy_preserved|]. split; [done|]. split; [eauto|].
    cbn [eval] in Hl. unfold gnew in Hl. simpl in Hl. unfold id_load in Hl. rewrite Hmk, (proj2 (Z.eqb_neq _ 0) Hnz) in Hl.
    ok_inv Hl. destruct a as [ma ga]. unfold throw_leaf in Hl. simpl in Hl. injection Hl as <- <- <-.
    destruct (load_vals _ _ _ _ _ _ _ _ _ _ Hnz Hcap HR Hh Htl E (fresh_kept _ _ _ HR Hf)) as [HK Hcur].
    split; [done|]. simpl. by rewrite Hcur.
  - destruct (IH Hh Htl) as (Hl1 & Hh1 & Ht1 & _ & HK1 & Hc1 & _).
    pose proof (runs_tlsd _ _ _ _ _ _ _ _ Hr) as Ht. pose proof Hr as (Hl & s & s' & HR & HR' & Hspec).
    split; [cbn [eval]; eapply rb_ok; [exact Hl1|exact Hl]|]. split; [by eapply healthy_preserved|]. split; [by rewrite Ht|]. split; [eauto|].
    rewrite Hk in Hl. cbn [eval] in Hl. unfold id_load in Hl. rewrite (proj2 (Z.eqb_neq _ 0) Hnz) in Hl.
    ok_inv Hl. destruct a as [ma ga]. injection Hl as <- <- <-.
    destruct (load_vals _ _ _ _ _ _ _ _ _ _ Hnz Hcap HR Hh1 ltac:(by rewrite Ht1) E HK1) as [HK Hcur].
    split; [done|]. by rewrite Hcur.
  - destruct (IH Hh Htl) as (Hl1 & Hh1 & Ht1 & [s1 HR1] & HK1 & Hc1 & Hrep).
    pose proof (runs_tlsd _ _ _ _ _ _ _ _ Hr) as Ht. pose proof Hr as (Hl & s & s' & HR & HR' & Hspec).
    split; [done|]. split; [by eapply healthy_preserved|]. split; [done|]. split; [eauto|].
    cbn [eval] in Hl. rewrite Hl1 in Hl. cbn [rbind fst snd] in Hl. rewrite Hc1, (proj2 (Z.eqb_neq _ _)) in Hl by done. cbn [negb] in Hl.
    rewrite (proj2 (Z.eqb_neq _ 0) Hnz) in Hl. ok_inv Hl. destruct a as [ma ga]. injection Hl as <- <-.
    destruct (load_vals _ _ _ _ _ _ _ _ _ _ Hnz Hcap HR1 Hh1 ltac:(by rewrite Ht1) E HK1) as [HK Hcur].
    split; [done|]. split; [by rewrite Hcur|]. destruct o as [r|x]; [done|]. simpl in *. by rewrite (exn_id_cur x _ _ Hcur).
  - destruct (IH Hh Htl) as (Hl1 & ?). split; [|done]. cbn [eval]. eapply rb_ok; [exact Hl1|]. cbn. by rewrite Hk.
  - destruct (IH Hh Htl) as (Hl1 & ?). split; [|done]. cbn [eval]. eapply rb_ok; [exact Hl1|]. done.
  - pose proof (runs_tlsd _ _ _ _ _ _ _ _ Hr) as Ht. destruct IH as (Hl1 & Hh1 & Ht1 & IH); [by eapply healthy_preserved|by rewrite Ht|].
    split; [cbn [eval]; eapply rb_ok; [exact (proj1 Hr)|exact Hl1]|]. split; [done|]. split; [by rewrite Ht1|done].
  - pose proof (runs_tlsd _ _ _ _ _ _ _ _ Hr) as Ht. pose proof Hr as (Hl & s & s' & HR & HR' & Hspec).
    destruct (enter_fine _ _ _ _ _ _ _ HR Hh He) as (_ & Hh1 & Ht1).
    destruct IH as (Hl1 & Hhb & _ & _ & HKb & Hcb & Hrep); [done|rewrite Ht1; by case_bool_decide|].
    destruct (reported_scope _ _ _ _ _ _ _ _ _ _ _ _ _ _ _ _ _ Hmk Hrep HF) as (_ & Eid & Ecur).
    assert (cur g' = id) as Hc' by (by eapply unhandled_cur; [..|by rewrite Ecur]).
    split; [done|]. split; [by eapply healthy_preserved|]. split; [done|]. split; [eauto|].
    split; [|split; [done|]].
    + eapply unhandled_kept; try done. by eapply reported_direct.
    + destruct o as [r|x]; [done|]. simpl in *. rewrite <- Hrep. apply exn_id_cur. by rewrite Hc', Hcb.
Qed.

Lemma reports_good G id P caught p m g o m' g' : good_sup G -> reports G id P caught p m g o m' g' -> Z.land id 3 = 1.
Proof. intros Hg H. induction H as [? ? ? ? ? ? ? ->|? ? ? ? ? ? ? ? ->| | | | | |]; auto. Qed.

Lemma held_where m c T v : held m c T = Some v -> T ∈ members m c \/ T ∈ collected m c.
Proof.
  unfold held, caddr. destruct (ctxs m !! c) as [k|] eqn:Ek; [|done]. case_bool_decide as Hd.
  - intros _. left. by apply (elem_members _ _ _ _ Ek).
  - intros H. right. unfold collected. destruct (dhp m !! c) as [d|]; [|done]. destruct (node_at T (d_nodes d)) as [n|] eqn:En; [|done]. clear -En.
    revert En. induction (d_nodes d) as [|[T' a'] l IH]; simpl; [done|]. intros En. rewrite elem_of_cons. destruct (decide (T' = T)) as [->|]; [by left|right].
    apply IH. revert En. destruct (Nat.eqb_spec T' T); [done|]. destruct (Nat.eqb_spec T T'); [by subst|]. repeat case_decide; try done; repeat case_bool_decide; done.
Qed.

(** The scope takes diagnostic_details; every object loaded for the error is available by type to its handlers, or is in the list of dynamically
    collected objects (if it is to be shown at all), or is held by an enclosing scope, which has storage for it or collects itself. *)
Theorem C47_every_object_available_or_listed_partial :
  forall G id P k caught p hs m g o m' g' c m1 ob mb gb ob' mb' gb' o2 ei caught' m3 g3,
    good_sup G -> g_capture G = true -> g_diag G = true -> ADetails ∈ all_args hs ->
    runs G caught (PScope k p hs) m g o m' g' -> healthy m ->
    enter (pmach G) (deduce G hs) (m, g) = Ok (c, (m1, g)) ->
    reports G id P caught p m1 g ob mb gb ->
    failed G k caught p hs m g c ob' mb' gb' o2 ei caught' m3 g3 ->
    ei_id ei = id /\
    exists l d, supply G m3 c ei ADetails = Some (VDetails id (ei_ex ei) (ei_loc ei) l d) /\
    forall T v, P T = Some v ->
      (T ∈ members m3 c /\ obj G m3 c ei T = Some v) \/
      (T ∈ collected m3 c /\ (g_show G T = true -> (T, v) ∈ d)) \/
      (exists c', c' <> c /\ active m3 c' /\ serves m3 T c' /\ sees id (held m3 c' T) = Some v).
Proof.
  intros G id P k caught p hs m g o m' g' c m1 ob mb gb ob' mb' gb' o2 ei caught' m3 g3 Hg Hcap Hdg Hdet Hr Hh He Hrep HF.
  pose proof (reports_good _ _ _ _ _ _ _ _ _ _ Hg Hrep) as Hid. pose proof Hr as (Hl & s & s' & HR & HR' & Hspec).
  destruct (enter_fine _ _ _ _ _ _ _ HR Hh He) as (_ & Hh1 & Ht1).
  assert (SDA ∈ deduce G hs) as Hda.
  { apply C32_storage_deduced. split; [|done]. exists ADetails. split; [done|]. by constructor. }
  rewrite bool_decide_true in Ht1 by done.
  destruct (reports_kept _ _ Hg Hcap Hid _ _ _ _ _ _ _ _ Hrep Hh1) as (Hl1 & _ & _ & [sb HRb] & (K1 & K2 & K3) & Hc1 & Hrp); [by rewrite Ht1|].
  assert (ob' = ob /\ mb' = mb /\ gb' = gb) as (-> & -> & ->).
  { destruct HF as (m1a & m2a & g2a & F1 & F2 & _). pose proof (eq_trans (eq_sym F1) He) as X. injection X as ->.
    pose proof (eq_trans (eq_sym F2) Hl1) as Y. by injection Y as -> -> ->. }
  destruct (reported_scope _ _ _ _ _ _ _ _ _ _ _ _ _ _ _ _ _ (mk_good _ Hid) Hrp HF) as (-> & Eid & Ecur).
  destruct (failed_popped _ _ _ _ _ _ _ _ _ _ _ _ _ _ _ _ _ _ _ _ _ HR Hspec Hl HF (reported_direct _ _ _ Hrp)) as [PP _].
  split; [done|]. cbn [supply]. rewrite Hdg, Hcap, Eid. cbn [andb]. eexists _, _. split; [done|]. intros T v HP.
  destruct (K3 T) as [c' Hc']; [congruence|]. pose proof (K1 _ _ Hc') as Hs. rewrite HP in Hs. destruct (decide (c' = c)) as [->|Hne].
  - rewrite <- (pp_held _ _ _ PP) in Hs. destruct (held m3 c T) as [w|] eqn:Hw; [|done].
    destruct (decide (T ∈ members m3 c)) as [Hm|Hm].
    + left. split; [done|]. unfold obj. rewrite decide_True, Hw, Eid, Hs by done. done.
    + right; left. destruct (held_where _ _ _ _ Hw) as [?|Hcl]; [done|]. split; [done|]. intros Hsh. apply elem_of_list_omap. exists T. split; [done|].
      rewrite Hw, Eid, Hs, Hsh. done.
  - right; right. exists c'. split; [done|]. rewrite (pp_held _ _ _ PP). split.
    + apply (pp_active' _ _ _ PP); [|done]. by eapply serves_active.
    + split; [by apply (pp_serves' _ _ _ PP)|done].
Qed.
Print Assumptions C47_every_object_available_or_listed_partial.

(** ** A concrete case
    Around everything, a scope with storage for TA and TB. Error 5 is started with TA and TB; an on_error adds TC, but not another TB; a scope without a handler for
    the error, which has storage for TB, lets it pass; TA is loaded again. *)
Definition ex47_l : list (ety * val) := [(TA, VZ 1); (TB, VZ 2)].
Definition ex47_new : prog := PNewError (vals ex47_l) (fun i => PRet (RErr i)).
Definition ex47_on : prog := POnError (vals [(TB, VZ 3); (TC, VZ 4)]) ex47_new.
Definition ex47_hs1 : handlers := HCons [AE 13%nat; APtr TB] (fun _ => PRet (RVal 1)) HNil.
Definition ex47_scope : prog := PTHS ex47_on ex47_hs1.
Definition ex47_k : ret -> prog := fun _ => PLoad 5 (vals [(TA, VZ 5)]) (PRet (RErr 5)).
Definition ex47_body : prog := PBind ex47_scope ex47_k.
Definition ex47_hs : handlers := HCons [AE TA; ADetails] (fun _ => PRet (RVal 2)) HNil.

Lemma reports_run G id P caught p m g o m' g' : reports G id P caught p m g o m' g' -> lib_run G caught p m g o m' g'.
Proof.
  induction 1 as [? ? ? ? ? ? ? _ _ [? _]|? ? ? ? ? ? ? ? _ _ [? _]|? ? ? ? ? ? ? ? ? ? ? ? _ IH _ [Hr _]|? ? ? ? ? ? ? ? ? ? ? _ IH _ [Hr _]|? ? ? ? ? ? ? ? _ IH Hk|? ? ? ? ? ? ? ? ? _ IH
    |? ? ? ? ? ? ? ? ? ? ? ? [Hr _] _ IH|? ? ? ? ? ? ? ? ? ? ? ? ? ? ? ? ? ? _ _ _ _ _ [Hr _]]; try done.
  - cbn [eval]. eapply rb_ok; [exact IH|exact Hr].
  - cbn [eval]. eapply rb_ok; [exact IH|]. cbn. by rewrite Hk.
  - cbn [eval]. eapply rb_ok; [exact IH|done].
  - cbn [eval]. eapply rb_ok; [exact Hr|exact IH].
Qed.
Lemma failed_det G k caught p hs m g c m1 ob mb gb o2 ei caught' m3 g3 c' m1' ob' mb' gb' : enter (pmach G) (deduce G hs) (m, g) = Ok (c', (m1', m1)) ->
  lib_run G caught p m1' m1 ob' mb' gb' -> failed G k caught p hs m g c ob mb gb o2 ei caught' m3 g3 -> c = c' /\ ob = ob' /\ mb = mb' /\ gb = gb'.
Proof.
  intros E H (m1a & m2a & g2a & F1 & F2 & _). pose proof (eq_trans (eq_sym F1) E) as X. injection X as -> -> ->.
  pose proof (eq_trans (eq_sym F2) H) as Y. by injection Y as -> -> ->.
Qed.
Definition aft (p : prog) (m : mem) (g : glob) : mem := match eval GX (pmach GX) None p (m, g) with Ok (_, (m, _)) => m | _ => mem0 end.
Definition aft_s (p : prog) (s : smem) (g : glob) : smem := match eval (asserts_on GX) (smach (asserts_on GX)) None p (s, g) with Ok (_, (s, _)) => s | _ => smem0 end.
Lemma aft_ex p m s g o g' : R m s ->
  match eval (asserts_on GX) (smach (asserts_on GX)) None p (s, g) with Ok (o, (_, g')) => Some (o, g') | _ => None end = Some (o, g') ->
  runs GX None p m g o (aft p m g) g' /\ R (aft p m g) (aft_s p s g).
Proof.
  intros HR H. unfold aft, aft_s. destruct (eval (asserts_on GX) _ _ _ _) as [[o' [s' g2]]|] eqn:E; [|done]. injection H as -> ->.
  destruct (C48_pointer_free_semantics _ _ _ _ _ _ _ _ _ HR E) as (m' & H & HR'). rewrite H. split; [|done]. by eapply runs_intro.
Qed.

Local Notation ex47_m1 := (entered (deduce GX ex47_hs) out_m).
Local Notation ex47_s1 := (entered_s (deduce GX ex47_hs) out_s).
Local Notation ex47_m2 := (entered (deduce GX ex47_hs1) ex47_m1).
Local Notation ex47_s2 := (entered_s (deduce GX ex47_hs1) ex47_s1).
Definition ex47_P : objs := stores false (stores true (stores false none ex47_l) [(TB, VZ 3); (TC, VZ 4)]) [(TA, VZ 5)].
Example ex47_P_is : ex47_P TA = Some (VZ 5) /\ ex47_P TB = Some (VZ 2) /\ ex47_P TC = Some (VZ 4).
Proof. vm_compute. done. Qed.

Lemma ex47_reports : exists o m' g', reports GX 5 ex47_P None ex47_body ex47_m1 glob0 o m' g'.
Proof.
  destruct (entered_R (deduce GX ex47_hs) _ _ (deduce_nodup GX ex47_hs) out_R) as [HR1 [c1 E1]].
  destruct (entered_R (deduce GX ex47_hs1) _ _ (deduce_nodup GX ex47_hs1) HR1) as [HR2 [c2 E2]].
  edestruct (aft_ex ex47_new ex47_m2 ex47_s2 glob0) as [X1 _]; [exact HR2|vm_compute; reflexivity|].
  edestruct (aft_ex ex47_on ex47_m2 ex47_s2 glob0) as [X2 _]; [exact HR2|vm_compute; reflexivity|].
  edestruct (aft_ex ex47_scope ex47_m1 ex47_s1 glob0) as [X3 HR3]; [exact HR1|vm_compute; reflexivity|].
  edestruct (aft_ex (ex47_k (RErr 5)) (aft ex47_scope ex47_m1 glob0) (aft_s ex47_scope ex47_s1 glob0) (Glob 5 1 0 [] [])) as [X4 _]; [exact HR3|vm_compute; reflexivity|].
  eexists _, _, _. eapply rp_load; [|reflexivity|exact X4].
  edestruct (scope_ex GX KSome ex47_on ex47_hs1 ex47_m1 ex47_s1 glob0
    (fun o m' c o2 ei m3 => o2 = ORet (RErr 5) /\ Forall (fun h => mapM (supply GX m3 c ei) (fst h) = None) (flat ex47_hs1)))
    as (o & m' & g' & c' & ob & mb & gb & o2 & ei & caught' & m3 & g3 & Hr & HF & -> & Hn); [exact HR1|vm_compute; reflexivity|].
  assert (c' = c2 /\ ob = ORet (RErr 5) /\ mb = aft ex47_on ex47_m2 glob0 /\ gb = Glob 5 1 0 [] []) as (-> & -> & -> & ->).
  { exact (failed_det _ _ _ _ _ _ _ _ _ _ _ _ _ _ _ _ _ _ _ _ _ _ E2 (proj1 X2) HF). }
  refine (rp_scope GX 5 _ None KSome ex47_on ex47_hs1 _ _ c2 _ _ _ ei caught' m3 g3 _ _ _ E2 _ HF Hn X3).
  refine (rp_on_error GX 5 _ _ None ex47_new _ _ _ _ _ _ _ _ _ X2); [|done].
  refine (rp_new GX 5 ex47_l None _ _ _ _ _ _ _ X1); [reflexivity|].
  intros T c _. rewrite (none_held _ _ HR2); [done|]. apply (bool_decide_unpack _). vm_compute. exact I.
Qed.
Example ex47 : exists o m' g' c ob mb gb o2 ei caught' m3 g3 o1 mx gx,
  ADetails ∈ all_args ex47_hs /\
  runs GX None (PScope KSome ex47_body ex47_hs) out_m glob0 o m' g' /\ healthy out_m /\
  enter (pmach GX) (deduce GX ex47_hs) (out_m, glob0) = Ok (c, (ex47_m1, glob0)) /\
  reports GX 5 ex47_P None ex47_body ex47_m1 glob0 o1 mx gx /\
  failed GX KSome None ex47_body ex47_hs out_m glob0 c ob mb gb o2 ei caught' m3 g3 /\
  (o = ORet (RVal 2) /\ obj GX m3 c ei TA = Some (VZ 5) /\ held m3 0%nat TB = Some (5, VZ 2) /\ held m3 c TB = None /\
   collected m3 c = [TC] /\ listing GX m3 c ei (collected m3 c) = [(TC, VZ 4)]).
Proof.
  destruct ex47_reports as (o1 & mx & gx & Hrep). destruct (entered_R (deduce GX ex47_hs) _ _ (deduce_nodup GX ex47_hs) out_R) as [HR1 [c Ent]].
  edestruct (scope_ex GX KSome ex47_body ex47_hs out_m out_s glob0
    (fun o m' c o2 ei m3 => o = ORet (RVal 2) /\ obj GX m3 c ei TA = Some (VZ 5) /\ held m3 0%nat TB = Some (5, VZ 2) /\ held m3 c TB = None /\
      collected m3 c = [TC] /\ listing GX m3 c ei (collected m3 c) = [(TC, VZ 4)]))
    as (o & m' & g' & c' & ob & mb & gb & o2 & ei & caught' & m3 & g3 & Hr & HF & HP); [exact out_R|vm_compute; reflexivity|].
  assert (c' = c) as ->. { pose proof (reports_run _ _ _ _ _ _ _ _ _ _ Hrep) as Hl. exact (proj1 (failed_det _ _ _ _ _ _ _ _ _ _ _ _ _ _ _ _ _ _ _ _ _ _ Ent Hl HF)). }
  exists o, m', g', c, ob, mb, gb, o2, ei, caught', m3, g3, o1, mx, gx. split; [right; by left|]. split; [done|]. split; [exact out_healthy|]. done.
Qed.

(** ** The full statement is false
    The objects are loaded for error 5 inside the scope, which has a handler that takes diagnostic_details; the scope then examines error 5; the object is nowhere. *)
Definition lost (p : prog) (hs : handlers) (T : ety) : Prop :=
  exists o m' g' c ob mb gb o2 ei caught' m3 g3,
    runs GX None (PScope KSome p hs) mem0 glob0 o m' g' /\ failed GX KSome None p hs mem0 glob0 c ob mb gb o2 ei caught' m3 g3 /\
    (ei_id ei = 5 /\ obj GX m3 c ei T = None /\ (forall c, ~ active m3 c) /\
     exists l d, supply GX m3 c ei ADetails = Some (VDetails 5 None None l d) /\ forall v, (T, v) ∉ l /\ (T, v) ∉ d).
Definition lost47_hs : handlers := HCons [APtr TB; ADetails] (fun _ => PRet (RVal 2)) HNil.
(** a: a try_catch that has storage for the object lets the error, returned, pass. *)
Definition lost47_a : prog := PTC (PNewError [IVal TA (VZ 7)] (fun i => PRet (RErr i))) (HCons [AE TA] (fun _ => PRet (RVal 3)) HNil).
(** b: another error is started later, and the one that is returned is the earlier. *)
Definition lost47_b : prog := PNewError [IVal TA (VZ 7)] (fun i => PNewError [IVal TA (VZ 8)] (fun _ => PRet (RErr i))).
Lemma lost_ex p :
  match eval (asserts_on GX) (smach (asserts_on GX)) None (PScope KSome p lost47_hs) (smem0, glob0), eval GX (pmach GX) None (PScope KSome p lost47_hs) (mem0, glob0),
        phases GX KSome None p lost47_hs mem0 glob0 with
  | Ok _, Ok (o, (m', _)), Ok (c, _, o2, (ei, _, (m3, _))) =>
      bool_decide (ei_id ei = 5 /\ obj GX m3 c ei TA = None /\ map_Forall (fun _ k => k_act k = false) (ctxs m3) /\
                   match supply GX m3 c ei ADetails with Some (VDetails 5 None None [] []) => true | _ => false end = true)
  | _, _, _ => false
  end = true -> lost p lost47_hs TA.
Proof.
  intros H. eapply scope_ex in H; [|exact R0]. destruct H as (o & m' & g' & c & ob & mb & gb & o2 & ei & caught' & m3 & g3 & Hr & HF & E1 & E2 & E3 & E4).
  exists o, m', g', c, ob, mb, gb, o2, ei, caught', m3, g3. split; [done|]. split; [done|]. split; [done|]. split; [done|]. split.
  - intros c' [k [Hk Ha]]. specialize (E3 _ _ Hk). simpl in E3. congruence.
  - exists [], []. split; [|by split; apply not_elem_of_nil]. destruct (supply _ _ _ _ _) as [a|]; [|done].
    destruct a as [| | | | |id ex loc l d]; try done. destruct id as [|[[q|[r|r|]|]|q|]|q]; try done. destruct ex, loc, l, d; done.
Qed.
Theorem C47_every_object_available_or_listed_refuted : lost lost47_a lost47_hs TA /\ lost lost47_b lost47_hs TA.
Proof. split; apply lost_ex; vm_compute; reflexivity. Qed.
Print Assumptions C47_every_object_available_or_listed_refuted.
