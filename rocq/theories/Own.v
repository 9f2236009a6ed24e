(** Code which never obtains an error id cannot add to or change the objects of that error. *)
From Verif Require Export PropsCurrent.
Open Scope Z_scope.

Section own.
Context (f : Z) (P : ety -> val -> Prop).

(** ** Specification
    The id f does not occur in the data a program handles. The library always normalises ids (make_error_id). *)
Definition cid_ (z : Z) : Prop := mk z <> f.
Definition coid (o : option Z) : Prop := match o with Some z => cid_ z | None => True end.
Definition ccode (o : option (nat * Z)) : Prop := match o with Some (cat, v) => cat = LEAFCAT -> cid_ v | None => True end.
Definition cexn (x : exn) : Prop := coid (x_leaf x) /\ coid (x_eid x) /\ ccode (x_code x).
Definition coexn (o : option exn) : Prop := match o with Some x => cexn x | None => True end.
Definition cval (v : val) : Prop :=
  match v with VEC cat z => cat = LEAFCAT -> cid_ z | VX x => cexn x | VZ _ | VLOC _ => True end.
Definition coval (o : option val) : Prop := match o with Some v => cval v | None => True end.
(** an object and the error it belongs to: those of f are in P *)
Definition cobj (n : cnode) : Prop := (fst (snd n) = f -> P (fst n) (snd (snd n))) /\ cval (snd (snd n)).
Definition cret (r : ret) : Prop :=
  match r with
  | RVal _ => True
  | RErr id => cid_ id
  | RCap id l ex => cid_ id /\ Forall cobj l /\ coexn ex
  | RFor cat v => cat = LEAFCAT -> cid_ v
  end.
Definition cout (o : out) : Prop := match o with ORet r => cret r | OThrow x => cexn x end.
Definition citem (it : item) : Prop :=
  match it with
  | IVal _ v => cval v
  | IDef _ _ gf => forall tr, cval (gf tr)
  | IAcc _ _ h => forall v, cval v -> cval (h v)
  | IVoid _ => True
  end.
Definition cxs (x : xspec) : Prop := coid (xs_eid x) /\ ccode (xs_code x).
Definition carg (a : argval) : Prop :=
  match a with
  | VE v => cval v
  | VP o => coval o
  | VCatch x => cexn x
  | VInfo id ex loc => cid_ id /\ coexn ex /\ coval loc
  | VDiag id ex loc l => cid_ id /\ coexn ex /\ coval loc /\ Forall (fun x => cval (snd x)) l
  | VDetails id ex loc l d => cid_ id /\ coexn ex /\ coval loc /\ Forall (fun x => cval (snd x)) l /\ Forall (fun x => cval (snd x)) d
  end.

(** The item only produces objects in P. *)
Definition feeds (G : cfg) (it : item) : Prop :=
  match it with
  | IVal T v => P T v
  | IDef T _ gf => forall tr, P T (gf tr)
  | IAcc T _ h => P T (h (g_def G T)) /\ forall v, P T v -> P T (h v)
  | IVoid _ => True
  end.

(** A program which does not use the id f, as long as it is not given it. *)
Fixpoint avoids (p : prog) : Prop :=
  match p with
  | PRet r => cret r
  | PBind p k => avoids p /\ forall r, cret r -> avoids (k r)
  | PEmit _ k => avoids k
  | PNewError its k => Forall citem its /\ forall id, cid_ id -> avoids (k id)
  | PLoad id its k => cid_ id /\ Forall citem its /\ avoids k
  | PCurErr k | PMonitor k | PCheck _ k | PAssigned _ k => forall id, cid_ id -> avoids (k id)
  | PThrow oi x its => coid oi /\ cxs x /\ Forall citem its
  | PThrowX x => cxs x
  | PRethrow => True
  | PCatch p h => avoids p /\ forall x, cexn x -> avoids (h x)
  | POnError its p => Forall citem its /\ avoids p
  | PTHA p hs | PTHS p hs | PTC p hs => avoids p /\ avoidsH hs
  | PCapture _ p => avoids p
  | PUnload r k => cret r /\ forall r, cret r -> avoids (k r)
  | PValue r k => cret r /\ forall z, avoids (k z)
  | PErrId r k => cret r /\ forall id, cid_ id -> avoids (k id)
  | PE2R _ p => avoids p
  | PImport cat v k => (cat = LEAFCAT -> cid_ v) /\ forall id, cid_ id -> avoids (k id)
  | PCtx _ k => forall c, avoids (k c)
  | PAct _ p => avoids p
  | PCtxUnload _ id k => cid_ id /\ avoids k
  | PCtxHandle _ id hs => cid_ id /\ avoidsH hs
  end
with avoidsH (hs : handlers) : Prop :=
  match hs with
  | HNil => True
  | HMut _ w b rest => (forall l, Forall carg l -> Forall (fun x => cval (snd x)) (w l) /\ avoids (b l)) /\ avoidsH rest
  | HTup hs' rest => avoidsH hs' /\ avoidsH rest
  end.

(** The objects of f in memory are in P. *)
Definition confined (m : mem) : Prop := forall c T x, held m c T = Some x -> cobj (T, x).

(** ** The stack machine *)
Definition cctx_ (a : actx) : Prop :=
  (forall T x, SE T ∈ ac_tup a -> ac_cell a !! T = Some x -> cobj (T, x)) /\ Forall cobj (nodes a).
Definition cmem (s : smem) : Prop := forall c a, actxs s !! c = Some a -> cctx_ a.

Lemma R_confined m s : R m s -> confined m <-> cmem s.
Proof.
  intros HR. split.
  - intros H c a Ha. pose proof (R_awf _ _ _ _ HR Ha) as Hw. split.
    + intros T x HT Hx. apply (H c T). rewrite (R_held _ _ _ _ T HR Ha). unfold get_e. by rewrite bool_decide_true.
    + apply Forall_forall. intros [T x] Hin. apply (H c T). rewrite (R_held _ _ _ _ T HR Ha). unfold get_e. rewrite bool_decide_false.
      * destruct Hw as [_ _ Hnd _]. revert Hin Hnd. generalize (nodes a). intros l. induction l as [|[T' y] l IH]; [intros ?%elem_of_nil; done|].
        csimpl. intros [?|Hin]%elem_of_cons [Hn Hnd]%NoDup_cons; [simplify_eq; by rewrite decide_True|].
        rewrite decide_False; [by apply IH|]. intros ->. apply Hn. apply elem_of_list_fmap. by exists (T', x).
      * apply (aw_disj _ Hw). unfold has_node. apply bool_decide_eq_true. apply elem_of_list_fmap. by exists (T, x).
  - intros H c T x Hx. destruct (actxs s !! c) as [a|] eqn:Ha.
    + rewrite (R_held _ _ _ _ T HR Ha) in Hx. destruct (H _ _ Ha) as [H1 H2]. unfold get_e in Hx. case_bool_decide; [eauto|].
      revert Hx H2. generalize (nodes a). intros l. induction l as [|[T' y] l IH]; simpl; [done|]. intros E HF. apply Forall_cons in HF as [? ?].
      destruct (decide (T = T')); [by simplify_eq|auto].
    + rewrite held_dead in Hx; [done|]. exact (R_look_none _ _ _ HR Ha).
Qed.

Context (Hf1 : f <> 1) (Hf : mk f = f).

Lemma cid_ne z : cid_ z -> z <> f.
Proof. intros H ->. by apply H. Qed.
Lemma cid_no z (Q : Prop) : cid_ z -> z = f -> Q.
Proof. intros H E. exfalso. by eapply cid_ne. Qed.
Lemma mk_idem id : mk (mk id) = mk id.
Proof.
  unfold mk. apply Z.bits_inj'. intros n Hn. rewrite !Z.lor_spec, !Z.ldiff_spec, !Z.lor_spec, !Z.ldiff_spec.
  destruct (Z.eq_dec n 0) as [->|]; [by rewrite !orb_true_r|]. assert (Z.testbit 1 n = false) as ->. { change 1 with (2 ^ 0). apply Z.pow2_bits_false. lia. }
  by destruct (Z.testbit id n), (Z.testbit 3 n).
Qed.
Lemma cid_mk z : cid_ z -> cid_ (mk z).
Proof. unfold cid_. by rewrite mk_idem. Qed.
Lemma cid_0 : cid_ 0.
Proof. unfold cid_. intros E. by apply Hf1. Qed.

Lemma cmem_put c a s : cctx_ a -> cmem s -> cmem (put c a s).
Proof. intros Ha H c' a'. rewrite put_lookup. destruct (decide (c' = c)); [intros; by simplify_eq|eauto]. Qed.
Lemma cctx_get a T x : cctx_ a -> get_e T a = Some x -> cobj (T, x).
Proof.
  intros [H1 H2] Hx. unfold get_e in Hx. case_bool_decide; [eauto|].
  revert Hx H2. generalize (nodes a). intros l. induction l as [|[T' y] l IH]; simpl; [done|]. intros E HF. apply Forall_cons in HF as [? ?].
  destruct (decide (T = T')); [by simplify_eq|auto].
Qed.
Lemma cctx_set a T x : cctx_ a -> cobj (T, x) -> cctx_ (set_e T x a).
Proof.
  intros [H1 H2] Hx. split.
  - rewrite set_e_tup. intros T' y HT'. unfold set_e. case_bool_decide; simpl; [|eauto]. destruct (decide (T' = T)) as [->|Hne].
    + rewrite lookup_insert. intros. by simplify_eq.
    + rewrite lookup_insert_ne by done. eauto.
  - rewrite nodes_set_e. case_bool_decide; [done|]. revert H2. generalize (nodes a). intros l. induction l as [|[T' y] l IH]; intros HF; [constructor|].
    apply Forall_cons in HF as [? ?]. simpl. destruct (decide (T = T')) as [<-|]; constructor; auto.
Qed.
Lemma cctx_coll a q : cctx_ a -> Forall cobj (q_nodes q) -> cctx_ (set_coll (Some q) a).
Proof. intros [H1 _] H. split; [exact H1|exact H]. Qed.
Lemma cctx_clear a T : cctx_ a -> cctx_ (cell_clear T a).
Proof.
  intros [H1 H2]. split; [|exact H2]. simpl. intros T' x HT' Hx. apply lookup_delete_Some in Hx as [_ Hx]. eauto.
Qed.
Lemma cctx_cell_set a T x : cctx_ a -> cobj (T, x) -> cctx_ (cell_set T x a).
Proof.
  intros [H1 H2] Hx. split; [|exact H2]. simpl. intros T' y HT' Hy. apply lookup_insert_Some in Hy as [[<- <-]|[_ Hy]]; eauto.
Qed.

Section G.
Context (G : cfg) (Hdef : forall T, cval (g_def G T)).

Lemma c_collect id T v s s' : cobj (T, (id, v)) -> cmem s -> scollect id T v s = Ok s' -> cmem s'.
Proof.
  intros Hv H E. unfold scollect in E. destruct (find_d s) as [[c a]|] eqn:Hd; [|by simplify_eq]. apply find_ctx_in in Hd as (_ & Ha & _).
  ok_inv E. destruct (ac_coll a) as [q|] eqn:Hq.
  - destruct (q_ok q); simplify_eq. apply cmem_put; [|done]. apply cctx_coll; [eauto|]. destruct (H _ _ Ha) as [_ Hn]. unfold nodes in Hn. rewrite Hq in Hn.
    simpl. apply Forall_app. split; [done|]. by apply Forall_singleton.
  - simplify_eq. apply cmem_put; [|done]. apply cctx_coll; [eauto|]. by apply Forall_singleton.
Qed.
Lemma c_collect_acc id T v s s' : cobj (T, (id, v)) -> cmem s -> scollect_acc id T v s = Ok s' -> cmem s'.
Proof.
  intros Hv H E. unfold scollect_acc in E. destruct (find_d s) as [[c a]|] eqn:Hd; [|by simplify_eq]. apply find_ctx_in in Hd as (_ & Ha & _).
  ok_inv E. destruct (ac_coll a) as [q|] eqn:Hq.
  - destruct (q_key q =? id).
    + destruct (q_ok q); simplify_eq. apply cmem_put; [|done]. apply cctx_coll; [eauto|]. destruct (H _ _ Ha) as [_ Hn]. unfold nodes in Hn. rewrite Hq in Hn.
      simpl. apply Forall_app. split; [done|]. by apply Forall_singleton.
    + destruct (q_nodes q); simplify_eq. apply cmem_put; [|done]. apply cctx_coll; [eauto|]. by apply Forall_singleton.
  - simplify_eq. apply cmem_put; [|done]. apply cctx_coll; [eauto|]. by apply Forall_singleton.
Qed.
Lemma c_store c a id T v s s' : cobj (T, (id, v)) -> cmem s -> actxs s !! c = Some a -> sstore c a id T v s = Ok s' -> cmem s'.
Proof. intros Hv H Ha E. unfold sstore in E. ok_inv E. simplify_eq. apply cmem_put; [|done]. apply cctx_set; eauto. Qed.

Lemma c_load o id it s g s' g' : (id = f -> feeds G it) -> citem it -> cmem s -> sload G o id it s g = Ok (s', g') ->
  cmem s' /\ (g' = g \/ exists e, g' = emit e g).
Proof.
  intros Hid Hit H E. destruct it as [T v|T tag gf|T tag h|tag]; simpl in Hit, Hid; cbn [sload] in E.
  - assert (cobj (T, (id, v))) as Hv by (by split).
    destruct (find_e T s) as [[c a]|] eqn:Hf'.
    + apply find_ctx_in in Hf' as (_ & Ha & _). destruct (_ && _); [simplify_eq; auto|]. ok_inv E. simplify_eq. split; auto. eapply c_store; eauto.
    + destruct (g_capture G); [|simplify_eq; auto]. ok_inv E. simplify_eq. split; auto. eapply c_collect; eauto.
  - assert (forall t, cobj (T, (id, gf t))) as Hv by (intros t; split; simpl; auto).
    destruct (find_e T s) as [[c a]|] eqn:Hf'.
    + apply find_ctx_in in Hf' as (_ & Ha & _). destruct (_ && _); [simplify_eq; auto|]. ok_inv E. simplify_eq. split; eauto. eapply c_store; eauto.
    + destruct (g_capture G); [|simplify_eq; auto]. ok_inv E. simplify_eq. split; eauto. eapply c_collect; eauto.
  - destruct (find_e T s) as [[c a]|] eqn:Hf'.
    + apply find_ctx_in in Hf' as (_ & Ha & _). ok_inv E. simplify_eq. split; eauto. eapply c_store; eauto.
      destruct (get_e T a) as [[k v]|] eqn:Eg; [|split; simpl; [intros Ef; exact (proj1 (Hid Ef))|auto]]. destruct (k =? id) eqn:Ek; [|split; simpl; [intros Ef; exact (proj1 (Hid Ef))|auto]].
      apply Z.eqb_eq in Ek as ->. apply (cctx_get _ _ _ (H _ _ Ha)) in Eg as [H1 H2]. split; simpl in *; [|auto]. intros Ef. exact (proj2 (Hid Ef) _ (H1 Ef)).
    + destruct (g_capture G); [|simplify_eq; auto]. destruct (find_d s); [|simplify_eq; auto]. ok_inv E. simplify_eq. split; eauto.
      eapply c_collect_acc; eauto. split; simpl; [intros Ef; exact (proj1 (Hid Ef))|auto].
  - simplify_eq. eauto.
Qed.

Lemma c_receive id T v s b s' : cobj (T, (id, v)) -> cmem s -> sreceive G id T v s = Ok (b, s') -> cmem s'.
Proof.
  intros Hv H E. unfold sreceive in E. destruct (find_e T s) as [[c a]|] eqn:Hf'.
  - apply find_ctx_in in Hf' as (_ & Ha & _). destruct (_ =? _); [by simplify_eq|]. ok_inv E. simplify_eq. by eapply c_store.
  - destruct (g_capture G); [|by simplify_eq]. ok_inv E. simplify_eq. by eapply c_collect.
Qed.
Lemma c_receive_all id l : forall s s', Forall cobj l -> cmem s -> sreceive_all G id l s = Ok s' -> cmem s'.
Proof.
  induction l as [|[T [k v]] l IH]; intros s s' HF H E; simpl in E; [by simplify_eq|]. apply Forall_cons in HF as [Hv HF].
  ok_inv E. ok_inv E. eapply IH; [done| |exact E]. destruct (negb (k =? id)) eqn:Ek; [by simplify_eq|]. ok_inv E1. simplify_eq. destruct a1 as [b s1].
  apply negb_false_iff, Z.eqb_eq in Ek as ->. eapply c_receive; [exact Hv|exact H|exact E2].
Qed.
Lemma c_unload1 c id t s g s' g' : cmem s -> sunload1 G c id t s g = Ok (s', g') -> (t = SDA \/ exists a, actxs s !! c = Some a /\ t ∈ ac_tup a) ->
  cmem s' /\ (g' = g \/ g' = set_cur id g).
Proof.
  intros H E Ht. unfold sunload1 in E. destruct (actxs s !! c) as [a|] eqn:Ha; [|done]. destruct t as [T|].
  - destruct Ht as [?|(a' & ? & Ht)]; [done|]. simplify_eq. destruct (ac_cell a' !! T) as [[k v]|] eqn:Hc; [|simplify_eq; auto].
    destruct (k =? id) eqn:Ek; [|simplify_eq; auto]. ok_inv E. destruct a as [b s1]. apply Z.eqb_eq in Ek as ->.
    assert (cmem s1) as H1. { eapply c_receive; [|exact H|exact E0]. by apply (proj1 (H _ _ Ha) _ _ Ht Hc). }
    simpl in E. destruct b; [|simplify_eq; auto]. destruct (actxs s1 !! c) as [a2|] eqn:Ha2; [|done]. simplify_eq. split; [|auto].
    apply cmem_put; [|done]. apply cctx_clear. eauto.
  - destruct (ac_coll a) as [q|] eqn:Hq; [|simplify_eq; auto]. ok_inv E. simplify_eq. split; [|auto].
    destruct (H _ _ Ha) as [_ Hn]. unfold nodes in Hn. rewrite Hq in Hn. eapply c_receive_all; [exact Hn| |exact E0].
    apply cmem_put; [|done]. apply cctx_coll; [eauto|]. constructor.
Qed.
Lemma c_unload_list c id : forall l s g s' g', cmem s -> c ∉ stack s -> sunload_list G c id l s g = Ok (s', g') ->
  (forall a, actxs s !! c = Some a -> forall t, t ∈ l -> t ∈ ac_tup a) ->
  cmem s' /\ (g' = g \/ g' = set_cur id g).
Proof.
  induction l as [|t l IH]; intros s g s' g' H Hc E Ht; simpl in E; [simplify_eq; auto|]. ok_inv E. ok_inv E. destruct a0 as [s1 g1]. simpl in E.
  pose proof (sunload1_atom _ _ _ _ _ _ _ _ Hc E1) as Hat. pose proof (atoms_stack _ _ Hat) as Hst.
  assert (same s s1) as Hs. { clear -Hat. induction Hat; [apply same_refl|]. eapply same_trans; [by apply atom_same|done]. }
  apply c_unload1 in E1 as [H1 Hg1]; auto.
  - destruct (actxs s !! c) as [a1|] eqn:Ha.
    + apply IH in E as [H2 Hg2]; auto.
      * split; [done|]. destruct Hg1 as [-> | ->], Hg2 as [-> | ->]; auto.
      * by rewrite Hst.
      * intros a2 Ha2 t' Ht'. destruct (sm_tup _ _ Hs _ _ Ha) as (a3 & Ha3 & E3). simplify_eq. rewrite E3. apply (Ht _ eq_refl). by right.
    + pose proof (sm_none _ _ Hs _ Ha) as Hn. apply IH in E as [H2 Hg2]; auto.
      * split; [done|]. destruct Hg1 as [-> | ->], Hg2 as [-> | ->]; auto.
      * by rewrite Hst.
      * intros a2 Ha2. by simplify_eq.
  - unfold sunload1 in E1. destruct (actxs s !! c) as [a1|] eqn:Ha; [|done]. right. exists a1. split; [done|]. apply (Ht _ eq_refl). by left.
Qed.
Lemma c_unload c id s g s' g' : cmem s -> sunload G c id s g = Ok (s', g') -> cmem s' /\ (g' = g \/ g' = set_cur id g).
Proof.
  intros H E. unfold sunload in E. destruct (actxs s !! c) as [a|] eqn:Ha; [|done]. case_bool_decide; [done|].
  eapply c_unload_list; eauto. intros a' Ha' t Ht. simplify_eq. by apply elem_of_list_In, in_rev, elem_of_list_In.
Qed.
Lemma c_cap id l s g s' g' : Forall cobj l -> cmem s -> scap_unload G id l s g = Ok (s', g') -> cmem s' /\ g' = set_cur id g.
Proof. intros Hl H E. unfold scap_unload in E. ok_inv E. simplify_eq. split; [|done]. by eapply c_receive_all. Qed.
Lemma c_new tup s c s' : snew tup s = (c, s') -> cmem s -> cmem s'.
Proof.
  intros E H c' a Ha. unfold snew in E. simplify_eq. simpl in Ha. destruct (decide (c' = snc s)) as [->|Hne].
  - rewrite lookup_insert in Ha. simplify_eq. split; [|constructor]. simpl. intros T x _ Hx. by rewrite lookup_empty in Hx.
  - rewrite lookup_insert_ne in Ha by done. eauto.
Qed.
Lemma c_act c s s' : sact c s = Ok s' -> cmem s -> cmem s'.
Proof. intros E H. apply sact_stack in E as (_ & E & _). unfold cmem. by rewrite E. Qed.
Lemma c_deact c s s' : sdeact c s = Ok s' -> cmem s -> cmem s'.
Proof. intros E H. apply sdeact_inv in E as (_ & E & _). unfold cmem. by rewrite E. Qed.
Lemma c_destroy c s s' : sdestroy c s = Ok s' -> cmem s -> cmem s'.
Proof. intros E H. apply sdestroy_inv in E as (_ & ->). intros c' a Ha. simpl in Ha. apply lookup_delete_Some in Ha as [_ Ha]. eauto. Qed.
Lemma c_extract c id b s l s' : sextract c id b s = Ok (l, s') -> cmem s -> Forall cobj l /\ cmem s'.
Proof.
  intros E H. unfold sextract in E. destruct (actxs s !! c) as [a|] eqn:Ha; [|done]. destruct (_ || _); [done|]. ok_inv E.
  assert (cmem (put c (set_coll (Some (Coll id [] true)) a) s)) as Hp. { apply cmem_put; [|done]. apply cctx_coll; [eauto|constructor]. }
  destruct (ac_coll a) as [q|] eqn:Hq; [|by simplify_eq]. destruct (q_key q =? id); [|by simplify_eq]. destruct (_ && _); [done|]. simplify_eq. split; [|done].
  destruct (H _ _ Ha) as [_ Hn]. unfold nodes in Hn. by rewrite Hq in Hn.
Qed.
Lemma c_get c T id s o : sget c T id s = Ok o -> cmem s -> coval o.
Proof.
  intros E H. unfold sget in E. destruct (actxs s !! c) as [a|] eqn:Ha; [|done]. case_bool_decide as HT; [|by simplify_eq]. ok_inv E. simplify_eq.
  destruct (ac_cell a !! T) as [[k v]|] eqn:Hx; [|done]. destruct (k =? id); [|done]. by apply (proj1 (H _ _ Ha) _ _ HT Hx).
Qed.
Lemma c_set c T id v s s' : cid_ id -> cval v -> sset c T id v s = Ok s' -> cmem s -> cmem s'.
Proof.
  intros Hid Hv E H. unfold sset in E. destruct (actxs s !! c) as [a|] eqn:Ha; [|done]. case_bool_decide; [done|]. case_bool_decide; [|by simplify_eq].
  destruct (ac_cell a !! T) as [[k v0]|]; [|by simplify_eq]. destruct (k =? id); [|by simplify_eq]. simplify_eq. apply cmem_put; [|done].
  apply cctx_cell_set; [eauto|]. split; [by apply cid_no|done].
Qed.
Lemma c_set_all c id l : cid_ id -> forall s s', Forall (fun x => cval (snd x)) l -> set_all (smach G) c id l s = Ok s' -> cmem s -> cmem s'.
Proof.
  intros Hid. induction l as [|[T v] l IH]; intros s s' HF E H; simpl in E; [by simplify_eq|]. apply Forall_cons in HF as [Hv HF]. ok_inv E.
  eapply IH; [done|exact E|]. by eapply c_set.
Qed.
Lemma c_writes args l : Forall (fun x : ety * val => cval (snd x)) l -> Forall (fun x => cval (snd x)) (writes args l).
Proof. unfold writes. induction 1 as [|x l Hx _ IH]; simpl; [constructor|]. destruct (mutable _ _); [by constructor|done]. Qed.
Lemma c_show id n : cobj n -> Forall (fun x => cval (snd x)) (sshow G id n).
Proof. intros [_ H]. unfold sshow. destruct (_ && _); [|constructor]. by apply Forall_singleton. Qed.
Lemma c_print c id s l : sprint G c id s = Ok l -> cmem s -> Forall (fun x => cval (snd x)) l.
Proof.
  intros E H. unfold sprint in E. destruct (actxs s !! c) as [a|] eqn:Ha; [|done]. simplify_eq. destruct (H _ _ Ha) as [H1 _].
  assert (forall t, t ∈ ac_tup a -> t ∈ ac_tup a) as Ht by done. revert Ht. generalize (ac_tup a) at 1 3. intros l. induction l as [|t l IH]; intros Ht; simpl; [constructor|].
  apply Forall_app. split; [|apply IH; intros; apply Ht; by right]. destruct t as [T|]; [|constructor]. destruct (ac_cell a !! T) as [x|] eqn:Hx; [|constructor].
  apply c_show. simpl. apply (H1 T); [|done]. apply Ht. by left.
Qed.
Lemma c_details c id s l : sdetails G c id s = Ok l -> cmem s -> Forall (fun x => cval (snd x)) l.
Proof.
  intros E H. unfold sdetails in E. destruct (actxs s !! c) as [a|] eqn:Ha; [|done]. simplify_eq. destruct (H _ _ Ha) as [_ H2]. revert H2.
  generalize (nodes a). intros l HF. induction HF; simpl; [constructor|]. apply Forall_app. split; [by apply c_show|done].
Qed.

(** ** Ids only grow *)
Lemma smach_inv : mach_inv G (smach G) Fall (fun _ => True).
Proof.
  split; simpl; auto.
  - intros o id it s g s' g' E _. split; [done|]. assert (g' = g \/ exists e, g' = emit e g) as [-> | [e ->]]; [|by exists []; split; [constructor|]|exists [LEv e]; split; [|done]].
    + destruct it; cbn [sload] in E; repeat (first [progress simplify_eq|ok_inv E|case_match]); eauto.
    + apply Forall_singleton. eauto.
  - intros id l s g s' g' E _. unfold scap_unload in E. ok_inv E. by simplify_eq.
  - intros c id s g s' g' E _. split; [done|]. assert (g' = g \/ g' = set_cur id g) as [?|?]; auto. unfold sunload in E. destruct (actxs s !! c); [|done]. case_bool_decide; [done|].
    revert s g s' g' E H. generalize (rev (ac_tup a)). intros l. induction l as [|t l IH]; intros s g s' g' E Hc; simpl in E; [simplify_eq; auto|].
    ok_inv E. ok_inv E. destruct a1 as [s1 g1]. simpl in E. pose proof (sunload1_atom _ _ _ _ _ _ _ _ Hc E1) as Hat. pose proof (atoms_stack _ _ Hat) as Hst.
    apply IH in E; [|by rewrite Hst]. assert (g1 = g \/ g1 = set_cur id g) as Hg1.
    { unfold sunload1 in E1. repeat (first [progress simplify_eq|ok_inv E1|case_match]); auto. }
    destruct Hg1 as [-> | ->], E as [-> | ->]; auto.
Qed.

Notation MS := (smach G).
Definition grows (s s' : st MS) : Prop := (ngen (snd s) <= ngen (snd s'))%nat.
Lemma ok_grows (s s' : st MS) : ok_st G MS Fall (fun _ => True) s s' -> grows s s'.
Proof. intros H. destruct (H I) as [_ (l & _ & E)]. unfold grows. rewrite E. apply gplay_ngen. Qed.
Lemma eval_grows caught p (s : st MS) o s' : eval G MS caught p s = Ok (o, s') -> grows s s'.
Proof. intros E. eapply (proj1 (eval_glob _ _ _ _ smach_inv)) in E; [|apply within_all]. apply ok_grows, E. Qed.
Lemma evalH_grows caught hs c ei d (s : st MS) o s' : (forall s o s', d s = Ok (o, s') -> ok_st G MS Fall (fun _ => True) s s') ->
  evalH G MS caught hs c ei d s = Ok (o, s') -> grows s s'.
Proof.
  intros Hd E. eapply (proj2 (eval_glob _ _ _ _ smach_inv)) in E; [|apply within_all|].
  - apply ok_grows, E.
  - intros s1 o1 s1' E1. split; [destruct o1 as [[]|]; done|eauto].
Qed.

(** ** Programs. Between N0 and N the supply does not yield f. *)
Section bound.
Context (N0 N : nat) (HN : forall n, (N0 <= n < N)%nat -> cid_ (g_sup G n)).

Definition cst (s : st MS) : Prop := cmem (fst s) /\ cid_ (cur (snd s)) /\ (N0 <= ngen (snd s))%nat.
Definition upto (s : st MS) : Prop := (ngen (snd s) <= N)%nat.
Lemma upto_grows s s' : grows s s' -> upto s' -> upto s.
Proof. unfold grows, upto. lia. Qed.

Lemma o_new (m : mst MS) g id g' : gnew G g = (id, g') -> cst (m, g) -> upto (m, g') -> cid_ id /\ cst (m, g').
Proof.
  unfold gnew, cst, upto. intros E (H1 & H2 & H3) Hu. simplify_eq. simpl in *. assert (cid_ (g_sup G (ngen g))) by (apply HN; lia). split; [done|]. split; [done|]. split; [done|]. lia.
Qed.
Lemma o_emit (m : mst MS) g e : cst (m, g) -> cst (m, emit e g).
Proof. done. Qed.
Lemma o_load o id it (s s' : st MS) : (id = f -> feeds G it) -> citem it -> m_load MS o id it (fst s) (snd s) = Ok s' -> cst s -> cst s'.
Proof.
  destruct s as [m g], s' as [m' g']. simpl. intros Hid Hit E (H1 & H2 & H3). eapply c_load in E as [? Hg]; eauto. simpl in *.
  split; [done|]. destruct Hg as [-> | [e ->]]; auto.
Qed.
Lemma o_load_items o id its : Forall citem its -> (id = f -> Forall (feeds G) its) -> forall (s s' : st MS), load_items MS o id its s = Ok s' -> cst s -> cst s'.
Proof.
  intros HF Hid. induction HF as [|it its Hit HF IH]; simpl; intros s s' E H; [by simplify_eq|]. ok_inv E. eapply IH; [|exact E|].
  - intros Ef. specialize (Hid Ef). by inversion Hid.
  - eapply o_load; [|exact Hit|exact E0|exact H]. intros Ef. specialize (Hid Ef). by inversion Hid.
Qed.
Lemma o_id_load id its (s s' : st MS) : Forall citem its -> (id = f -> Forall (feeds G) its) -> id_load MS id its s = Ok s' -> cst s -> cst s'.
Proof. unfold id_load. intros HF Hid. destruct (id =? 0); [intros; by simplify_eq|]. by apply o_load_items. Qed.
Lemma o_mem (fn : smem -> res smem) (s s' : st MS) : (forall m m', fn m = Ok m' -> cmem m -> cmem m') -> on_mem MS fn s = Ok s' -> cst s -> cst s'.
Proof. intros Hfn E (H1 & H2). unfold on_mem in E. ok_inv E. simplify_eq. split; [by eapply Hfn|done]. Qed.
Lemma o_act c (s s' : st MS) : on_mem MS (m_act MS c) s = Ok s' -> cst s -> cst s'.
Proof. apply o_mem. apply c_act. Qed.
Lemma o_deact c (s s' : st MS) : on_mem MS (m_deact MS c) s = Ok s' -> cst s -> cst s'.
Proof. apply o_mem. apply c_deact. Qed.
Lemma o_destroy c (s s' : st MS) : on_mem MS (m_destroy MS c) s = Ok s' -> cst s -> cst s'.
Proof. apply o_mem. apply c_destroy. Qed.
Lemma o_unl c id (s s' : st MS) : cid_ id -> m_unload MS c id (fst s) (snd s) = Ok s' -> cst s -> cst s'.
Proof.
  destruct s as [m g], s' as [m' g']. simpl. intros Hid E (H1 & H2 & H3). eapply c_unload in E as [? Hg]; eauto. simpl in *.
  split; [done|]. destruct Hg as [-> | ->]; auto.
Qed.
Lemma o_new_ctx tup (m : mst MS) g c m' : m_new MS tup m = (c, m') -> cst (m, g) -> cst (m', g).
Proof. intros E (H1 & H2). split; [|done]. by eapply c_new. Qed.
Lemma o_import cat v (s : st MS) i s' : (cat = LEAFCAT -> cid_ v) -> import_ec G MS cat v s = Ok (i, s') -> cst s -> upto s' -> cid_ i /\ cst s'.
Proof.
  intros Hv E H Hu. unfold import_ec in E. destruct (v =? 0); [simplify_eq; split; [apply cid_0|done]|]. destruct (cat =? LEAFCAT)%nat eqn:Hc.
  - apply Nat.eqb_eq in Hc. ok_inv E. simplify_eq. split; [apply cid_mk; auto|done].
  - destruct (gnew G (snd s)) as [id g] eqn:Hg. ok_inv E. simplify_eq. destruct s as [m g0]. simpl in Hg.
    assert (upto (m, g)) as Hu1. { eapply upto_grows; [|exact Hu]. apply ok_grows. eapply (ok_load _ _ _ _ smach_inv _ _ _ (m, g)). exact E0. }
    destruct (o_new _ _ _ _ Hg H Hu1) as [Hi H1]. split; [by apply cid_mk|]. refine (o_load _ _ _ (m, g) _ (cid_no _ _ Hi) _ E0 H1). simpl. intros ->. by rewrite Nat.eqb_refl in Hc.
Qed.
Lemma o_err_id r (s : st MS) i s' : cret r -> err_id_of G MS r s = Ok (i, s') -> cst s -> upto s' -> cid_ i /\ cst s'.
Proof.
  intros Hr E H Hu. destruct r; simpl in E, Hr.
  - simplify_eq. split; [apply cid_0|done].
  - simplify_eq. split; [by apply cid_mk|done].
  - simplify_eq. destruct Hr. split; [by apply cid_mk|done].
  - by eapply o_import.
Qed.
Lemma o_unload_ret r (s : st MS) o s' : cret r -> unload_ret MS r s = Ok (o, s') -> cst s -> cout o /\ cst s'.
Proof.
  intros Hr E H. destruct r as [|id|id l ex|]; simpl in E, Hr; [by simplify_eq..| |by simplify_eq]. ok_inv E. destruct Hr as (Hid & Hl & Hx). simplify_eq.
  destruct s as [m g], s' as [m' g']. simpl in *. destruct H as (H1 & H2 & H3). apply (c_cap _ _ _ _ _ _ Hl H1) in E0 as [H4 ->].
  split; [destruct ex; [done|]; split; [done|]; split; [constructor|done]|]. split; [done|]. split; [by apply cid_mk|done].
Qed.
Lemma o_throw_leaf id x (s : st MS) : cid_ id -> cxs x -> cst s -> cout (fst (throw_leaf MS id x s)) /\ cst (snd (throw_leaf MS id x s)).
Proof. intros Hid [? ?] Hs. split; [done|exact Hs]. Qed.
Lemma o_throw_plain x (s : st MS) : cxs x -> cst s -> cout (fst (throw_plain MS x s)) /\ cst (snd (throw_plain MS x s)).
Proof. intros [? ?] Hs. split; [done|exact Hs]. Qed.
Lemma o_exn_destroy x (m : mst MS) g : cst (m, g) -> cst (m, exn_destroy x g).
Proof.
  intros H. unfold exn_destroy. destruct (x_leaf x); [|done]. case_bool_decide; [|done]. destruct (_ =? _); [|done]. destruct H as (? & ? & ?). split; [done|]. split; [apply cid_0|done].
Qed.
Lemma o_catch_info x (m : mst MS) g id ex g' : cexn x -> catch_info x g = (id, ex, g') -> cst (m, g) -> cid_ id /\ coexn ex /\ cst (m, g').
Proof.
  intros Hx E H. pose proof H as (_ & Hc & _). unfold catch_info in E. pose proof Hx as (Hl & He & _). destruct (x_std x).
  - destruct (x_leaf x) as [i|]; [by simplify_eq|]. simplify_eq. split; [|done]. destruct (x_eid x); [done|]. by apply cid_mk.
  - simplify_eq. split; [|done]. by apply cid_mk.
Qed.
Definition cei (ei : einfo) : Prop := cid_ (ei_id ei) /\ coexn (ei_ex ei) /\ coval (ei_loc ei).
Lemma o_exn_info c x (s : st MS) ei s' : cexn x -> exn_info MS c x s = Ok (ei, s') -> cst s -> cei ei /\ cst s'.
Proof.
  unfold exn_info. intros Hx E H. ok_inv E. destruct a as [m1 g1]. cbn [fst snd] in E. destruct (catch_info x g1) as [[id ex] g] eqn:Hc. ok_inv E. simplify_eq.
  apply (o_catch_info x m1) in Hc as (? & ? & ?); [|done|by eapply o_deact]. split; [|done]. split; [done|]. split; [done|]. simpl. eapply c_get; [exact E1|]. by apply H2.
Qed.
Lemma o_leave c o (s : st MS) o' s' : leave MS c o s = Ok (o', s') -> o' = o /\ grows s s' /\ (cst s -> cst s').
Proof.
  unfold leave. intros E. ok_inv E. simplify_eq. split; [done|]. split; [|by apply (o_destroy c)].
  apply ok_grows. eapply (ok_destroy _ _ _ _ smach_inv). exact E0.
Qed.
Lemma o_deact_leave c o (s : st MS) o' s' : deact_leave MS c o s = Ok (o', s') -> o' = o /\ grows s s' /\ (cst s -> cst s').
Proof.
  unfold deact_leave. intros E. ok_inv E. apply o_leave in E as (-> & Hg & H2). split; [done|]. split.
  - eapply Nat.le_trans; [|exact Hg]. apply ok_grows. eapply (ok_deact _ _ _ _ smach_inv). exact E0.
  - intros H. apply H2. by eapply o_deact.
Qed.
Lemma o_tha_end c o (s : st MS) o' s' : tha_end MS c o s = Ok (o', s') -> o' = o /\ grows s s' /\ (cst s -> cst s').
Proof. unfold tha_end. destruct o as [r|x]; [|apply o_leave]. destruct (is_val r); [apply o_leave|done]. Qed.
Lemma o_ths_end c o (s : st MS) o' s' : ths_end G MS c o s = Ok (o', s') -> o' = o /\ grows s s' /\ (cout o -> cst s -> upto s' -> cst s').
Proof.
  unfold ths_end. intros E. assert (leave MS c o s = Ok (o', s') -> o' = o /\ grows s s' /\ (cout o -> cst s -> upto s' -> cst s')) as Hlv.
  { intros El. apply o_leave in El as (? & ? & ?). auto. }
  destruct o as [r|x]; [|auto]. destruct (is_val r); [auto|]. clear Hlv. ok_inv E. destruct a as [i s1]. ok_inv E.
  apply o_leave in E as (-> & Hg & H2). split; [done|].
  assert (grows s1 a) as G1. { apply ok_grows. eapply (ok_unl _ _ _ _ smach_inv). exact E1. }
  assert (grows s s1) as G0. { apply ok_grows. eapply (ok_err_id _ _ _ _ smach_inv). exact E0. }
  split; [unfold grows in *; lia|]. intros Hr H Hu. apply H2. eapply o_err_id in E0 as [? ?]; auto; [by eapply o_unl|]. unfold upto, grows in *. lia.
Qed.
Lemma o_res_info c r (s : st MS) i : cret r -> res_info G MS c r s = Ok i -> cst s ->
  match i with
  | inl (ei, r1, s') => upto s' -> cei ei /\ cret r1 /\ cst s'
  | inr (x, s') => cexn x /\ cst s'
  end.
Proof.
  unfold res_info. intros Hr E H. ok_inv E. destruct a as [[r1|x] s1]; apply o_unload_ret in E0 as [? ?]; auto.
  - ok_inv E. destruct a as [j s2]. ok_inv E. ok_inv E. simplify_eq. simpl in *. intros Hu.
    assert (grows s2 a) as G1. { apply ok_grows. eapply (ok_deact _ _ _ _ smach_inv). exact E1. }
    apply o_err_id in E0 as [? ?]; auto; [|by eapply upto_grows]. assert (cst a) by (by eapply o_deact). split; [|done]. split; [done|]. split; [done|]. simpl.
    eapply c_get; [exact E2|]. by apply H4.
  - by simplify_eq.
Qed.
Lemma o_peek T c ei (m : smem) o : cei ei -> cmem m -> peek G MS T c ei m = Ok o -> coval o.
Proof.
  intros (_ & Hx & _) H E. unfold peek in E. destruct (_ =? _); [by simplify_eq|]. ok_inv E. simplify_eq. apply c_get in E0; [|done]. destruct a as [v|]; [done|].
  unfold peek_exn. destruct (ei_ex ei) as [x|]; [|done]. destruct (negb _); [done|]. destruct (_ =? _)%nat.
  - destruct Hx as (_ & _ & Hc). unfold ccode in Hc. by destruct (x_code x) as [[cat z]|].
  - case_bool_decide; done.
Qed.
Lemma o_arg a c ei (m : smem) o : cei ei -> cmem m -> arg_get G MS a c ei m = Ok o -> match o with Some v => carg v | None => True end.
Proof.
  intros Hei H E. pose proof Hei as (H1 & H2 & H3). destruct a as [T|T|T p|cls|info p| | |]; cbn [arg_get] in E.
  - ok_inv E. simplify_eq. eapply o_peek in E0; eauto. by destruct a.
  - ok_inv E. simplify_eq. eapply o_peek in E0; eauto.
  - ok_inv E. simplify_eq. eapply o_peek in E0; eauto. destruct a; [|done]. by destruct (p v).
  - simplify_eq. destruct (ei_ex ei); [|done]. destruct cls; [done|]. by destruct (existsb _ _).
  - simplify_eq. destruct (ei_ex ei); [|done]. case_bool_decide; [|done]. destruct (info e) as [z|]; [|done]. by destruct (p z).
  - by simplify_eq.
  - ok_inv E. simplify_eq. simpl. split; [done|]. split; [done|]. split; [done|]. unfold shown in E0. destruct (g_diag G); [|simplify_eq; constructor]. exact (c_print _ _ _ _ E0 H).
  - ok_inv E. ok_inv E. simplify_eq. simpl. split; [done|]. split; [done|]. split; [done|]. split.
    + unfold shown in E0. destruct (g_diag G); [|simplify_eq; constructor]. exact (c_print _ _ _ _ E0 H).
    + destruct (_ && _); [|simplify_eq; constructor]. exact (c_details _ _ _ _ E1 H).
Qed.
Lemma o_args l c ei (m : smem) : forall o, cei ei -> cmem m -> args_get G MS l c ei m = Ok o -> match o with Some vs => Forall carg vs | None => True end.
Proof.
  induction l as [|a l IH]; intros o Hei H E; simpl in E; [simplify_eq; constructor|]. ok_inv E. revert IH. apply o_arg in E0; [|done|done]. destruct a0 as [v|]; [|by simplify_eq].
  ok_inv E. intros IH. specialize (IH _ Hei H eq_refl). simplify_eq. destruct a0; [|done]. by constructor.
Qed.
Lemma o_slices cls x : cexn x -> Forall citem (IVal T_EPTR (VX x) :: (if x_std x then slices cls x else [])).
Proof. intros Hx. constructor; [done|]. destruct (x_std x); [|constructor]. unfold slices. apply Forall_forall. intros it (cl & <- & _)%elem_of_list_In%in_map_iff. done. Qed.
Lemma o_e2r cls x (s : st MS) o s' : cexn x -> e2r G MS cls x s = Ok (o, s') -> cst s -> upto s' -> cout o /\ cst s'.
Proof.
  intros Hx E H Hu. unfold e2r in E. destruct (gnew G (snd s)) as [id g] eqn:Hg. ok_inv E. simplify_eq. destruct s as [m g0]. simpl in Hg.
  assert (upto (m, g)) as Hu1. { eapply upto_grows; [|exact Hu]. apply ok_grows. eapply (ok_id_load _ _ _ _ smach_inv). exact E0. }
  destruct (o_new _ _ _ _ Hg H Hu1) as [Hi H1]. split; [by apply cid_mk|]. eapply o_id_load; [by apply o_slices| |exact E0|exact H1]. by apply cid_no, cid_mk.
Qed.

Notation okg := (ok_st G MS Fall (fun _ => True)).
Definition cdflt (d : st MS -> res (out * st MS)) : Prop := forall s o s', d s = Ok (o, s') -> okg s s' /\ (cst s -> upto s' -> cout o /\ cst s').
Lemma dflt_grows caught hs c ei d (s : st MS) o s' : cdflt d -> evalH G MS caught hs c ei d s = Ok (o, s') -> okg s s'.
Proof.
  intros Hd E. eapply (proj2 (eval_glob _ _ _ _ smach_inv)) in E; [|apply within_all|].
  - apply E.
  - intros s1 o1 s1' E1. split; [destruct o1 as [[]|]; done|]. apply Hd in E1 as [? _]. exact H.
Qed.
Lemma dflt_rethrow c id x : cid_ id -> cexn x -> cdflt (unload_rethrow MS c id x).
Proof.
  intros Hid Hx s o s' E. unfold unload_rethrow in E. ok_inv E. simplify_eq. split; [eapply (ok_unl _ _ _ _ smach_inv); exact E0|].
  intros H _. split; [done|]. by eapply o_unl.
Qed.
Lemma dflt_fail : cdflt (fun _ => Fail IllTyped).
Proof. by intros ???. Qed.
Lemma dflt_ret r : cret r -> cdflt (fun s => Ok (ORet r, s)).
Proof. intros Hr s o s' E. simplify_eq. split; [apply ok_refl|]. done. Qed.
Lemma grows_trans s1 s2 s3 : grows s1 s2 -> grows s2 s3 -> grows s1 s3.
Proof. unfold grows. lia. Qed.

(** A scope whose body ends with an exception. *)
Lemma o_scope_body (fin : cid -> out -> st MS -> res (out * st MS)) c o x hs (s2 s' : st MS) :
  (forall caught c ei d s o s', coexn caught -> cei ei -> cdflt d -> evalH G MS caught hs c ei d s = Ok (o, s') -> cst s -> upto s' -> cout o /\ cst s') ->
  (forall c o s o' s', fin c o s = Ok (o', s') -> o' = o /\ grows s s' /\ (cout o -> cst s -> upto s' -> cst s')) -> cexn x ->
  (let! eis := exn_info MS c x s2 in
   let! os3 := evalH G MS (Some x) hs c (fst eis) (unload_rethrow MS c (ei_id (fst eis)) x) (snd eis) in
   fin c (fst os3) (snd os3)) = Ok (o, s') -> cst s2 -> upto s' -> cout o /\ cst s'.
Proof.
  intros IHh Hfin Hx E H Hu. ok_inv E. destruct a as [ei s3]. ok_inv E. destruct a as [o3 s4]. apply Hfin in E as (-> & Hg & Hf2).
  apply o_exn_info in E0 as [Hei H3]; [|done|done]. cbn [fst snd] in *.
  destruct (IHh (Some x) _ _ _ _ _ _ Hx Hei (dflt_rethrow c _ x (proj1 Hei) Hx) E1 H3 (upto_grows _ _ Hg Hu)). auto.
Qed.

Theorem eval_own :
  (forall p caught (s : st MS) o s', avoids p -> coexn caught -> eval G MS caught p s = Ok (o, s') -> cst s -> upto s' -> cout o /\ cst s') /\
  (forall hs caught c ei d (s : st MS) o s', avoidsH hs -> coexn caught -> cei ei -> cdflt d ->
     evalH G MS caught hs c ei d s = Ok (o, s') -> cst s -> upto s' -> cout o /\ cst s').
Proof.
  apply prog_handlers_ind.
  - intros r caught s o s' W Wc E H Hu. cbn in *. by simplify_eq.
  - intros p IH k IHk caught s o s' [W1 W2] Wc E H Hu. cbn [eval] in E. ok_inv E. destruct a as [[r|x] s1].
    + pose proof (eval_grows _ _ _ _ _ E) as Hg. apply IH in E0 as [? ?]; auto; [|by eapply upto_grows]. apply IHk in E as [? ?]; auto.
    + simplify_eq. apply IH in E0 as [? ?]; auto.
  - intros z k IH caught s o s' W Wc E H Hu. cbn [eval] in E. apply IH in E as [? ?]; auto.
  - intros its k IH caught s o s' [W1 W2] Wc E H Hu. cbn [eval] in E. destruct s as [m g0]. cbn [fst snd] in E. destruct (gnew G g0) as [id g] eqn:Hg. ok_inv E.
    pose proof (eval_grows _ _ _ _ _ E) as Hg1. assert (grows (m, g) a) as Hg2. { apply ok_grows. eapply (ok_id_load _ _ _ _ smach_inv). exact E0. }
    destruct (o_new _ _ _ _ Hg H) as [Hi H1]; [by do 2 (eapply upto_grows; [eassumption|])|]. pose proof (cid_mk _ Hi) as Hi'.
    apply o_id_load in E0; [|done|by apply cid_no|done]. eapply IH in E as [? ?]; auto.
  - intros id its k IH caught s o s' (W0 & W1 & W2) Wc E H Hu. cbn [eval] in E. ok_inv E.
    apply o_id_load in E0; [|done|by apply cid_no|done]. eapply IH in E as [? ?]; auto.
  - intros k IH caught s o s' W Wc E H Hu. cbn [eval] in E. eapply IH in E as [? ?]; auto. apply W, cid_mk, H.
  - intros oi x its caught s o s' (W0 & W1 & W2) Wc E H Hu. cbn [eval] in E. destruct s as [m g0]. cbn [fst snd] in E.
    destruct (match oi with Some id => (id, g0) | None => let '(id, g) := gnew G g0 in (mk id, g) end) as [id g] eqn:Hg.
    ok_inv E. assert (grows (m, g) a) as Hg2. { apply ok_grows. eapply (ok_id_load _ _ _ _ smach_inv). exact E0. }
    assert (grows a s') as Hg3. { unfold throw_leaf in E. simplify_eq. unfold grows. simpl. lia. }
    assert (cid_ id /\ cst (m, g)) as [Hi H1].
    { destruct oi; [by simplify_eq|]. destruct (gnew G g0) as [j g'] eqn:Hg'. simplify_eq. apply (o_new m) in Hg' as [? ?]; [split; [by apply cid_mk|done]|done|].
      by do 2 (eapply upto_grows; [eassumption|]). }
    apply o_id_load in E0; [|done|by apply cid_no|done]. pose proof (o_throw_leaf _ _ _ Hi W1 E0) as [? ?]. unfold throw_leaf in *. simplify_eq. done.
  - intros x caught s o s' W Wc E H Hu. cbn [eval] in E. pose proof (o_throw_plain _ _ W H) as [? ?]. unfold throw_plain in *. simplify_eq. done.
  - intros caught s o s' W Wc E H Hu. cbn [eval] in E. destruct caught; by simplify_eq.
  - (* PCatch *) intros p IH h IHh caught s o s' [W1 W2] Wc E H Hu. cbn [eval] in E. ok_inv E. destruct a as [[r|x] s1].
    + simplify_eq. apply IH in E0 as [? ?]; auto.
    + ok_inv E. destruct a as [o2 [m2 g2]]. cbn [fst snd] in E.
      assert (upto (m2, g2)) as Hu2. { simplify_eq. unfold upto, release, exn_destroy in *. simpl in *. repeat case_match; exact Hu. }
      pose proof (eval_grows _ _ _ _ _ E1) as Hg. apply IH in E0 as [? ?]; auto; [|by eapply upto_grows]. apply IHh in E1 as [? ?]; auto. simplify_eq. split; [done|].
      unfold release. destruct (_ || _); [done|]. by apply o_exn_destroy.
  - (* POnError *) intros its p IH caught s o s' [W1 W2] Wc E H Hu. cbn [eval] in E. ok_inv E. destruct a as [o1 [m1 g1]]. cbn [fst snd] in E.
    match type of E with (let '(_, _) := ?X in _) = _ => destruct X as [id g] eqn:Hg end.
    assert (grows (m1, g) s') as Hg2.
    { destruct (id =? 0); [simplify_eq; unfold grows; simpl; lia|]. ok_inv E. simplify_eq. apply ok_grows. eapply (ok_load_items _ _ _ _ smach_inv). exact E1. }
    assert (grows (m1, g1) (m1, g)) as Hg1.
    { unfold grows. simpl. destruct (negb _); [simplify_eq; lia|]. destruct o1; [simplify_eq; lia|]. unfold gnew in Hg. simplify_eq. simpl. lia. }
    apply IH in E0 as [Ho H1]; auto; [|by do 2 (eapply upto_grows; [eassumption|])].
    assert (cid_ id /\ cst (m1, g)) as [Hi H2].
    { destruct (negb _); [simplify_eq; split; [apply H1|done]|]. destruct o1; [simplify_eq; split; [apply cid_0|done]|]. apply (o_new m1) in Hg; [done|done|]. by eapply upto_grows. }
    destruct (id =? 0); [by simplify_eq|]. ok_inv E. simplify_eq. split; [done|]. eapply o_load_items; [exact W1|by apply cid_no|exact E0|done].
  - intros k IH caught s o s' W Wc E H Hu. cbn [eval] in E. eapply IH in E as [? ?]; auto. apply W, H.
  - intros m k IH caught s o s' W Wc E H Hu. cbn [eval] in E. eapply IH in E as [? ?]; auto. apply W, cid_mk. destruct (negb _); [apply H|apply cid_0].
  - intros m k IH caught s o s' W Wc E H Hu. cbn [eval] in E. destruct s as [m1 g1]. cbn [fst snd] in E. destruct (negb _); [eapply IH in E as [? ?]; auto; apply W, cid_mk, H|].
    destruct (gnew G g1) as [id g] eqn:Hg. pose proof (eval_grows _ _ _ _ _ E) as Hg1. destruct (o_new _ _ _ _ Hg H) as [Hi H1]; [by eapply upto_grows|].
    eapply IH in E as [? ?]; auto. by apply W, cid_mk.
  - (* PTHA *) intros p IH hs IHh caught s o s' [W1 W2] Wc E H Hu. cbn [eval] in E. destruct s as [m g]. cbn [fst snd] in E.
    destruct (m_new MS (deduce G hs) m) as [c m1] eqn:Hn. ok_inv E. ok_inv E. destruct a0 as [o1 s1]. ok_inv E. destruct a0 as [o2 s2].
    apply (o_new_ctx _ _ _ _ _ Hn) in H. apply (o_act _ _ _ E0) in H. clear E0 Hn.
    assert (upto s2 -> cout o2 /\ cst s2) as Hb.
    { intros Hu2. destruct o1 as [r|x].
      - assert (grows s1 s2) as Hg. { apply ok_grows. eapply (ok_unload_ret_st _ _ _ _ smach_inv); [|exact E2]. by destruct r. }
        apply IH in E1 as [? ?]; auto; [|by eapply upto_grows]. by eapply o_unload_ret.
      - simplify_eq. by apply IH in E1. }
    clear E1 E2. destruct o2 as [r|x].
    + destruct (is_val r) eqn:Hv.
      * apply o_deact_leave in E as (-> & Hg & Hf2). destruct Hb; [by eapply upto_grows|]. auto.
      * ok_inv E. destruct a0 as [[[ei r1] s3]|[x s3]].
        -- assert (grows s2 s3) as Hg1. { apply ok_grows. apply (ok_res_info _ _ _ _ smach_inv) in E0 as [_ ?]; [done|by destruct r]. }
           ok_inv E. destruct a0 as [o3 s4]. apply o_tha_end in E as (-> & Hg3 & Hf2). cbn [fst snd] in *.
           assert (grows s3 s4) as Hg2. { eapply evalH_grows; [|exact E1]. intros s6 o6 s7 H7; cbv beta in H7; first [discriminate H7|injection H7 as <- <-; apply ok_refl]. }
           destruct Hb as [Hr Hb]; [by do 3 (eapply upto_grows; [eassumption|])|].
           apply o_res_info in E0; [|done|done]. destruct E0 as (Hei & Hr1 & H3); [by do 2 (eapply upto_grows; [eassumption|])|].
           destruct (IHh _ _ _ _ _ _ _ W2 Wc Hei dflt_fail E1 H3 (upto_grows _ _ Hg3 Hu)). auto.
        -- assert (grows s2 s3) as Hg1. { apply ok_grows. apply (ok_res_info _ _ _ _ smach_inv) in E0; [done|by destruct r]. }
           apply o_deact_leave in E as (-> & Hg & Hf2). destruct Hb as [Hr Hb]; [by do 2 (eapply upto_grows; [eassumption|])|].
           apply o_res_info in E0 as [? ?]; auto.
    + assert (grows s2 s') as Hg.
      { clear Hb. ok_inv E. destruct a0 as [ei s3]. ok_inv E. destruct a0 as [o3 s4]. apply o_tha_end in E as (-> & Hg3 & Hf2). cbn [fst snd] in *.
        eapply grows_trans; [|exact Hg3]. eapply grows_trans; [apply ok_grows; by eapply (ok_exn_info _ _ _ _ smach_inv)|].
        eapply evalH_grows; [|exact E1]. intros s6 o6 s7 H7. unfold unload_rethrow in H7. ok_inv H7. simplify_eq. by eapply (ok_unl _ _ _ _ smach_inv). }
      destruct Hb as [Hx Hb]; [by eapply upto_grows|]. eapply (o_scope_body (tha_end MS)); [| |exact Hx|exact E|exact Hb|exact Hu].
      * intros. eapply IHh; eauto.
      * intros *. intros Ef. apply o_tha_end in Ef as (? & ? & ?). auto.
  - (* PTHS *) intros p IH hs IHh caught s o s' [W1 W2] Wc E H Hu. cbn [eval] in E. destruct s as [m g]. cbn [fst snd] in E.
    destruct (m_new MS (deduce G hs) m) as [c m1] eqn:Hn. ok_inv E. ok_inv E. destruct a0 as [o1 s1]. ok_inv E. destruct a0 as [o2 s2].
    apply (o_new_ctx _ _ _ _ _ Hn) in H. apply (o_act _ _ _ E0) in H. clear E0 Hn.
    assert (upto s2 -> cout o2 /\ cst s2) as Hb.
    { intros Hu2. destruct o1 as [r|x].
      - assert (grows s1 s2) as Hg. { apply ok_grows. eapply (ok_unload_ret_st _ _ _ _ smach_inv); [|exact E2]. by destruct r. }
        apply IH in E1 as [? ?]; auto; [|by eapply upto_grows]. by eapply o_unload_ret.
      - simplify_eq. by apply IH in E1. }
    clear E1 E2. destruct o2 as [r|x].
    + destruct (is_val r) eqn:Hv.
      * apply o_deact_leave in E as (-> & Hg & Hf2). destruct Hb; [by eapply upto_grows|]. auto.
      * ok_inv E. destruct a0 as [[[ei r1] s3]|[x s3]].
        -- assert (grows s2 s3) as Hg1. { apply ok_grows. apply (ok_res_info _ _ _ _ smach_inv) in E0 as [_ ?]; [done|by destruct r]. }
           ok_inv E. destruct a0 as [o3 s4]. apply o_ths_end in E as (-> & Hg3 & Hf2). cbn [fst snd] in *.
           assert (grows s3 s4) as Hg2. { eapply evalH_grows; [|exact E1]. intros s6 o6 s7 H7; cbv beta in H7; first [discriminate H7|injection H7 as <- <-; apply ok_refl]. }
           destruct Hb as [Hr Hb]; [by do 3 (eapply upto_grows; [eassumption|])|].
           apply o_res_info in E0; [|done|done]. destruct E0 as (Hei & Hr1 & H3); [by do 2 (eapply upto_grows; [eassumption|])|].
           destruct (IHh _ _ _ _ _ _ _ W2 Wc Hei (dflt_ret _ Hr1) E1 H3 (upto_grows _ _ Hg3 Hu)). auto.
        -- assert (grows s2 s3) as Hg1. { apply ok_grows. apply (ok_res_info _ _ _ _ smach_inv) in E0; [done|by destruct r]. }
           apply o_deact_leave in E as (-> & Hg & Hf2). destruct Hb as [Hr Hb]; [by do 2 (eapply upto_grows; [eassumption|])|].
           apply o_res_info in E0 as [? ?]; auto.
    + assert (grows s2 s') as Hg.
      { clear Hb. ok_inv E. destruct a0 as [ei s3]. ok_inv E. destruct a0 as [o3 s4]. apply o_ths_end in E as (-> & Hg3 & Hf2). cbn [fst snd] in *.
        eapply grows_trans; [|exact Hg3]. eapply grows_trans; [apply ok_grows; by eapply (ok_exn_info _ _ _ _ smach_inv)|].
        eapply evalH_grows; [|exact E1]. intros s6 o6 s7 H7. unfold unload_rethrow in H7. ok_inv H7. simplify_eq. by eapply (ok_unl _ _ _ _ smach_inv). }
      destruct Hb as [Hx Hb]; [by eapply upto_grows|]. eapply (o_scope_body (ths_end G MS)); [| |exact Hx|exact E|exact Hb|exact Hu].
      * intros. eapply IHh; eauto.
      * intros *. apply o_ths_end.
  - (* PTC *) intros p IH hs IHh caught s o s' [W1 W2] Wc E H Hu. cbn [eval] in E. destruct s as [m g]. cbn [fst snd] in E.
    destruct (m_new MS (deduce G hs) m) as [c m1] eqn:Hn. ok_inv E. ok_inv E. destruct a0 as [o2 s2].
    apply (o_new_ctx _ _ _ _ _ Hn) in H. apply (o_act _ _ _ E0) in H. clear E0 Hn.
    destruct o2 as [r|x].
    + apply o_deact_leave in E as (-> & Hg & Hf2). apply IH in E1 as [? ?]; auto. by eapply upto_grows.
    + assert (grows s2 s') as Hg.
      { ok_inv E. destruct a0 as [ei s3]. ok_inv E. destruct a0 as [o3 s4]. apply o_leave in E as (-> & Hg3 & Hf2). cbn [fst snd] in *.
        eapply grows_trans; [|exact Hg3]. eapply grows_trans; [apply ok_grows; by eapply (ok_exn_info _ _ _ _ smach_inv)|].
        eapply evalH_grows; [|exact E2]. intros s6 o6 s7 H7. unfold unload_rethrow in H7. ok_inv H7. simplify_eq. by eapply (ok_unl _ _ _ _ smach_inv). }
      apply IH in E1 as [Hx Hb]; auto; [|by eapply upto_grows]. eapply (o_scope_body (leave MS)); [| |exact Hx|exact E|exact Hb|exact Hu].
      * intros. eapply IHh; eauto.
      * intros * Ef. apply o_leave in Ef as (? & ? & ?). auto.
  - (* PCapture *) intros isvoid p IH caught s o s' W Wc E H Hu. cbn [eval] in E. destruct (negb (g_capture G)); [done|]. destruct s as [m g]. cbn [fst snd] in E.
    destruct (m_new MS [SDA] m) as [c m1] eqn:Hn. ok_inv E. ok_inv E. destruct a0 as [o2 s2].
    apply (o_new_ctx _ _ _ _ _ Hn) in H. apply (o_act _ _ _ E0) in H. clear E0 Hn.
    assert (forall id b l g ex (s3 : st MS), on_mem MS (m_deact MS c) s2 = Ok s3 -> ngen g = ngen (snd s3) -> 
      m_extract MS c id b (fst s3) = Ok l -> leave MS c (ORet (RCap id (fst l) ex)) (snd l, g) = Ok (o, s') -> 
      upto s2 /\ (cst s2 -> cid_ id -> coexn ex -> (cst s3 -> cst (fst s3, g)) -> cout o /\ cst s')) as Hfin.
    { intros id b [l m5] g5 ex s3 Hd Hg5 He Hl. apply o_leave in Hl as (-> & Hg & Hf2). split.
      - assert (grows s2 s3). { apply ok_grows. by eapply (ok_deact _ _ _ _ smach_inv). } unfold upto, grows in *. cbn [fst snd] in *. rewrite Hg5 in Hg. lia.
      - intros Hc Hid Hex H3. apply (o_deact _ _ _ Hd) in Hc. apply H3 in Hc. apply c_extract in He as [? ?]; [|by apply Hc]. split; [done|]. apply Hf2. destruct Hc as (? & ? & ?). done. }
    destruct o2 as [r|x].
    + destruct isvoid.
      * destruct (is_val r) eqn:Hv; [|done]. ok_inv E. simplify_eq. assert (grows s2 s'). { apply ok_grows. by eapply (ok_drop _ _ _ _ smach_inv). }
        apply IH in E1 as [? ?]; auto; [|by eapply upto_grows]. split; [done|]. exact (o_destroy _ _ _ E0 H2).
      * destruct r as [z|id|id l x|cat v]; [|ok_inv E; ok_inv E; destruct (Hfin _ _ _ _ _ _ E0 eq_refl E2 E) as [Hu2 Hf2]; apply IH in E1 as [Hr Hb]; auto;
          apply Hf2; auto; simpl in Hr; by apply cid_mk, Hr..|done].
        apply o_deact_leave in E as (-> & Hg & Hf2). apply IH in E1 as [? ?]; auto. by eapply upto_grows.
    + ok_inv E. destruct a0 as [m3 g3]. cbn [fst snd] in E. destruct (catch_info x g3) as [[id ex] g4] eqn:Hc. ok_inv E.
      assert (ngen g4 = ngen g3) as Hg4. { unfold catch_info in Hc. repeat case_match; by simplify_eq. }
      destruct (Hfin _ _ _ _ _ _ E0 Hg4 E2 E) as [Hu2 Hf2]. apply IH in E1 as [Hx Hb]; auto. pose proof (o_deact _ _ _ E0 Hb) as H3.
      destruct (o_catch_info _ _ _ _ _ _ Hx Hc H3) as (? & ? & ?). auto.
  - intros r k IH caught s o s' [W1 W2] Wc E H Hu. cbn [eval] in E. ok_inv E. destruct a as [[r1|x] s1]; apply o_unload_ret in E0 as [? ?]; auto.
    + apply IH in E as [? ?]; auto.
    + by simplify_eq.
  - intros r k IH caught s o s' [W1 W2] Wc E H Hu. cbn [eval] in E.
    assert (cxs (XSpec true [T_STDEX; T_BADRES] 0 None None)) as Hxs by done.
    destruct r as [z|id|id l x|cat v]; [eapply IH in E as [? ?]; auto| | |done]; ok_inv E; destruct a as [[r1|y] s1]; apply o_unload_ret in E0 as [? ?]; auto; try (by simplify_eq).
    + simpl in W1. pose proof (o_throw_leaf _ _ _ (cid_mk _ W1) Hxs H1) as [? ?]. unfold throw_leaf in *. by simplify_eq.
    + destruct W1 as [W1 _]. pose proof (o_throw_leaf _ _ _ (cid_mk _ W1) Hxs H1) as [? ?]. unfold throw_leaf in *. by simplify_eq.
  - intros r k IH caught s o s' [W1 W2] Wc E H Hu. cbn [eval] in E. ok_inv E. destruct a as [i s1]. pose proof (eval_grows _ _ _ _ _ E) as Hg.
    apply o_err_id in E0 as [? ?]; auto; [|by eapply upto_grows]. apply IH in E as [? ?]; auto.
  - intros cls p IH caught s o s' W Wc E H Hu. cbn [eval] in E. ok_inv E. destruct a as [[r1|x] s1].
    + simplify_eq. apply IH in E0 as [? ?]; auto.
    + assert (grows s1 s') as Hg. { apply ok_grows. by eapply (ok_e2r _ _ _ _ smach_inv). } apply IH in E0 as [? ?]; auto; [|by eapply upto_grows]. by eapply o_e2r.
  - intros cat v k IH caught s o s' [W1 W2] Wc E H Hu. cbn [eval] in E. ok_inv E. destruct a as [i s1]. pose proof (eval_grows _ _ _ _ _ E) as Hg.
    apply o_import in E0 as [? ?]; auto; [|by eapply upto_grows]. apply IH in E as [? ?]; auto.
  - intros tup k IH caught s o s' W Wc E H Hu. cbn [eval] in E. destruct s as [m g]. cbn [fst snd] in E.
    destruct (m_new MS (deduce_list G tup) m) as [c m1] eqn:Hn. ok_inv E. destruct a as [o1 s1]. apply o_leave in E as (-> & Hg & Hf2). cbn [fst snd] in *.
    apply (o_new_ctx _ _ _ _ _ Hn) in H. apply IH in E0 as [? ?]; auto. by eapply upto_grows.
  - intros c p IH caught s o s' W Wc E H Hu. cbn [eval] in E. ok_inv E. destruct a; [eapply IH in E as [? ?]; auto|]. ok_inv E. ok_inv E. ok_inv E. destruct a0 as [o1 s1].
    apply (o_act _ _ _ E1) in H. cbn [fst snd] in *. destruct a1.
    + ok_inv E. simplify_eq. assert (grows s1 s'). { apply ok_grows. by eapply (ok_deact _ _ _ _ smach_inv). }
      apply IH in E2 as [? ?]; auto; [|by eapply upto_grows]. split; [done|]. by eapply o_deact.
    + simplify_eq. apply IH in E2 as [? ?]; auto.
  - intros c id k IH caught s o s' [W1 W2] Wc E H Hu. cbn [eval] in E. ok_inv E. apply (o_unl _ _ _ _ W1 E0) in H. apply IH in E as [? ?]; auto.
  - intros c id hs IH caught s o s' [W1 W2] Wc E H Hu. cbn [eval] in E. ok_inv E. ok_inv E. ok_inv E. eapply (IH caught); [done|done| |apply dflt_fail|exact E|done|done].
    split; [done|]. split; [done|]. simpl. eapply c_get; [exact E2|]. by apply H.
  - intros caught c ei d s o s' _ Wc Hei Hd E H Hu. cbn [evalH] in E. apply Hd in E as [_ E]. auto.
  - intros args w b IHb rest IH caught c ei d s o s' [W1 W2] Wc Hei Hd E H Hu. cbn [evalH] in E. ok_inv E. apply o_args in E0; [|done|by apply H].
    destruct a as [l|]; [|by eapply IH]. destruct (W1 _ E0) as [Hw Hb]. ok_inv E. eapply IHb; [exact Hb|exact Wc|exact E| |done].
    split; [|apply H]. eapply c_set_all; [apply Hei|apply c_writes, Hw|exact E1|apply H].
  - intros hs IH rest IHr caught c ei d s o s' [W1 W2] Wc Hei Hd E H Hu. cbn [evalH] in E. refine (IH _ _ _ _ _ _ _ W1 Wc Hei _ E H Hu).
    intros s1 o1 s1' E1. split; [by eapply dflt_grows|]. intros H1 Hu1. by eapply IHr.
Qed.
End bound.
End G.
End own.
