(** Each operation of the pointer machine does what the stack machine says. *)
From Verif Require Export SimBase.
Open Scope Z_scope.

Ltac ok_inv H := match type of H with
  | rbind ?x _ = Ok _ => let E := fresh "E" in destruct x eqn:E; simpl in H; [|discriminate H]
  end.

Lemma sassert_ok b u : sassert b = Ok u -> b = true.
Proof. destruct b; done. Qed.

Lemma assert_ok G b : b = true -> assert G b = Ok tt.
Proof. intros ->. unfold assert. by rewrite andb_false_r. Qed.

Lemma nz_true z : negb (z =? 0) = true <-> z <> 0.
Proof. rewrite negb_true_iff. apply Z.eqb_neq. Qed.

(** Changing the contents of one context. *)
Lemma R_put m m' s c a a' k :
  R m s -> actxs s !! c = Some a -> ctxs m !! c = Some k ->
  ctxs m' = ctxs m -> nc m' = nc m -> tls m' = tls m -> tlsd m' = tlsd m -> na m' = na m ->
  (forall c' T, c' <> c -> hp m' !! inl (c', T) = hp m !! inl (c', T)) ->
  (forall c', c' <> c -> dhp m' !! c' = dhp m !! c') ->
  (forall n, (forall d, dhp m !! c = Some d -> n ∉ (d_nodes d).*2) -> hp m' !! inr n = hp m !! inr n) ->
  (forall d, dhp m !! c = Some d -> exists d', dhp m' !! c = Some d' /\ d_prev d' = d_prev d /\ d_nodes d' = d_nodes d) ->
  (dhp m !! c = None -> dhp m' !! c = None) ->
  (forall ad sl, hp m !! ad = Some sl -> exists sl', hp m' !! ad = Some sl' /\ e_prev sl' = e_prev sl) ->
  ctxR m' (bool_decide (c ∈ stack s)) c k a' ->
  R m' (put c a' s).
Proof.
  intros HR Ha Hk Hctxs Hnc Htls Htlsd Hna Hhp Hdhp Hnode Hd HdN Hprev HcR.
  assert (shape m m') as Hsh.
  { split; intros c'; [by rewrite Hctxs|]. destruct (decide (c' = c)) as [->|]; [|by rewrite Hdhp].
    destruct (dhp m !! c) as [d|] eqn:E; [|by rewrite HdN].
    destruct (Hd d eq_refl) as (d' & -> & _ & Hn). simpl. by rewrite Hn. }
  assert (forall c' d', dhp m' !! c' = Some d' -> exists d, dhp m !! c' = Some d /\ d_nodes d' = d_nodes d) as Hback.
  { intros c' d' Hd'. destruct (decide (c' = c)) as [->|]; [|rewrite Hdhp in Hd' by done; eauto].
    destruct (dhp m !! c) as [d|] eqn:E; [|by rewrite HdN in Hd'].
    destruct (Hd d eq_refl) as (d1 & ? & _ & Hn). exists d. split; auto. congruence. }
  destruct HR. constructor; simpl; auto.
  - congruence.
  - intros c'. rewrite Hctxs. destruct (decide (c' = c)) as [->|Hne].
    + rewrite lookup_insert, Hk. exact HcR.
    + rewrite lookup_insert_ne by done. specialize (R_ctx c').
      destruct (ctxs m !! c') as [k'|], (actxs s !! c') as [a0|]; simpl in *; auto.
      eapply ctxR_ext; [..|exact R_ctx]; auto.
      * intros T sl _ Hsl. rewrite Hhp by done. eauto.
      * intros d Hd'. exists d. rewrite Hdhp by done. repeat split; auto.
        intros n Hn sl Hsl. rewrite Hnode; eauto.
      * intros. by rewrite Hdhp.
  - intros c' d' Hd'. rewrite Hctxs. destruct (Hback _ _ Hd') as (d & ? & _). eauto.
  - intros c' a0. destruct (decide (c' = c)) as [->|Hne]; [rewrite lookup_insert|rewrite lookup_insert_ne by done]; eauto.
  - intros c' Hc'. destruct (decide (c' = c)) as [->|Hne]; [rewrite lookup_insert|rewrite lookup_insert_ne by done]; eauto.
  - intros T. rewrite Htls, R_tls. by apply chead_shape.
  - intros T. eapply linked_ext; [..|apply R_lnk].
    + intros. by apply caddr_shape.
    + intros. eauto.
  - rewrite Htlsd, R_tlsd. by apply dhead_shape.
  - eapply dlinked_ext; [..|exact R_dlnk].
    + intros. by apply hasd_shape.
    + intros c' d _ Hd'. destruct (decide (c' = c)) as [->|].
      * destruct (Hd d Hd') as (d' & ? & ? & _). eauto.
      * exists d. by rewrite Hdhp.
  - intros c1 c2 d1 d2 n H1 H2 H3 H4.
    destruct (Hback _ _ H1) as (d1' & H1' & E1). destruct (Hback _ _ H2) as (d2' & H2' & E2).
    rewrite E1 in H3. rewrite E2 in H4. eauto.
  - intros c' d' n Hd' Hn. destruct (Hback _ _ Hd') as (d & Hd0 & E). rewrite Hna. rewrite E in Hn. eauto.
Qed.

(** The slot an address belongs to. *)
Lemma caddr_cases m c T ad k : ctxs m !! c = Some k -> caddr m c T = Some ad ->
  (SE T ∈ k_tup k /\ ad = inl (c, T)) \/
  (SE T ∉ k_tup k /\ exists d n, dhp m !! c = Some d /\ node_at T (d_nodes d) = Some n /\ ad = inr n).
Proof.
  intros Hk. unfold caddr. rewrite Hk. case_bool_decide as HT; intros H; simplify_eq; [by left|right].
  split; auto. destruct (dhp m !! c) as [d|]; [|done]. destruct (node_at T (d_nodes d)) as [n|] eqn:E; [|done].
  simpl in H. simplify_eq. eauto.
Qed.

Lemma set_node_R h h' l1 l2 T n kv sl :
  NoDup l1.*2 -> node_at T l1 = Some n -> h' !! inr n = Some sl -> cellR sl (Some kv) ->
  (forall n', n' <> n -> h' !! inr n' = h !! inr n') ->
  Forall2 (nodeR h) l1 l2 -> Forall2 (nodeR h') l1 (set_node T kv l2).
Proof.
  intros Hnd Hat Hn Hc Ho HF.
  induction HF as [|[T1 n1] [T2 kv2] l1 l2 [E Hsl] HF IH]; simpl in *; [done|]. subst T2.
  apply NoDup_cons in Hnd as [Hni Hnd]. destruct (decide (T = T1)) as [->|Hne].
  - simplify_eq. constructor; [split; simpl; eauto|].
    eapply Forall2_nodeR_ext; [|exact HF]. intros n' Hn' sl' Hsl'. rewrite Ho; eauto. intros ->. done.
  - constructor; [|by auto]. split; auto. simpl. destruct Hsl as (sl1 & H1 & H2). exists sl1. split; auto.
    rewrite Ho; auto. intros ->. apply Hni. apply node_at_in in Hat. apply elem_of_list_fmap. exists (T, n). auto.
Qed.

Lemma set_e_cell T x a : SE T ∈ ac_tup a -> set_e T x a = ACtx (ac_tup a) (<[T := x]> (ac_cell a)) (ac_coll a).
Proof. intros. unfold set_e. by rewrite bool_decide_true. Qed.

Lemma set_e_node T x a : SE T ∉ ac_tup a -> set_e T x a = ACtx (ac_tup a) (ac_cell a)
  (match ac_coll a with Some q => Some (Coll (q_key q) (set_node T x (q_nodes q)) (q_ok q)) | None => None end).
Proof. intros. unfold set_e. by rewrite bool_decide_false. Qed.

(** Loading an object into an existing slot. *)
Lemma store_R G m s c a T ad sl id v :
  R m s -> actxs s !! c = Some a -> has_e T a = true -> caddr m c T = Some ad -> hp m !! ad = Some sl -> id <> 0 ->
  exists m', slot_load G ad id v m = Ok m' /\ R m' (put c (set_e T (id, v) a) s).
Proof.
  intros HR Ha He Had Hsl Hid. destruct (R_look _ _ _ _ HR Ha) as (k & Hk & HcR).
  unfold slot_load. rewrite Hsl. simpl. rewrite assert_ok by (by apply nz_true). simpl. eexists. split; [done|].
  destruct (caddr_cases _ _ _ _ _ Hk Had) as [[HT ->]|[HT (d & n & Hd & Hn & ->)]].
  - eapply R_put; try done; simpl.
    + intros c' T' Hne. rewrite lookup_insert_ne; auto. congruence.
    + intros n _. by rewrite lookup_insert_ne.
    + eauto.
    + intros ad' sl' Hsl'. destruct (decide (ad' = inl (c, T))) as [->|Hne].
      * rewrite lookup_insert. simplify_eq. eauto.
      * rewrite lookup_insert_ne by done. eauto.
    + destruct HcR. rewrite cr_tup in HT. rewrite set_e_cell by done. constructor; simpl; auto.
      * intros T' HT'. destruct (decide (T' = T)) as [->|Hne].
        -- rewrite !lookup_insert. eexists. split; [done|]. simpl. auto.
        -- rewrite !lookup_insert_ne by congruence. auto.
      * intros Hd. destruct (cr_coll Hd) as (d & Hd1 & Hd2). exists d. split; auto.
        eapply collR_ext; [..|exact Hd2]; auto. intros n _ sl0 Hsl0. rewrite lookup_insert_ne by done. eauto.
  - eapply R_put; try done; simpl.
    + intros c' T' Hne. by rewrite lookup_insert_ne.
    + intros n' Hn'. rewrite lookup_insert_ne; auto. intros [= <-]. apply (Hn' d Hd).
      apply node_at_in in Hn. apply elem_of_list_fmap. exists (T, n). auto.
    + eauto.
    + intros ad' sl' Hsl'. destruct (decide (ad' = inr n)) as [->|Hne].
      * rewrite lookup_insert. simplify_eq. eauto.
      * rewrite lookup_insert_ne by done. eauto.
    + destruct HcR. rewrite cr_tup in HT. rewrite set_e_node by done.
      assert (has_node T (nodes a) = true) as Hhas.
      { unfold has_e in He. by rewrite bool_decide_false in He. }
      constructor; simpl; auto.
      * intros T' HT'. rewrite lookup_insert_ne by done. auto.
      * intros HD. destruct (cr_coll HD) as (d0 & Hd1 & Hd2). simplify_eq. exists d. split; auto.
        unfold nodes in Hhas. destruct (ac_coll a) as [q|]; [|done]. simpl in *.
        destruct Hd2 as (? & ? & ? & ? & ? & HF). repeat split; auto.
        eapply set_node_R; [done|done|by rewrite lookup_insert|by simpl| |exact HF].
        intros n' Hne. rewrite lookup_insert_ne; auto. congruence.
      * intros HD. destruct (cr_nocoll HD). simplify_eq.
      * intros T'. unfold nodes, has_node in *. destruct (ac_coll a) as [q|]; simpl in *; auto.
        rewrite set_node_types. apply (cr_disj T').
Qed.

(** Emptying a slot of an inactive or active context. *)
Lemma reset_R m s c a T :
  R m s -> actxs s !! c = Some a -> SE T ∈ ac_tup a ->
  exists m', slot_reset (inl (c, T)) m = Ok m' /\ R m' (put c (cell_clear T a) s).
Proof.
  intros HR Ha HT. destruct (R_look _ _ _ _ HR Ha) as (k & Hk & HcR). pose proof HcR as HcR'. destruct HcR.
  destruct (cr_cell T HT) as (sl & Hsl & _). unfold slot_reset. rewrite Hsl. simpl. eexists. split; [done|].
  eapply R_put; try done; simpl.
  - intros c' T' Hne. rewrite lookup_insert_ne; auto. congruence.
  - intros n _. by rewrite lookup_insert_ne.
  - eauto.
  - intros ad' sl' Hsl'. destruct (decide (ad' = inl (c, T))) as [->|Hne].
    + rewrite lookup_insert. simplify_eq. eauto.
    + rewrite lookup_insert_ne by done. eauto.
  - unfold cell_clear. constructor; simpl; auto.
    + intros T' HT'. destruct (decide (T' = T)) as [->|Hne].
      * rewrite lookup_insert, lookup_delete. eexists. split; [done|]. done.
      * rewrite lookup_insert_ne by congruence. rewrite lookup_delete_ne by done. auto.
    + intros Hd. destruct (cr_coll Hd) as (d & Hd1 & Hd2). exists d. split; auto.
      eapply collR_ext; [..|exact Hd2]; auto. intros n _ sl0 Hsl0. rewrite lookup_insert_ne by done. eauto.
Qed.

(** Assigning to an object. *)
Lemma set_R c T id v m s s' : R m s -> sset c T id v s = Ok s' -> exists m', mset c T id v m = Ok m' /\ R m' s'.
Proof.
  intros HR H. unfold sset in H. destruct (actxs s !! c) as [a|] eqn:Ha; [|done]. case_bool_decide; [done|].
  destruct (R_look _ _ _ _ HR Ha) as (k & Hk & HcR). unfold mset. rewrite Hk. simpl. rewrite (cr_tup _ _ _ _ _ HcR).
  destruct (decide (SE T ∈ ac_tup a)) as [HT|HT]; [|rewrite bool_decide_false in * by done; simplify_eq; eauto].
  rewrite bool_decide_true in * by done. destruct (cr_cell _ _ _ _ _ HcR T HT) as (sl & Hsl & Hc). rewrite Hsl. simpl.
  destruct (ac_cell a !! T) as [[k0 v0]|] eqn:Hcell; simpl in Hc.
  - destruct Hc as (Hk0 & Ek & Ev). rewrite Ek. destruct (k0 =? id) eqn:E; [|simplify_eq; simpl; eauto]. apply Z.eqb_eq in E. subst k0.
    simplify_eq. rewrite (proj2 (Z.eqb_neq _ _) Hk0). simpl. eexists. split; [done|].
    destruct (store_R (Cfg false false false (fun _ => true) (fun _ => true) (fun _ => true) (fun _ => v) (fun _ => 0)) m s c a T (inl (c, T)) sl (e_key sl) v) as (m' & E1 & E2); auto.
    + unfold has_e. by rewrite bool_decide_true.
    + unfold caddr. rewrite Hk, (cr_tup _ _ _ _ _ HcR). by rewrite bool_decide_true.
    + unfold slot_load in E1. rewrite Hsl in E1. simpl in E1. simplify_eq. rewrite set_e_cell in E2 by done. exact E2.
  - rewrite Hc. simplify_eq. destruct (0 =? id) eqn:E; simpl; [|eauto]. apply Z.eqb_eq in E. subst id. simpl. eauto.
Qed.

(** Starting a collection. *)
Lemma dload_R G m s c a id :
  R m s -> actxs s !! c = Some a -> SDA ∈ ac_tup a -> nodes a = [] -> id <> 0 ->
  exists m', dslot_load G c id m = Ok m' /\ R m' (put c (set_coll (Some (Coll id [] true)) a) s) /\
    tls m' = tls m /\ tlsd m' = tlsd m /\ hp m' = hp m.
Proof.
  intros HR Ha HD Hn Hid. destruct (R_look _ _ _ _ HR Ha) as (k & Hk & HcR). pose proof HcR as HcR'. destruct HcR.
  destruct (cr_coll HD) as (d & Hd & Hcoll). unfold dslot_load. rewrite assert_ok by (by apply nz_true). simpl.
  unfold dslot_reset. rewrite Hd. simpl.
  assert (d_nodes d = []) as Hdn.
  { unfold nodes in Hn. destruct (ac_coll a) as [q|]; simpl in *.
    - destruct Hcoll as (_ & _ & _ & _ & _ & HF). rewrite Hn in HF. by inversion HF.
    - by destruct Hcoll. }
  rewrite Hdn. simpl.
  assert ((if d_key d =? 0 then Ok m else Ok m) = Ok m) as -> by (by destruct (d_key d =? 0)). simpl.
  rewrite lookup_insert. simpl. eexists. split; [done|]. split; [|done].
  eapply R_put; try done; simpl.
  - intros c' Hne. by rewrite !lookup_insert_ne.
  - intros d' Hd'. simplify_eq. rewrite lookup_insert. eexists. split; [done|]. by rewrite Hdn.
  - intros Hd'. congruence.
  - eauto.
  - constructor; simpl; auto.
    + intros _. rewrite lookup_insert. eexists. split; [done|]. simpl. repeat split; auto; constructor.
    + intros. done.
    + intros T. done.
Qed.

Lemma chead_None m T l : chead m T l = None -> forall c, c ∈ l -> caddr m c T = None.
Proof.
  induction l as [|c l IH]; simpl; intros H c' Hc'; [by inversion Hc'|].
  destruct (caddr m c T) eqn:E; [done|]. apply elem_of_cons in Hc' as [->|]; auto.
Qed.

Lemma chead_None' m T l : (forall c, c ∈ l -> caddr m c T = None) -> chead m T l = None.
Proof.
  induction l as [|c l IH]; simpl; intros H; auto. rewrite H by constructor. apply IH. intros. apply H. by constructor.
Qed.

(** Adding an object to a collection. *)
Lemma daload_R G m s c a q id T v :
  R m s -> actxs s !! c = Some a -> c ∈ stack s -> SDA ∈ ac_tup a -> ac_coll a = Some q -> q_ok q = true ->
  tls m !! T = None -> id <> 0 ->
  exists m', da_load G c id T v m = Ok m' /\
    R m' (put c (set_coll (Some (Coll (q_key q) (q_nodes q ++ [(T, (id, v))]) true)) a) s).
Proof.
  intros HR Ha Hin HD Hq Hok HT Hid.
  destruct (R_look _ _ _ _ HR Ha) as (k & Hk & HcR). pose proof HcR as HcR'. destruct HcR.
  destruct (cr_coll HD) as (d & Hd & Hcoll). rewrite Hq in Hcoll. destruct Hcoll as (Hq0 & Hkey & Hlast & Hnd1 & Hnd2 & HF).
  unfold da_load. rewrite Hd. simpl. rewrite Hlast, Hok. simpl.
  rewrite (assert_ok G (bool_decide (tls m !! T = None))) by (by apply bool_decide_eq_true).
  simpl. rewrite assert_ok by (by apply nz_true). simpl.
  unfold slot_activate. simpl. rewrite lookup_insert. simpl. rewrite HT. eexists. split; [done|].
  assert (forall c', c' ∈ stack s -> caddr m c' T = None) as Hnone.
  { apply chead_None. by rewrite <- (R_tls _ _ HR T). }
  assert (SE T ∉ ac_tup a) as HTa.
  { specialize (Hnone c Hin). unfold caddr in Hnone. rewrite Hk in Hnone. case_bool_decide; [done|]. congruence. }
  assert (T ∉ (d_nodes d).*1) as HTn.
  { specialize (Hnone c Hin). unfold caddr in Hnone. rewrite Hk, Hd in Hnone.
    rewrite bool_decide_false in Hnone by congruence. destruct (node_at T (d_nodes d)) eqn:E; [done|].
    by apply node_at_None. }
  set (n := na m).
  assert (forall c' d', dhp m !! c' = Some d' -> n ∉ (d_nodes d').*2) as Hfresh.
  { intros c' d' Hd' Hn. pose proof (R_na _ _ HR c' d' n Hd' Hn). unfold n in *. lia. }
  match goal with |- R ?m1 _ => set (m' := m1) end.
  assert (forall c' T', (c' <> c \/ T' <> T) -> caddr m' c' T' = caddr m c' T') as Hca.
  { intros c' T' Hne. unfold caddr. simpl. destruct (ctxs m !! c') as [k'|]; auto.
    destruct (bool_decide (SE T' ∈ k_tup k')); auto. destruct (decide (c' = c)) as [->|].
    - rewrite lookup_insert, Hd. simpl. rewrite node_at_app. destruct (node_at T' (d_nodes d)); auto.
      rewrite decide_False; auto. naive_solver.
    - by rewrite lookup_insert_ne. }
  assert (caddr m' c T = Some (inr n)) as HcaT.
  { unfold caddr. simpl. rewrite Hk. rewrite bool_decide_false by congruence. rewrite lookup_insert. simpl.
    rewrite node_at_app. apply node_at_None in HTn. rewrite HTn. by rewrite decide_True. }
  assert (forall ad sl, hp m !! ad = Some sl -> ad <> inr n -> hp m' !! ad = Some sl) as Hhp.
  { intros ad sl Hsl Hne. simpl. rewrite !lookup_insert_ne by done. done. }
  assert (hp m' !! inr n = Some (ESlot id v None)) as Hhpn by (simpl; by rewrite lookup_insert).
  assert (forall c', hasd m' c' = hasd m c') as Hhd by done.
  assert (forall c' d', dhp m' !! c' = Some d' -> exists d0, dhp m !! c' = Some d0 /\
     ((c' <> c /\ d_nodes d' = d_nodes d0) \/ (c' = c /\ d_nodes d' = d_nodes d0 ++ [(T, n)]))) as Hback.
  { intros c' d' Hd'. simpl in Hd'. destruct (decide (c' = c)) as [->|].
    - rewrite lookup_insert in Hd'. simplify_eq. simpl. eauto 10.
    - rewrite lookup_insert_ne in Hd' by done. eauto 10. }
  pose proof (R_own _ _ HR) as Hown. pose proof (R_na _ _ HR) as Hna.
  constructor; simpl.
  - apply HR.
  - intros c'. destruct (decide (c' = c)) as [->|Hne].
    + rewrite lookup_insert, Hk. constructor; simpl; auto.
      * intros T' HT'. destruct (cr_cell T' HT') as (sl & ? & ?). exists sl. rewrite !lookup_insert_ne by done. auto.
      * intros _. rewrite lookup_insert. eexists. split; [done|]. simpl. repeat split; auto.
        -- rewrite fmap_app. apply NoDup_app. split; [done|]. split; [|by apply NoDup_singleton].
           intros x Hx Hx'. apply elem_of_list_singleton in Hx'. simpl in Hx'. congruence.
        -- rewrite fmap_app. apply NoDup_app. split; [done|]. split; [|by apply NoDup_singleton].
           intros x Hx Hx'. apply elem_of_list_singleton in Hx'. subst x. by apply (Hfresh c d).
        -- apply Forall2_app.
           ++ eapply Forall2_nodeR_ext; [|exact HF]. intros n' Hn' sl Hsl. exists sl. rewrite !lookup_insert_ne; auto; intros [= <-]; by apply (Hfresh c d).
           ++ constructor; [|constructor]. split; [done|]. exists (ESlot id v None). rewrite lookup_insert. by simpl.
      * intros. done.
      * intros T' HT'. unfold nodes, has_node in *. simpl in *. rewrite fmap_app in HT'.
        apply bool_decide_eq_true in HT'. apply elem_of_app in HT' as [HT'|HT'].
        -- apply cr_disj. rewrite Hq. by apply bool_decide_eq_true.
        -- apply elem_of_list_singleton in HT'. simpl in HT'. by subst.
    + rewrite lookup_insert_ne by done. pose proof (R_ctx _ _ HR c') as Hc'.
      destruct (ctxs m !! c') as [k'|], (actxs s !! c') as [a0|]; simpl in *; auto.
      eapply ctxR_ext; [..|exact Hc']; auto; simpl.
      * intros T' sl _ Hsl. rewrite !lookup_insert_ne by done. eauto.
      * intros d' Hd'. exists d'. rewrite lookup_insert_ne by done. repeat split; auto.
        intros n' Hn' sl Hsl. exists sl. rewrite !lookup_insert_ne; auto; intros [= <-]; by apply (Hfresh c' d').
      * intros. by rewrite lookup_insert_ne.
  - intros c' d' Hd'. destruct (Hback _ _ Hd') as (d0 & ? & _). eapply R_dom; eauto.
  - intros c' a0. destruct (decide (c' = c)) as [->|]; [rewrite lookup_insert|rewrite lookup_insert_ne by done];
      intros; eapply R_lt; eauto.
  - apply HR.
  - intros c' Hc'. destruct (decide (c' = c)) as [->|]; [rewrite lookup_insert|rewrite lookup_insert_ne by done]; eauto.
    eapply R_in; eauto.
  - intros T'. destruct (decide (T' = T)) as [->|Hne].
    + rewrite lookup_partial_alter. clear -Hin Hnone Hca HcaT.
      induction (stack s) as [|c' l IH]; [by inversion Hin|]. simpl.
      destruct (decide (c' = c)) as [->|Hne]; [by rewrite HcaT|].
      rewrite Hca by auto. rewrite Hnone by constructor. apply IH.
      * apply elem_of_cons in Hin as [?|?]; [congruence|done].
      * intros. apply Hnone. by constructor.
    + rewrite lookup_partial_alter_ne by done. rewrite (R_tls _ _ HR). apply chead_ext. intros. symmetry. apply Hca. auto.
  - intros T'. destruct (decide (T' = T)) as [->|Hne].
    + pose proof (R_nodup _ _ HR) as Hns. clear -Hin Hnone Hca HcaT Hhpn Hns.
      induction (stack s) as [|c' l IH]; [by inversion Hin|]. apply NoDup_cons in Hns as [Hnotin Hns]. simpl. split.
      * intros ad Had. destruct (decide (c' = c)) as [->|Hne].
        -- rewrite HcaT in Had. simplify_eq. eexists. split; [exact Hhpn|]. simpl. symmetry. apply chead_None'.
           intros c1 Hc1. rewrite Hca; [apply Hnone; by constructor|]. left. intros ->. done.
        -- rewrite Hca in Had by auto. rewrite Hnone in Had by constructor. done.
      * destruct (decide (c ∈ l)) as [Hcl|Hcl].
        -- apply IH; auto. intros. apply Hnone. by constructor.
        -- assert (forall c1, c1 ∈ l -> caddr m' c1 T = None) as Hl.
           { intros c1 Hc1. rewrite Hca; [apply Hnone; by constructor|]. left. intros ->. done. }
           clear -Hl. induction l as [|c1 l IH]; simpl; auto. split; [|apply IH; intros; apply Hl; by constructor].
           intros ad. rewrite Hl by constructor. done.
    + eapply linked_ext; [..|apply (R_lnk _ _ HR T')].
      * intros. symmetry. apply Hca. auto.
      * intros c' ad sl Hc' Had Hsl. exists sl. split; auto. apply Hhp; auto. intros ->.
        destruct (R_in _ _ HR c' Hc') as [a0 Ha0]. destruct (R_look _ _ _ _ HR Ha0) as (k' & Hk' & _).
        destruct (caddr_cases _ _ _ _ _ Hk' Had) as [[_ ?]|[_ (d' & n' & Hd' & Hn' & [= <-])]]; [done|].
        apply (Hfresh c' d' Hd'). apply node_at_in in Hn'. apply elem_of_list_fmap. exists (T', n). auto.
  - rewrite (R_tlsd _ _ HR). by apply dhead_ext.
  - eapply dlinked_ext; [..|exact (R_dlnk _ _ HR)]; auto.
    intros c' d' _ Hd'. simpl. destruct (decide (c' = c)) as [->|].
    + rewrite lookup_insert. simplify_eq. eauto.
    + rewrite lookup_insert_ne by done. eauto.
  - intros c1 c2 d1 d2 n' H1 H2 H3 H4.
    destruct (Hback _ _ H1) as (d1' & H1' & [[Hc1 E1]|[Hc1 E1]]);
    destruct (Hback _ _ H2) as (d2' & H2' & [[Hc2 E2]|[Hc2 E2]]); subst; rewrite ?E1, ?E2 in *; eauto.
    + rewrite fmap_app in H4. apply elem_of_app in H4 as [H4|H4]; eauto. apply elem_of_list_singleton in H4.
      simpl in H4. subst n'. by destruct (Hfresh c1 d1').
    + rewrite fmap_app in H3. apply elem_of_app in H3 as [H3|H3]; eauto. apply elem_of_list_singleton in H3.
      simpl in H3. subst n'. by destruct (Hfresh c2 d2').
  - intros c' d' n' Hd' Hn'. destruct (Hback _ _ Hd') as (d0 & Hd0 & [[Hc1 E1]|[Hc1 E1]]); rewrite E1 in Hn'.
    + specialize (Hna _ _ _ Hd0 Hn'). lia.
    + rewrite fmap_app in Hn'. apply elem_of_app in Hn' as [Hn'|Hn'].
      * specialize (Hna _ _ _ Hd0 Hn'). lia.
      * apply elem_of_list_singleton in Hn'. simpl in Hn'. unfold n in *. lia.
Qed.
