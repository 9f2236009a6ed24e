(** Loading, receiving and unloading objects. *)
From Verif Require Export SimOps.
Open Scope Z_scope.

Lemma put_put c a a' s : put c a' (put c a s) = put c a' s.
Proof. unfold put. simpl. by rewrite insert_insert. Qed.

Lemma put_look c a s : actxs (put c a s) !! c = Some a.
Proof. unfold put. simpl. by rewrite lookup_insert. Qed.

Section sim.
Context (G : cfg).

Lemma collect_R m s s' id T v :
  R m s -> tls m !! T = None -> scollect id T v s = Ok s' ->
  exists m', dyn_load G id T v m = Ok m' /\ R m' s'.
Proof.
  intros HR HT H. unfold scollect in H. pose proof (find_d_R _ _ HR) as Hd.
  destruct (find_d s) as [[c a]|]; unfold dyn_load; [|simplify_eq; rewrite Hd; eauto].
  destruct Hd as (Ha & Hin & HD & Htlsd & d & Hd & Hc). rewrite Htlsd, Hd. simpl.
  ok_inv H. apply sassert_ok, nz_true in E.
  destruct (ac_coll a) as [q|] eqn:Hq.
  - destruct Hc as (Hq0 & Hk & _). rewrite Hk. rewrite (proj2 (nz_true _) Hq0).
    destruct (q_ok q) eqn:Hok; [|done]. simplify_eq. eapply daload_R; eauto.
  - destruct Hc as [Hk _]. rewrite Hk. simpl. simplify_eq.
    destruct (dload_R G m s c a id HR Ha HD) as (m1 & H1 & HR1 & Ht & _); [by unfold nodes; rewrite Hq|done|].
    rewrite H1. simpl.
    destruct (daload_R G m1 _ c _ (Coll id [] true) id T v HR1 (put_look _ _ _)) as (m2 & H2 & HR2); try done.
    { by rewrite Ht. }
    rewrite put_put in HR2. eauto.
Qed.

Lemma collect_acc_R m s s' id T tag f g :
  R m s -> tls m !! T = None -> find_d s <> None -> scollect_acc id T (f (g_def G T)) s = Ok s' ->
  exists m', dyn_accumulate G id T tag f m g = Ok (m', emit (EvAcc tag) g) /\ R m' s'.
Proof.
  intros HR HT Hnn H. unfold scollect_acc in H. pose proof (find_d_R _ _ HR) as Hd.
  destruct (find_d s) as [[c a]|]; unfold dyn_accumulate; [|done].
  destruct Hd as (Ha & Hin & HD & Htlsd & d & Hd & Hc). rewrite Htlsd, Hd. simpl.
  ok_inv H. apply sassert_ok, nz_true in E.
  assert (forall s1, nodes a = [] -> s1 = put c (set_coll (Some (Coll id [(T, (id, f (g_def G T)))] true)) a) s ->
    exists m', (let! m1 := dslot_load G c id m in let! m2 := da_load G c id T (f (g_def G T)) m1 in
      Ok (m2, emit (EvAcc tag) g)) = Ok (m', emit (EvAcc tag) g) /\ R m' s1) as Hfresh.
  { intros s1 Hn ->. destruct (dload_R G m s c a id HR Ha HD Hn E) as (m1 & H1 & HR1 & Ht & _).
    rewrite H1. simpl.
    destruct (daload_R G m1 _ c _ (Coll id [] true) id T (f (g_def G T)) HR1 (put_look _ _ _)) as (m2 & H2 & HR2); try done.
    { by rewrite Ht. }
    rewrite put_put in HR2. rewrite H2. simpl. eauto. }
  destruct (ac_coll a) as [q|] eqn:Hq.
  - destruct Hc as (Hq0 & Hk & _). rewrite Hk. destruct (q_key q =? id) eqn:Ek; simpl.
    + destruct (q_ok q) eqn:Hok; [|done]. simplify_eq.
      destruct (daload_R G m s c a q id T (f (g_def G T)) HR Ha Hin HD Hq Hok HT E) as (m' & -> & HR').
      simpl. eauto.
    + destruct (q_nodes q) eqn:En; [|done]. simplify_eq. apply Hfresh; auto. unfold nodes. by rewrite Hq.
  - destruct Hc as [Hk _]. rewrite Hk. destruct (0 =? id) eqn:Ek; [apply Z.eqb_eq in Ek; lia|].
    simplify_eq. apply Hfresh; auto. unfold nodes. by rewrite Hq.
Qed.

Lemma key_R sl o : cellR sl o -> e_key sl = key_of o.
Proof. destruct o as [[k v]|]; simpl; naive_solver. Qed.

Lemma sstore_R m s s' c a T ad sl id v :
  R m s -> actxs s !! c = Some a -> has_e T a = true -> caddr m c T = Some ad -> hp m !! ad = Some sl ->
  sstore c a id T v s = Ok s' ->
  exists m', slot_load G ad id v m = Ok m' /\ R m' s'.
Proof.
  intros HR Ha He Had Hsl H. unfold sstore in H. ok_inv H. apply sassert_ok, nz_true in E. simplify_eq.
  eapply store_R; eauto.
Qed.

Lemma load_R onerr id it m s g s' g' :
  R m s -> sload G onerr id it s g = Ok (s', g') ->
  exists m', mload G onerr id it m g = Ok (m', g') /\ R m' s'.
Proof.
  intros HR H. destruct it as [T v|T tag gf|T tag f|tag]; simpl in *.
  - pose proof (find_e_R m s T HR) as Hf. unfold load_slot. destruct (find_e T s) as [[c a]|].
    + destruct Hf as (Ha & Hin & He & ad & sl & Ht & Hca & Hsl & HcR). rewrite Ht, Hsl. simpl.
      rewrite (key_R _ _ HcR). destruct onerr, (key_of (get_e T a) =? id); simpl in *.
      1: simplify_eq; eauto.
      all: ok_inv H; simplify_eq;
        destruct (sstore_R _ _ _ _ _ _ _ _ _ _ HR Ha He Hca Hsl E) as (m' & -> & ?); simpl; eauto.
    + rewrite Hf. destruct (g_capture G); simpl; [|simplify_eq; eauto].
      ok_inv H. simplify_eq. destruct (collect_R _ _ _ _ _ _ HR Hf E) as (m' & -> & ?). simpl. eauto.
  - pose proof (find_e_R m s T HR) as Hf. unfold load_slot_deferred. destruct (find_e T s) as [[c a]|].
    + destruct Hf as (Ha & Hin & He & ad & sl & Ht & Hca & Hsl & HcR). rewrite Ht, Hsl. simpl.
      rewrite (key_R _ _ HcR). destruct onerr, (key_of (get_e T a) =? id); simpl in *.
      1: simplify_eq; eauto.
      all: ok_inv H; simplify_eq;
        destruct (sstore_R _ _ _ _ _ _ _ _ _ _ HR Ha He Hca Hsl E) as (m' & -> & ?); simpl; eauto.
    + rewrite Hf. destruct (g_capture G); simpl; [|simplify_eq; eauto].
      ok_inv H. simplify_eq. destruct (collect_R _ _ _ _ _ _ HR Hf E) as (m' & -> & ?). simpl. eauto.
  - pose proof (find_e_R m s T HR) as Hf. unfold load_slot_accumulate. destruct (find_e T s) as [[c a]|].
    + destruct Hf as (Ha & Hin & He & ad & sl & Ht & Hca & Hsl & HcR). rewrite Ht, Hsl. simpl.
      ok_inv H. simplify_eq.
      assert ((if e_key sl =? id then e_val sl else g_def G T) =
        match get_e T a with Some (k, v) => if k =? id then v else g_def G T | None => g_def G T end) as Hv.
      { destruct (get_e T a) as [[k v]|]; simpl in HcR.
        - destruct HcR as (? & -> & ->). done.
        - rewrite HcR. unfold sstore in E. ok_inv E. apply sassert_ok, nz_true in E0.
          rewrite (proj2 (Z.eqb_neq _ _)); auto. }
      rewrite Hv.
      destruct (sstore_R _ _ _ _ _ _ _ _ _ _ HR Ha He Hca Hsl E) as (m' & -> & ?); simpl; eauto.
    + rewrite Hf. destruct (g_capture G); simpl; [|simplify_eq; eauto].
      destruct (find_d s) as [x|] eqn:Hfd.
      * ok_inv H. simplify_eq. eapply collect_acc_R; eauto. by rewrite Hfd.
      * simplify_eq. pose proof (find_d_R _ _ HR) as Hd. rewrite Hfd in Hd. unfold dyn_accumulate. rewrite Hd. eauto.
  - simplify_eq. eauto.
Qed.

Lemma receive_R id T v m s b s' :
  R m s -> sreceive G id T v s = Ok (b, s') ->
  exists m', unload_to G id T v m = Ok (b, m') /\ R m' s'.
Proof.
  intros HR H. unfold sreceive in H. unfold unload_to. pose proof (find_e_R m s T HR) as Hf.
  destruct (find_e T s) as [[c a]|].
  - destruct Hf as (Ha & Hin & He & ad & sl & Ht & Hca & Hsl & HcR). rewrite Ht, Hsl. simpl.
    rewrite (key_R _ _ HcR). destruct (key_of (get_e T a) =? id); simpl in *; [simplify_eq; eauto|].
    ok_inv H. simplify_eq.
    destruct (sstore_R _ _ _ _ _ _ _ _ _ _ HR Ha He Hca Hsl E) as (m' & -> & ?); simpl; eauto.
  - rewrite Hf. destruct (g_capture G); [|simplify_eq; eauto].
    ok_inv H. simplify_eq. destruct (collect_R _ _ _ _ _ _ HR Hf E) as (m' & -> & ?). simpl. eauto.
Qed.

Lemma cap_unload_R id l m s g s' g' :
  R m s -> scap_unload G id l s g = Ok (s', g') ->
  exists m', mcap_unload G id l m g = Ok (m', g') /\ R m' s'.
Proof.
  intros HR H. unfold scap_unload in H. ok_inv H. simplify_eq. unfold mcap_unload.
  enough (exists m', cap_unload_nodes G id l m = Ok m' /\ R m' s') as (m' & -> & ?) by (simpl; eauto).
  revert m s HR E. induction l as [|[T [k v]] l IH]; intros m s HR E; simpl in *; [simplify_eq; eauto|].
  ok_inv E. apply sassert_ok in E0. rewrite assert_ok by done. simpl. ok_inv E.
  destruct (k =? id); simpl in *; [|simplify_eq; eauto].
  ok_inv E1. match goal with x : bool * smem |- _ => destruct x as [b s1] end. simpl in *. simplify_eq.
  destruct (receive_R _ _ _ _ _ _ _ HR E2) as (m1 & -> & HR1). simpl. eauto.
Qed.

(** the stack and the tuples stay the same *)
Lemma scollect_frame id T v s s' : scollect id T v s = Ok s' ->
  stack s' = stack s /\ forall c, c ∉ stack s -> actxs s' !! c = actxs s !! c.
Proof.
  unfold scollect. destruct (find_d s) as [[c a]|] eqn:E; [|intros; simplify_eq; auto].
  assert (c ∈ stack s) as Hin.
  { unfold find_d in E. induction (stack s) as [|c' l IH]; simpl in E; [done|].
    destruct (actxs s !! c'); [|done]. destruct (has_d a0); simplify_eq; [constructor|]. constructor. auto. }
  intros H. ok_inv H.
  assert (exists a', s' = put c a' s) as [a' ->].
  { destruct (ac_coll a) as [q|]; [destruct (q_ok q); [|done]|]; simplify_eq; eauto. }
  simpl. split; auto. intros c' Hc'. rewrite lookup_insert_ne; auto. intros ->. done.
Qed.

Lemma find_ctx_in P l cs c a : find_ctx P l cs = Some (c, a) -> c ∈ l /\ cs !! c = Some a /\ P a = true.
Proof.
  induction l as [|c' l IH]; simpl; [done|]. destruct (cs !! c') eqn:E; [|done].
  destruct (P a0) eqn:EP; intros; simplify_eq; [split; [constructor|auto]|].
  destruct IH; auto. split; auto. by constructor.
Qed.

Lemma sreceive_frame id T v s b s' : sreceive G id T v s = Ok (b, s') ->
  stack s' = stack s /\ forall c, c ∉ stack s -> actxs s' !! c = actxs s !! c.
Proof.
  unfold sreceive. destruct (find_e T s) as [[c a]|] eqn:E.
  - apply find_ctx_in in E as (Hin & _). destruct (key_of (get_e T a) =? id); intros H; [by simplify_eq|].
    ok_inv H. simplify_eq. unfold sstore in E. ok_inv E. simplify_eq. simpl.
    split; auto. intros c' Hc'. rewrite lookup_insert_ne; auto. intros ->. done.
  - destruct (g_capture G); intros H; [|by simplify_eq]. ok_inv H. simplify_eq. by eapply scollect_frame.
Qed.

(** ** Unloading a context *)

(** the nodes have left the collection but not yet the heap: they are still related, and are not any context's *)
Definition detached (m : mem) (l : list (ety * nat)) : Prop :=
  NoDup l.*2 /\ (forall n, n ∈ l.*2 -> (n < na m)%nat) /\
  (forall c d n, dhp m !! c = Some d -> n ∈ (d_nodes d).*2 -> n ∉ l.*2).


Lemma da_load_frame c id T v m m' l : da_load G c id T v m = Ok m' -> detached m l ->
  (forall n, n ∈ l.*2 -> hp m' !! inr n = hp m !! inr n) /\ detached m' l.
Proof.
  intros H (Hnd & Hlt & Hown). unfold da_load in H.
  destruct (dhp m !! c) as [d|] eqn:Hd; [|done]. simpl in H.
  destruct (d_last d); [|done]. simpl in H. ok_inv H. ok_inv H.
  unfold slot_activate in H. simpl in H. rewrite lookup_insert in H. simpl in H. simplify_eq. split.
  - intros n Hn. simpl. specialize (Hlt n Hn). rewrite !lookup_insert_ne; auto; intros [= Heq]; lia.
  - split; [done|]. split; [intros n Hn; simpl; specialize (Hlt n Hn); lia|].
    intros c' d' n Hd' Hn. simpl in Hd'. destruct (decide (c' = c)) as [->|].
    + rewrite lookup_insert in Hd'. simplify_eq. simpl in Hn. rewrite fmap_app in Hn.
      apply elem_of_app in Hn as [Hn|Hn]; eauto. apply elem_of_list_singleton in Hn. simpl in Hn. subst n.
      intros Hn. specialize (Hlt _ Hn). lia.
    + rewrite lookup_insert_ne in Hd' by done. eauto.
Qed.

Lemma dyn_load_frame id T v m m' l : dyn_load G id T v m = Ok m' -> detached m l ->
  (forall n, n ∈ l.*2 -> hp m' !! inr n = hp m !! inr n) /\ detached m' l.
Proof.
  unfold dyn_load. destruct (tlsd m) as [c|]; [|intros; simplify_eq; auto].
  destruct (dhp m !! c) as [d|] eqn:Hd; [|done]. simpl. destruct (d_key d =? 0) eqn:Ek; simpl.
  2: { apply da_load_frame. }
  intros H Hdet. ok_inv H. unfold dslot_load in E. ok_inv E. unfold dslot_reset in E. rewrite Hd in E. simpl in E.
  rewrite Ek in E. simpl in E. rewrite lookup_insert in E. simpl in E. simplify_eq.
  eapply da_load_frame in H.
  - simpl in H. exact H.
  - destruct Hdet as (Hnd & Hlt & Hown). split; [done|]. split; [done|]. intros c' d' n Hd' Hn. simpl in Hd'.
    destruct (decide (c' = c)) as [->|].
    + rewrite lookup_insert in Hd'. simplify_eq. inversion Hn.
    + rewrite !lookup_insert_ne in Hd' by done. eauto.
Qed.

(** where tls points *)
Lemma tls_owned m s T ad : R m s -> tls m !! T = Some ad ->
  exists c, c ∈ stack s /\ (ad = inl (c, T) \/ exists d n, dhp m !! c = Some d /\ n ∈ (d_nodes d).*2 /\ ad = inr n).
Proof.
  intros HR H. pose proof (find_e_R _ _ T HR) as Hf. destruct (find_e T s) as [[c a]|]; [|congruence].
  destruct Hf as (Ha & Hin & _ & ad' & sl & Ht & Hca & _). rewrite Ht in H. simplify_eq. exists c. split; [done|].
  destruct (R_look _ _ _ _ HR Ha) as (k & Hk & _).
  destruct (caddr_cases _ _ _ _ _ Hk Hca) as [[_ ->]|[_ (d & n & Hd & Hn & ->)]]; [by left|right].
  exists d, n. split; [done|]. split; [|done]. apply node_at_in in Hn. apply elem_of_list_fmap. exists (T, n). auto.
Qed.

Lemma unload_to_frame m s id T v b m' l : R m s -> unload_to G id T v m = Ok (b, m') -> detached m l ->
  (forall n, n ∈ l.*2 -> hp m' !! inr n = hp m !! inr n) /\ detached m' l.
Proof.
  intros HR H Hdet. unfold unload_to in H. destruct (tls m !! T) as [p|] eqn:Ht.
  - destruct (hp m !! p) as [sl|] eqn:Hsl; [|done]. simpl in H. destruct (e_key sl =? id); simpl in H; [by simplify_eq|].
    ok_inv H. simplify_eq. unfold slot_load in E. rewrite Hsl in E. simpl in E. ok_inv E. simplify_eq. simpl.
    split; [|done]. intros n Hn. rewrite lookup_insert_ne; auto. intros ->.
    destruct (tls_owned _ _ _ _ HR Ht) as (c & _ & [?|(d & n' & Hd & Hn' & [= <-])]); [done|].
    destruct Hdet as (_ & _ & Hown). by eapply Hown.
  - destruct (g_capture G); [|by simplify_eq]. ok_inv H. simplify_eq. eapply dyn_load_frame; eauto.
Qed.

(** Heap entries no context owns do not matter. *)
Lemma R_unowned m s h : R m s ->
  (forall c T, is_Some (ctxs m !! c) -> h !! inl (c, T) = hp m !! inl (c, T)) ->
  (forall c d n, dhp m !! c = Some d -> n ∈ (d_nodes d).*2 -> h !! inr n = hp m !! inr n) ->
  R (set_hp h m) s.
Proof.
  intros HR H1 H2. assert (shape m (set_hp h m)) as Hsh by done. pose proof HR as HR'. destruct HR. constructor; simpl; auto.
  - intros c. specialize (R_ctx c). destruct (ctxs m !! c) as [k|] eqn:Hk, (actxs s !! c) as [a|]; simpl in *; auto.
    eapply ctxR_ext; [..|exact R_ctx]; auto; simpl.
    + intros T sl _ Hsl. rewrite H1 by eauto. eauto.
    + intros d Hd. exists d. repeat split; auto. intros n Hn sl Hsl. erewrite H2 by eauto. eauto.
  - intros T. rewrite R_tls. by apply chead_shape.
  - intros T. eapply linked_ext; [..|apply R_lnk].
    + intros. by apply caddr_shape.
    + intros c ad sl Hc Had Hsl. exists sl. split; auto. simpl.
      destruct (R_in c Hc) as [a Ha]. destruct (R_look _ _ _ _ HR' Ha) as (k & Hk & _).
      destruct (caddr_cases _ _ _ _ _ Hk Had) as [[_ ->]|[_ (d & n & Hd & Hn & ->)]].
      * by rewrite H1 by eauto.
      * erewrite H2; eauto. apply node_at_in in Hn. apply elem_of_list_fmap. exists (T, n). auto.
  - rewrite R_tlsd. by apply dhead_shape.
  - eapply dlinked_ext; [..|exact R_dlnk]; auto. intros c d _ Hd. eauto.
Qed.

Lemma slot_unload_eq ad T id m sl : id <> 0 -> hp m !! ad = Some sl ->
  slot_unload G ad T id m =
    if e_key sl =? id then let! bm := unload_to G id T (e_val sl) m in if fst bm then slot_reset ad (snd bm) else Ok (snd bm)
    else Ok m.
Proof.
  intros Hid Hsl. unfold slot_unload. rewrite assert_ok by (by apply nz_true). simpl. rewrite Hsl. simpl.
  rewrite (proj2 (Z.eqb_neq id 0) Hid). simpl. by destruct (e_key sl =? id).
Qed.

(** unloading detached nodes *)
Lemma nodes_unload_R id l l2 : id <> 0 -> forall m s s',
  R m s -> detached m l -> Forall2 (nodeR (hp m)) l l2 -> sreceive_all G id l2 s = Ok s' ->
  exists m', for_nodes (fun T n => slot_unload G (inr n) T id) l m = Ok m' /\ R m' s' /\ detached m' l /\
    (forall n, n ∈ l.*2 -> is_Some (hp m' !! inr n)).
Proof.
  intros Hid.
  (* generalised: l1 already done *)
  enough (forall l1 m s s', R m s -> detached m (l1 ++ l) -> (forall n, n ∈ l1.*2 -> is_Some (hp m !! inr n)) ->
    Forall2 (nodeR (hp m)) l l2 -> sreceive_all G id l2 s = Ok s' ->
    exists m', for_nodes (fun T n => slot_unload G (inr n) T id) l m = Ok m' /\ R m' s' /\ detached m' (l1 ++ l) /\
    (forall n, n ∈ (l1 ++ l).*2 -> is_Some (hp m' !! inr n))) as H.
  { intros m s s' HR Hdet HF HH. apply (H [] m s s'); auto. intros n Hn. inversion Hn. }
  revert l2. induction l as [|[T n] l IH]; intros l2 l1 m s s' HR Hdet Hl1 HF HH.
  - inversion HF; subst. simpl in *. simplify_eq. rewrite app_nil_r in *. exists m. auto.
  - inversion HF as [|? [T' [k v]] ? l2' [HT (sl & Hsl & Hk0 & Hk & Hv)] HF']; subst. simpl in *. subst T'.
    cbn [sreceive_all] in HH. cbn [for_nodes].
    ok_inv HH. ok_inv HH. rewrite (slot_unload_eq _ _ _ _ _ Hid Hsl).
    assert (n ∉ l1.*2 /\ n ∉ l.*2) as [Hnl1 Hnl].
    { destruct Hdet as (Hnd & _). rewrite fmap_app in Hnd. apply NoDup_app in Hnd as (? & Hx & Hnd).
      csimpl in Hnd. apply NoDup_cons in Hnd as [? _]. split; auto. intros Hn. apply (Hx n Hn). csimpl. constructor. }
    assert (detached m ((l1 ++ [(T, n)]) ++ l)) as Hdet2 by (by rewrite <- app_assoc).
    assert (forall n', n' ∈ (l1 ++ [(T,n)]).*2 -> is_Some (hp m !! inr n')) as Hl1'.
    { intros n' Hn'. rewrite fmap_app in Hn'. apply elem_of_app in Hn' as [?|Hn']; auto.
      apply elem_of_list_singleton in Hn'. simpl in Hn'. subst. eauto. }
    replace (l1 ++ (T, n) :: l) with ((l1 ++ [(T, n)]) ++ l) by (by rewrite <- app_assoc).
    destruct (e_key sl =? id) eqn:Ek; simpl in *.
    + match goal with H : rbind (sreceive _ _ _ _ _) _ = _ |- _ => ok_inv H end.
      match goal with x : bool * smem |- _ => destruct x as [b s1] end. simplify_eq. simpl in HH.
      match goal with H : sreceive _ _ _ _ _ = _ |- _ => destruct (receive_R _ _ _ _ _ _ _ HR H) as (m1 & Hm1 & HR1) end.
      rewrite Hm1. simpl.
      destruct (unload_to_frame _ _ _ _ _ _ _ _ HR Hm1 Hdet2) as [Hfr Hdet3].
      assert (forall m2, (m2 = m1 \/ exists sl', m2 = set_hp (<[inr n := sl']> (hp m1)) m1) ->
        exists m', for_nodes (fun T n => slot_unload G (inr n) T id) l m2 = Ok m' /\ R m' s' /\
          detached m' ((l1 ++ [(T, n)]) ++ l) /\ (forall n', n' ∈ ((l1 ++ [(T, n)]) ++ l).*2 -> is_Some (hp m' !! inr n'))) as Hgo.
      { intros m2 Hm2.
        assert (forall n', n' <> n -> hp m2 !! inr n' = hp m1 !! inr n') as Hhp.
        { destruct Hm2 as [->|[sl' ->]]; auto. intros n' Hn'. simpl. rewrite lookup_insert_ne; auto. congruence. }
        match goal with H : sreceive_all G id l2' ?s1 = Ok s' |- _ => apply (IH l2' (l1 ++ [(T,n)]) m2 s1 s') end.
        - destruct Hm2 as [->|[sl' ->]]; auto. apply R_unowned; auto.
          + intros. by rewrite lookup_insert_ne.
          + intros c d n' Hd Hn'. rewrite lookup_insert_ne; auto. intros [= <-].
            destruct Hdet3 as (_ & _ & Hown). eapply Hown; eauto.
            rewrite !fmap_app. apply elem_of_app. left. apply elem_of_app. right. constructor.
        - destruct Hm2 as [->|[sl' ->]]; auto.
        - intros n' Hn'. destruct (decide (n' = n)) as [->|].
          + destruct Hm2 as [->|[sl' ->]]; [|simpl; rewrite lookup_insert; eauto]. rewrite Hfr; eauto.
            rewrite !fmap_app. apply elem_of_app. left. apply elem_of_app. right. constructor.
          + rewrite Hhp by done. rewrite Hfr; auto. rewrite fmap_app. apply elem_of_app. by left.
        - eapply Forall2_nodeR_ext; [|exact HF']. intros n' Hn' sl' Hsl'. exists sl'. rewrite Hhp, Hfr; auto.
          + rewrite fmap_app. apply elem_of_app. by right.
          + intros ->. done.
        - done. }
      destruct b; [|apply Hgo; by left].
      unfold slot_reset.
      assert (hp m1 !! inr n = Some sl) as Hn1.
      { rewrite Hfr; auto. rewrite !fmap_app. apply elem_of_app. left. apply elem_of_app. right. constructor. }
      rewrite Hn1. simpl. apply Hgo. right. eauto.
    + simplify_eq. apply (IH l2' (l1 ++ [(T,n)]) m a0 s'); auto.
Qed.

Lemma nodes_free_R l : forall m s, R m s -> detached m l -> (forall n, n ∈ l.*2 -> is_Some (hp m !! inr n)) ->
  exists m', for_nodes (fun T n => slot_free G (inr n) T) l m = Ok m' /\ R m' s.
Proof.
  induction l as [|[T n] l IH]; intros m s HR Hdet Hsome; simpl; [eauto|].
  assert (n ∈ ((T, n) :: l).*2) as Hn by (csimpl; constructor).
  destruct (Hsome n Hn) as [sl Hsl].
  unfold slot_free. rewrite Hsl. simpl. destruct Hdet as (Hnd & Hlt & Hown).
  rewrite assert_ok.
  2: { apply bool_decide_eq_true. intros Ht.
       destruct (tls_owned _ _ _ _ HR Ht) as (c & _ & [?|(d & n' & Hd & Hn' & [= <-])]); [done|]. by eapply Hown. }
  simpl. csimpl in Hnd. apply NoDup_cons in Hnd as [Hni Hnd]. apply IH.
  - apply R_unowned; auto.
    + intros. by rewrite lookup_delete_ne.
    + intros c d n' Hd Hn'. rewrite lookup_delete_ne; auto. intros [= <-]. by eapply Hown.
  - split; [done|]. split.
    + intros n' Hn'. apply Hlt. csimpl. by constructor.
    + simpl. intros c d n' Hd Hn' Hn''. eapply Hown; eauto. csimpl. by constructor.
  - intros n' Hn'. simpl. rewrite lookup_delete_ne by (intros [= ->]; done). apply Hsome. csimpl. by constructor.
Qed.

(** the collection is emptied *)
Lemma empty_R m s c a d key last :
  R m s -> actxs s !! c = Some a -> c ∉ stack s -> SDA ∈ ac_tup a -> dhp m !! c = Some d -> key <> 0 ->
  R (set_dhp (<[c := DSlot key [] last (d_prev d)]> (dhp m)) m) (put c (set_coll (Some (Coll key [] last)) a) s).
Proof.
  intros HR Ha Hni HD Hd Hkey. destruct (R_look _ _ _ _ HR Ha) as (k & Hk & HcR). destruct HcR.
  match goal with |- R ?x _ => set (m1 := x) end.
  assert (forall c', c' <> c -> forall T, caddr m1 c' T = caddr m c' T) as Hca.
  { intros c' Hne T. unfold caddr. simpl. by rewrite lookup_insert_ne. }
  pose proof HR as HR'. destruct HR'. constructor; simpl; auto.
  + intros c'. destruct (decide (c' = c)) as [->|Hne].
    * rewrite lookup_insert, Hk. constructor; simpl; auto.
      -- intros _. rewrite lookup_insert. eexists. split; [done|]. simpl. repeat split; auto; constructor.
      -- done.
      -- intros T. done.
    * rewrite lookup_insert_ne by done. specialize (R_ctx c').
      destruct (ctxs m !! c') as [k'|], (actxs s !! c') as [a0|]; simpl in *; auto.
      eapply ctxR_ext; [..|exact R_ctx]; auto; simpl; eauto.
      -- intros d' Hd''. exists d'. rewrite lookup_insert_ne by done. repeat split; auto. eauto.
      -- intros. by rewrite lookup_insert_ne.
  + intros c' d' Hd''. destruct (decide (c' = c)) as [->|Hne]; eauto. rewrite lookup_insert_ne in Hd'' by done. eauto.
  + intros c' a0. destruct (decide (c' = c)) as [->|]; [rewrite lookup_insert|rewrite lookup_insert_ne by done]; eauto.
  + intros c' Hc'. destruct (decide (c' = c)) as [->|]; [rewrite lookup_insert|rewrite lookup_insert_ne by done]; eauto.
  + intros T. rewrite R_tls. apply chead_ext. intros c' Hc'. symmetry. apply Hca. intros ->. done.
  + intros T. eapply linked_ext; [..|apply R_lnk].
    * intros c' Hc'. symmetry. apply Hca. intros ->. done.
    * eauto.
  + rewrite R_tlsd. by apply dhead_ext.
  + eapply dlinked_ext; [..|exact R_dlnk]; auto. intros c' d' Hc' Hd''. simpl.
    rewrite lookup_insert_ne by (intros ->; done). eauto.
  + intros c1 c2 d1 d2 n H1 H2 H3 H4.
    destruct (decide (c1 = c)) as [->|N1]; [rewrite lookup_insert in H1; simplify_eq; inversion H3|].
    destruct (decide (c2 = c)) as [->|N2]; [rewrite lookup_insert in H2; simplify_eq; inversion H4|].
    rewrite lookup_insert_ne in H1, H2 by done. eauto.
  + intros c' d' n H1 H2. destruct (decide (c' = c)) as [->|N1]; [rewrite lookup_insert in H1; simplify_eq; inversion H2|].
    rewrite lookup_insert_ne in H1 by done. eauto.
Qed.

Lemma detach_R m s c a d q last :
  R m s -> actxs s !! c = Some a -> c ∉ stack s -> dhp m !! c = Some d -> ac_coll a = Some q ->
  let m1 := set_dhp (<[c := DSlot (d_key d) [] last (d_prev d)]> (dhp m)) m in
  R m1 (put c (set_coll (Some (Coll (q_key q) [] last)) a) s) /\ detached m1 (d_nodes d) /\
  Forall2 (nodeR (hp m1)) (d_nodes d) (q_nodes q).
Proof.
  intros HR Ha Hni Hd Hq m1. destruct (R_look _ _ _ _ HR Ha) as (k & Hk & HcR). pose proof HcR as HcR'. destruct HcR.
  assert (SDA ∈ ac_tup a) as HD.
  { destruct (decide (SDA ∈ ac_tup a)) as [|Hno]; auto. destruct (cr_nocoll Hno). congruence. }
  destruct (cr_coll HD) as (d' & Hd' & Hcoll). rewrite Hd in Hd'. injection Hd' as <-. rewrite Hq in Hcoll.
  destruct Hcoll as (Hq0 & Hkey & Hlast & Hnd1 & Hnd2 & HF).
  split; [|split].
  - unfold m1. rewrite Hkey. by apply empty_R.
  - split; [done|]. split; [intros n Hn; simpl; eapply R_na; eauto|].
    intros c' d' n Hd'' Hn Hn'. destruct (decide (c' = c)) as [->|N1].
    + simpl in Hd''. rewrite lookup_insert in Hd''. simplify_eq. inversion Hn.
    + simpl in Hd''. rewrite lookup_insert_ne in Hd'' by done. apply N1. eapply R_own; eauto.
  - done.
Qed.

Lemma sreceive_all_frame id l s s' : sreceive_all G id l s = Ok s' ->
  stack s' = stack s /\ forall c, c ∉ stack s -> actxs s' !! c = actxs s !! c.
Proof.
  revert s. induction l as [|[T [k v]] l IH]; intros s H; simpl in H; [by simplify_eq|].
  ok_inv H. ok_inv H. destruct (k =? id); simpl in *.
  - match goal with H : rbind (sreceive _ _ _ _ _) _ = _ |- _ => ok_inv H end.
    match goal with x : bool * smem |- _ => destruct x as [b s1] end. simplify_eq. simpl in *.
    match goal with H : sreceive _ _ _ _ _ = _ |- _ => apply sreceive_frame in H as [H1 H2] end.
    apply IH in H as [H3 H4]. split; [congruence|]. intros c Hc. rewrite H4 by congruence. auto.
  - simplify_eq. eauto.
Qed.

Lemma unload1_R c id t m s g s' g' a :
  R m s -> actxs s !! c = Some a -> c ∉ stack s -> t ∈ ac_tup a -> id <> 0 ->
  sunload1 G c id t s g = Ok (s', g') ->
  exists m', (match t with
              | SE T => let! m1 := slot_unload G (inl (c, T)) T id m in Ok (m1, g)
              | SDA => dslot_unload G c id m g
              end) = Ok (m', g') /\ R m' s' /\ stack s' = stack s /\ exists a', actxs s' !! c = Some a' /\ ac_tup a' = ac_tup a.
Proof.
  intros HR Ha Hni Ht Hid H. unfold sunload1 in H. rewrite Ha in H. destruct (R_look _ _ _ _ HR Ha) as (k & Hk & HcR).
  destruct t as [T|].
  - destruct (cr_cell _ _ _ _ _ HcR T Ht) as (sl & Hsl & Hcell). unfold slot_unload.
    rewrite assert_ok by (by apply nz_true). simpl. rewrite Hsl. simpl. rewrite (key_R _ _ Hcell).
    rewrite (proj2 (Z.eqb_neq id 0) Hid). simpl.
    destruct (ac_cell a !! T) as [[k' v]|]; simpl in *.
    + destruct Hcell as (_ & _ & Hv). rewrite Hv. destruct (k' =? id); simpl in *; [|simplify_eq; eauto 10].
      ok_inv H. destruct a0 as [b s1]. simpl in *.
      destruct (receive_R _ _ _ _ _ _ _ HR E) as (m1 & -> & HR1). simpl.
      destruct (sreceive_frame _ _ _ _ _ _ E) as [Hst Hact].
      destruct b; [|simplify_eq; simpl; rewrite Hst, Hact by done; eauto 10].
      rewrite Hact in H by done. rewrite Ha in H. simplify_eq.
      destruct (reset_R m1 s1 c a T HR1) as (m2 & -> & HR2); auto; [by rewrite Hact|].
      simpl. exists m2. split; [done|]. split; [done|]. split; [done|]. rewrite lookup_insert. eexists. split; [done|]. done.
    + destruct id; [done| |]; simplify_eq; eauto 10.
  - destruct (cr_coll _ _ _ _ _ HcR Ht) as (d & Hd & Hcoll). unfold dslot_unload.
    rewrite assert_ok by (by apply nz_true). simpl. rewrite Hd. simpl.
    destruct (ac_coll a) as [q|] eqn:Hq; simpl in Hcoll.
    + destruct Hcoll as (Hq0 & Hkey & Hlast & _ & _ & HF). rewrite Hkey. rewrite (proj2 (Z.eqb_neq _ 0) Hq0).
      ok_inv H. simplify_eq.
      assert ((match d_nodes d with [] => d_last d | _ => false end) = (match q_nodes q with [] => q_ok q | _ => false end)) as Hl.
      { inversion HF; auto. }
      set (last := match q_nodes q with [] => q_ok q | _ => false end) in *. rewrite Hl.
      destruct (detach_R m s c a d q last HR Ha Hni Hd Hq) as (HR1 & Hdet & HF1).
      rewrite Hkey in HR1, Hdet, HF1.
      destruct (nodes_unload_R id _ _ Hid _ _ _ HR1 Hdet HF1 E) as (m2 & -> & HR2 & Hdet2 & Hsome). simpl.
      destruct (nodes_free_R _ _ _ HR2 Hdet2 Hsome) as (m3 & -> & HR3). simpl.
      exists m3. split; [done|]. split; [done|].
      apply sreceive_all_frame in E as [E1 E2]. simpl in E1, E2. split; auto.
      rewrite E2 by done. rewrite lookup_insert. eexists. split; [done|]. done.
    + destruct Hcoll as [-> _]. simpl. simplify_eq. eauto 10.
Qed.

Lemma unload_R c id m s g s' g' :
  R m s -> sunload G c id s g = Ok (s', g') ->
  exists m', munload G c id m g = Ok (m', g') /\ R m' s'.
Proof.
  intros HR H. unfold sunload in H. destruct (actxs s !! c) as [a|] eqn:Ha; [|done].
  case_bool_decide as Hni; [done|]. destruct (R_look _ _ _ _ HR Ha) as (k & Hk & HcR).
  unfold munload. rewrite Hk. simpl.
  rewrite assert_ok by (rewrite (cr_act _ _ _ _ _ HcR); by rewrite bool_decide_false).
  simpl. rewrite (cr_tup _ _ _ _ _ HcR). clear HcR Hk.
  assert (forall t, t ∈ rev (ac_tup a) -> t ∈ ac_tup a) as Hsub by (intros t Ht; by apply elem_of_list_In, in_rev, elem_of_list_In).
  revert Hsub H. generalize (rev (ac_tup a)) as l. intros l. revert m s g a HR Ha Hni.
  induction l as [|t l IH]; intros m s g a HR Ha Hni Hsub H; simpl in *; [simplify_eq; eauto|].
  ok_inv H. apply sassert_ok in E. rewrite assert_ok by done. simpl. ok_inv H. destruct a1 as [s1 g1]. simpl in *.
  apply nz_true in E.
  destruct (unload1_R c id t m s g s1 g1 a HR Ha Hni) as (m1 & -> & HR1 & Hst & a' & Ha' & Htup); auto.
  { apply Hsub. constructor. }
  simpl. apply (IH m1 s1 g1 a' HR1 Ha'); auto; [by rewrite Hst|].
  intros t' Ht'. rewrite Htup. apply Hsub. by constructor.
Qed.

End sim.
