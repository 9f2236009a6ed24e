(** C63: whatever a program does, nothing is left behind in the storage of error objects. *)
From Verif Require Export Invariant PropsSafeRuns PropsConfig.
Open Scope Z_scope.

(** ** Specification *)
(** Everything that lives belongs to something that lives: slots to contexts which have them, nodes to lists of such slots. *)
Record nothing_lost (m : mem) : Prop := {
  nl_slot : forall c T, is_Some (hp m !! inl (c, T)) -> exists k, ctxs m !! c = Some k /\ SE T ∈ k_tup k;
  nl_dslot : forall c, is_Some (dhp m !! c) -> exists k, ctxs m !! c = Some k /\ SDA ∈ k_tup k;
  nl_node : forall n, is_Some (hp m !! inr n) -> exists c d, dhp m !! c = Some d /\ n ∈ (d_nodes d).*2;
  nl_empty : forall c d, dhp m !! c = Some d -> d_key d = 0 -> d_nodes d = [];
  nl_fresh : forall c : cid, is_Some (ctxs m !! c) -> (c < nc m)%nat }.
(** The contexts that live, with their types *)
Definition contexts (m : mem) : gmap cid (list sty) := k_tup <$> ctxs m.

(** ** Proof. L: nodes that were taken out of a list and are about to be destroyed *)
Record owned (K : gmap cid (list sty)) (L : list nat) (m : mem) : Prop := {
  o_ctx : contexts m = K;
  o_slot : forall c T, is_Some (hp m !! inl (c, T)) -> exists tup, K !! c = Some tup /\ SE T ∈ tup;
  o_dslot : forall c, is_Some (dhp m !! c) -> exists tup, K !! c = Some tup /\ SDA ∈ tup;
  o_node : forall n, is_Some (hp m !! inr n) -> (exists c d, dhp m !! c = Some d /\ n ∈ (d_nodes d).*2) \/ n ∈ L;
  o_zero : forall c d, dhp m !! c = Some d -> d_key d = 0 -> d_nodes d = [];
  o_fresh : forall c : cid, is_Some (K !! c) -> (c < nc m)%nat }.

Lemma owned_nl m : nothing_lost m <-> owned (contexts m) [] m.
Proof.
  split.
  - intros [H1 H2 H3 H4 H5]. constructor; auto.
    + intros c T Hc. destruct (H1 _ _ Hc) as (k & Hk & ?). exists (k_tup k). unfold contexts. by rewrite lookup_fmap, Hk.
    + intros c Hc. destruct (H2 _ Hc) as (k & Hk & ?). exists (k_tup k). unfold contexts. by rewrite lookup_fmap, Hk.
    + intros c. unfold contexts. rewrite lookup_fmap, fmap_is_Some. auto.
  - intros [H0 H1 H2 H3 H4 H5]. unfold contexts in *. constructor; auto.
    + intros c T Hc. destruct (H1 _ _ Hc) as (tup & Hk & ?). rewrite lookup_fmap in Hk. destruct (ctxs m !! c) as [k|]; [|done]. injection Hk as <-. eauto.
    + intros c Hc. destruct (H2 _ Hc) as (tup & Hk & ?). rewrite lookup_fmap in Hk. destruct (ctxs m !! c) as [k|]; [|done]. injection Hk as <-. eauto.
    + intros n Hn. destruct (H3 n Hn) as [?|?%elem_of_nil]; done.
    + intros c Hc. apply H5. by rewrite lookup_fmap, fmap_is_Some.
Qed.

Section ops.
Context (G : cfg).
Lemma deref_ok {A} (o : option A) a : deref o = Ok a -> o = Some a.
Proof. destruct o; [by intros [= ->]|done]. Qed.

Lemma ow_ins K L m a s : owned K L m -> is_Some (hp m !! a) -> owned K L (set_hp (<[a := s]> (hp m)) m).
Proof.
  intros [H0 H1 H2 H3 H4 H5] Ha. assert (forall b, is_Some (<[a := s]> (hp m) !! b) -> is_Some (hp m !! b)) as Hi.
  { intros b. destruct (decide (b = a)) as [->|]; [done|]. by rewrite lookup_insert_ne. }
  constructor; simpl; auto.
Qed.
Lemma ow_del K L m a : owned K L m -> owned K L (set_hp (delete a (hp m)) m).
Proof.
  intros [H0 H1 H2 H3 H4 H5]. assert (forall b, is_Some (delete a (hp m) !! b) -> is_Some (hp m !! b)) as Hi by (intros b [x [_ ?]%lookup_delete_Some]; eauto).
  constructor; simpl; auto.
Qed.
Lemma ow_tls K L m t : owned K L m -> owned K L (set_tls t m).
Proof. intros []. by constructor. Qed.
Lemma ow_tlsd K L m t : owned K L m -> owned K L (set_tlsd t m).
Proof. intros []. by constructor. Qed.
Lemma ow_dins K L m c d d' : owned K L m -> dhp m !! c = Some d -> (forall n, n ∈ (d_nodes d).*2 -> n ∈ (d_nodes d').*2 \/ n ∈ L \/ hp m !! inr n = None) ->
  (d_key d' = 0 -> d_nodes d' = []) -> owned K L (set_dhp (<[c := d']> (dhp m)) m).
Proof.
  intros [H0 H1 H2 H3 H4 H5] Hc Hn Hz. constructor; simpl; auto.
  - intros c'. destruct (decide (c' = c)) as [->|]; [eauto|]. rewrite lookup_insert_ne by done. auto.
  - intros n Hl. destruct (H3 n Hl) as [(c1 & d1 & Hd & Hin)|]; [|by right]. destruct (decide (c1 = c)) as [->|].
    + rewrite Hc in Hd. injection Hd as <-. destruct (Hn _ Hin) as [?|[?|E]]; [|by right|by rewrite E in Hl; destruct Hl]. left. exists c, d'. by rewrite lookup_insert.
    + left. exists c1, d1. by rewrite lookup_insert_ne.
  - intros c1 d1. destruct (decide (c1 = c)) as [->|]; [rewrite lookup_insert; by intros [= <-]|]. rewrite lookup_insert_ne by done. eauto.
Qed.
Lemma ow_loose K L l m : owned K L m -> owned K (l ++ L) m.
Proof. intros [H0 H1 H2 H3 H4 H5]. constructor; auto. intros n Hn. destruct (H3 n Hn); [by left|]. right. set_solver. Qed.
Lemma ow_gone K L l m : owned K (l ++ L) m -> (forall n, n ∈ l -> hp m !! inr n = None) -> owned K L m.
Proof. intros [H0 H1 H2 H3 H4 H5] Hl. constructor; auto. intros n Hn. destruct (H3 n Hn) as [|[Hi|]%elem_of_app]; auto. rewrite (Hl _ Hi) in Hn. by destruct Hn. Qed.

Lemma ow_activate K L a T m m' : owned K L m -> slot_activate a T m = Ok m' -> owned K L m'.
Proof. intros HO H. unfold slot_activate in H. ok_inv H. apply deref_ok in E. injection H as <-. apply ow_tls, ow_ins; eauto. Qed.
Lemma ow_deactivate K L a T m m' : owned K L m -> slot_deactivate a T m = Ok m' -> owned K L m'.
Proof. intros HO H. unfold slot_deactivate in H. ok_inv H. injection H as <-. by apply ow_tls. Qed.
Lemma ow_free K L a T m m' : owned K L m -> slot_free G a T m = Ok m' -> owned K L m' /\ hp m' = delete a (hp m) /\ dhp m' = dhp m /\ ctxs m' = ctxs m.
Proof. intros HO H. unfold slot_free in H. ok_inv H. ok_inv H. injection H as <-. split; [by apply ow_del|done]. Qed.
Lemma ow_slot_load K L a id v m m' : owned K L m -> slot_load G a id v m = Ok m' -> owned K L m'.
Proof. intros HO H. unfold slot_load in H. ok_inv H. apply deref_ok in E. ok_inv H. injection H as <-. apply ow_ins; eauto. Qed.
Lemma ow_slot_reset K L a m m' : owned K L m -> slot_reset a m = Ok m' -> owned K L m'.
Proof. intros HO H. unfold slot_reset in H. ok_inv H. apply deref_ok in E. injection H as <-. apply ow_ins; eauto. Qed.

Lemma ow_nodes K L f l : (forall T n m m', owned K L m -> f T n m = Ok m' -> owned K L m') -> forall m m', owned K L m -> for_nodes f l m = Ok m' -> owned K L m'.
Proof. intros Hf. induction l as [|[T n] l IH]; intros m m' HO H; [by injection H as <-|]. simpl in H. ok_inv H. eapply IH; [|exact H]. eauto. Qed.
Lemma ow_nodes_free K L l : forall m m', owned K L m -> for_nodes (fun T n => slot_free G (inr n) T) l m = Ok m' ->
  owned K L m' /\ dhp m' = dhp m /\ ctxs m' = ctxs m /\ (forall n, n ∈ l.*2 -> hp m' !! inr n = None) /\ (forall a, hp m !! a = None -> hp m' !! a = None).
Proof.
  induction l as [|[T n] l IH]; intros m m' HO H; [injection H as <-; split_and!; auto; intros n ?%elem_of_nil; done|].
  simpl in H. ok_inv H. destruct (ow_free _ _ _ _ _ _ HO E) as (HO1 & E1 & E2 & E3). destruct (IH _ _ HO1 H) as (HO2 & D1 & D2 & D3 & D4).
  split; [done|]. split; [congruence|]. split; [congruence|]. split.
  - intros n' Hn. rewrite fmap_cons in Hn. apply elem_of_cons in Hn as [->|Hn]; [|auto]. apply D4. rewrite E1. apply lookup_delete.
  - intros b Hb. apply D4. rewrite E1. apply lookup_delete_None. auto.
Qed.

Lemma ow_dactivate K L c m m' : owned K L m -> dslot_activate c m = Ok m' -> owned K L m'.
Proof.
  intros HO H. unfold dslot_activate in H. ok_inv H. apply deref_ok in E. injection H as <-. apply ow_tlsd. eapply ow_dins; eauto. simpl. by eapply o_zero.
Qed.
Lemma ow_ddeactivate K L c m m' : owned K L m -> dslot_deactivate c m = Ok m' -> owned K L m'.
Proof.
  intros HO H. unfold dslot_deactivate in H. ok_inv H. ok_inv H. injection H as <-. apply ow_tlsd. destruct (_ =? 0); [by injection E0 as <-|].
  eapply ow_nodes; [|exact HO|exact E0]. intros T n m1 m2. apply ow_deactivate.
Qed.
Lemma ow_dreset K L c m m' : owned K L m -> dslot_reset G c m = Ok m' ->
  owned K L m' /\ ctxs m' = ctxs m /\ (exists d, dhp m' = <[c := DSlot 0 [] true (d_prev d)]> (dhp m)) /\ (forall a, hp m !! a = None -> hp m' !! a = None).
Proof.
  intros HO H. unfold dslot_reset in H. ok_inv H. apply deref_ok in E. rename a into d. ok_inv H. injection H as <-. rename a into m1.
  assert (owned K L m1 /\ dhp m1 = dhp m /\ ctxs m1 = ctxs m /\ (forall n, n ∈ (d_nodes d).*2 -> hp m1 !! inr n = None) /\ (forall a, hp m !! a = None -> hp m1 !! a = None)) as (HO1 & D1 & D2 & D3 & D4).
  { destruct (Z.eqb_spec (d_key d) 0) as [Hz|_]; [|by eapply ow_nodes_free]. injection E0 as <-. rewrite (o_zero _ _ _ HO _ _ E Hz). split_and!; auto. intros n ?%elem_of_nil. done. }
  split; [|split; [done|split; [exists d; simpl; by rewrite D1|done]]]. eapply (ow_dins _ _ _ _ d); [done|by rewrite D1| |done]. eauto.
Qed.
Lemma ow_dload K L c id m m' : owned K L m -> dslot_load G c id m = Ok m' -> owned K L m' /\ exists d, dhp m' !! c = Some d /\ d_key d = id.
Proof.
  intros HO H. unfold dslot_load in H. ok_inv H. ok_inv H. ok_inv H. apply deref_ok in E1. injection H as <-. destruct (ow_dreset _ _ _ _ _ HO E0) as (HO1 & _ & (d & Ed) & _).
  split; [|eexists; simpl; by rewrite lookup_insert]. eapply ow_dins; [done|done| |done]. rewrite Ed, lookup_insert in E1. injection E1 as <-. intros n ?%elem_of_nil. done.
Qed.
Lemma ow_daload K L c id T v m m' d : owned K L m -> dhp m !! c = Some d -> d_key d <> 0 -> da_load G c id T v m = Ok m' -> owned K L m'.
Proof.
  intros HO Hd Hk H. unfold da_load in H. rewrite Hd in H. simpl in H. ok_inv H. ok_inv H. ok_inv H. eapply ow_activate; [|exact H].
  pose proof HO as [H0 H1 H2 H3 H4 H5]. constructor; simpl; auto.
  - intros c' T'. rewrite lookup_insert_ne by done. auto.
  - intros c'. destruct (decide (c' = c)) as [->|]; [eauto|]. rewrite lookup_insert_ne by done. auto.
  - intros n Hn. destruct (decide (n = na m)) as [->|Hne].
    + left. exists c. eexists. rewrite lookup_insert. split; [done|]. simpl. rewrite fmap_app. set_solver.
    + rewrite lookup_insert_ne in Hn by (intros [= E9]; by apply Hne). destruct (H3 n Hn) as [(c1 & d1 & Hd1 & Hin)|]; [|by right]. left. destruct (decide (c1 = c)) as [->|].
      * rewrite Hd in Hd1. injection Hd1 as <-. exists c. eexists. rewrite lookup_insert. split; [done|]. simpl. rewrite fmap_app. set_solver.
      * exists c1, d1. by rewrite lookup_insert_ne.
  - intros c1 d1. destruct (decide (c1 = c)) as [->|]; [rewrite lookup_insert; by intros [= <-]|]. rewrite lookup_insert_ne by done. eauto.
Qed.
Lemma ow_dynload K L id T v m m' : id <> 0 -> owned K L m -> dyn_load G id T v m = Ok m' -> owned K L m'.
Proof.
  intros Hid HO H. unfold dyn_load in H. destruct (tlsd m) as [c|]; [|by injection H as <-]. ok_inv H. apply deref_ok in E. destruct (Z.eqb_spec (d_key a) 0) as [Hz|Hz]; simpl in H.
  - ok_inv H. destruct (ow_dload _ _ _ _ _ _ HO E0) as (HO1 & d & Hd & Hk). eapply ow_daload; [exact HO1|exact Hd|congruence|exact H].
  - eapply ow_daload; eauto.
Qed.
Lemma ow_dynacc K L id T tag f m g m' g' : id <> 0 -> owned K L m -> dyn_accumulate G id T tag f m g = Ok (m', g') -> owned K L m'.
Proof.
  intros Hid HO H. unfold dyn_accumulate in H. destruct (tlsd m) as [c|]; [|by injection H as <- <-]. ok_inv H. apply deref_ok in E. ok_inv H. ok_inv H. injection H as <- <-.
  destruct (Z.eqb_spec (d_key a) id) as [Hz|Hz].
  - injection E0 as <-. eapply ow_daload; [exact HO|exact E|congruence|exact E1].
  - destruct (ow_dload _ _ _ _ _ _ HO E0) as (HO1 & d & Hd & Hk). eapply ow_daload; [exact HO1|exact Hd|congruence|exact E1].
Qed.
Lemma ow_mload K L b id it m g m' g' : id <> 0 -> owned K L m -> mload G b id it m g = Ok (m', g') -> owned K L m'.
Proof.
  intros Hid HO H. destruct it as [T v|T tag gf|T tag f|tag]; simpl in H.
  - ok_inv H. injection H as <- <-. unfold load_slot in E. destruct (tls m !! T).
    + ok_inv E. destruct (_ || _); [by eapply ow_slot_load|by injection E as <-].
    + destruct (g_capture G); [by eapply ow_dynload|by injection E as <-].
  - unfold load_slot_deferred in H. destruct (tls m !! T).
    + ok_inv H. destruct (_ || _); [|by injection H as <- <-]. ok_inv H. injection H as <- <-. by eapply ow_slot_load.
    + destruct (g_capture G); [|by injection H as <- <-]. ok_inv H. injection H as <- <-. by eapply ow_dynload.
  - unfold load_slot_accumulate in H. destruct (tls m !! T).
    + ok_inv H. ok_inv H. injection H as <- <-. by eapply ow_slot_load.
    + destruct (g_capture G); [|by injection H as <- <-]. by eapply ow_dynacc.
  - by injection H as <- <-.
Qed.
Lemma ow_unload_to K L id T v m b m' : (id <> 0 \/ g_capture G = false \/ tls m !! T <> None) -> owned K L m -> unload_to G id T v m = Ok (b, m') -> owned K L m'.
Proof.
  intros Hid HO H. unfold unload_to in H. destruct (tls m !! T).
  - ok_inv H. destruct (negb _); [|by injection H as <- <-]. ok_inv H. injection H as <- <-. by eapply ow_slot_load.
  - destruct (g_capture G); [|by injection H as <- <-]. ok_inv H. injection H as <- <-. eapply ow_dynload; [|exact HO|exact E]. by destruct Hid as [|[|]].
Qed.
Lemma ow_slot_unload K L a T id m m' : owned K L m -> slot_unload G a T id m = Ok m' -> owned K L m'.
Proof.
  intros HO H. unfold slot_unload in H. ok_inv H. ok_inv H. destruct (negb (e_key _ =? id)); [by injection H as <-|].
  destruct ((id =? 0) && g_capture G && bool_decide (tls m !! T = None)) eqn:Eb; [done|]. ok_inv H. destruct a2 as [b m1]. simpl in H.
  assert (owned K L m1) as HO1.
  { eapply ow_unload_to; [|exact HO|exact E1]. destruct (Z.eqb_spec id 0); [|by left]. right. destruct (g_capture G); [|by left]. right. simpl in Eb. by apply bool_decide_eq_false in Eb. }
  destruct b; [by eapply ow_slot_reset|by injection H as <-].
Qed.
Lemma ow_dunload K c id m g m' g' : owned K [] m -> dslot_unload G c id m g = Ok (m', g') -> owned K [] m'.
Proof.
  intros HO H. unfold dslot_unload in H. ok_inv H. ok_inv H. apply deref_ok in E0. destruct (d_key _ =? 0); [by injection H as <- <-|]. ok_inv H. ok_inv H. injection H as <- <-.
  assert (owned K ((d_nodes a0).*2 ++ []) a1) as HO1.
  { eapply ow_nodes; [intros T n m1 m2; apply ow_slot_unload| |exact E1]. eapply ow_dins; [by apply ow_loose|exact E0| |done]. intros n Hn. right. left. set_solver. }
  destruct (ow_nodes_free _ _ _ _ _ HO1 E2) as (HO2 & _ & _ & Hn & _). by eapply ow_gone.
Qed.
Lemma ow_capunload K L id l : id <> 0 -> forall m m', owned K L m -> cap_unload_nodes G id l m = Ok m' -> owned K L m'.
Proof.
  intros Hid. induction l as [|[T [k v]] l IH]; intros m m' HO H; [by injection H as <-|]. simpl in H. ok_inv H. ok_inv H. eapply IH; [|exact H].
  destruct (negb (k =? id)); [by injection E0 as <-|]. ok_inv E0. injection E0 as <-. destruct a1 as [b m1]. eapply ow_unload_to; [|exact HO|exact E1]. by left.
Qed.

(** Contexts *)
Lemma ow_for_tup K L f l : (forall t m m', owned K L m -> f t m = Ok m' -> owned K L m') -> forall m m', owned K L m -> for_tup f l m = Ok m' -> owned K L m'.
Proof. intros Hf. induction l as [|t l IH]; intros m m' HO H; [by injection H as <-|]. simpl in H. ok_inv H. eapply IH; [|exact H]. eauto. Qed.
Lemma ow_setact K L m c k b : owned K L m -> ctxs m !! c = Some k -> owned K L (set_ctxs (<[c := CCtx (k_tup k) b]> (ctxs m)) m).
Proof.
  intros [H0 H1 H2 H3 H4 H5] Hk. constructor; simpl; auto. rewrite <- H0. unfold contexts. simpl. rewrite fmap_insert. simpl. apply insert_id. by rewrite lookup_fmap, Hk.
Qed.
Lemma for_tup_ctxs f l : (forall t m m', f t m = Ok m' -> ctxs m' = ctxs m) -> forall m m', for_tup f l m = Ok m' -> ctxs m' = ctxs m.
Proof. intros Hf. induction l as [|t l IH]; intros m m' H; [by injection H as <-|]. simpl in H. ok_inv H. rewrite (IH _ _ H). eauto. Qed.
Lemma for_nodes_ctxs f l : (forall T n m m', f T n m = Ok m' -> ctxs m' = ctxs m) -> forall m m', for_nodes f l m = Ok m' -> ctxs m' = ctxs m.
Proof. intros Hf. induction l as [|[T n] l IH]; intros m m' H; [by injection H as <-|]. simpl in H. ok_inv H. rewrite (IH _ _ H). eauto. Qed.
Lemma ow_mact K L c m m' : owned K L m -> mact G c m = Ok m' -> owned K L m'.
Proof.
  intros HO H. unfold mact in H. ok_inv H. apply deref_ok in E. ok_inv H. ok_inv H. injection H as <-. apply ow_setact.
  - eapply ow_for_tup; [|exact HO|exact E1]. intros [T|] m1 m2; [apply ow_activate|apply ow_dactivate].
  - rewrite <- E. f_equal. eapply for_tup_ctxs; [|exact E1]. intros [T|] m1 m2 H; simpl in H; unfold slot_activate, dslot_activate in H; ok_inv H; by injection H as <-.
Qed.
Lemma ow_mdeact K L c m m' : owned K L m -> mdeact G c m = Ok m' -> owned K L m'.
Proof.
  intros HO H. unfold mdeact in H. ok_inv H. apply deref_ok in E. ok_inv H. ok_inv H. injection H as <-. apply ow_setact.
  - eapply ow_for_tup; [|exact HO|exact E1]. intros [T|] m1 m2; [apply ow_deactivate|apply ow_ddeactivate].
  - rewrite <- E. f_equal. eapply for_tup_ctxs; [|exact E1].
    assert (forall a T m1 m2, slot_deactivate a T m1 = Ok m2 -> ctxs m2 = ctxs m1) as Hs. { intros b T m1 m2 H. unfold slot_deactivate in H. ok_inv H. by injection H as <-. }
    intros [T|] m1 m2 H; simpl in H; [by eapply Hs|]. unfold dslot_deactivate in H. ok_inv H. ok_inv H. injection H as <-. simpl. destruct (_ =? 0); [by injection E3 as <-|].
    eapply for_nodes_ctxs; [|exact E3]. intros T n m3 m4. apply Hs.
Qed.
Lemma ow_munload K c id m g m' g' : owned K [] m -> munload G c id m g = Ok (m', g') -> owned K [] m'.
Proof.
  intros HO H. unfold munload in H. ok_inv H. ok_inv H. clear E E0. revert m g HO H. induction (rev (k_tup a)) as [|t l IH]; intros m g HO H; [by injection H as <- <-|].
  simpl in H. ok_inv H. ok_inv H. destruct a2 as [m1 g1]. simpl in H. eapply IH; [|exact H]. destruct t as [T|].
  - ok_inv E0. injection E0 as <- <-. by eapply ow_slot_unload.
  - by eapply ow_dunload.
Qed.
Lemma ow_mset K L c T id v m m' : owned K L m -> mset c T id v m = Ok m' -> owned K L m'.
Proof.
  intros HO H. unfold mset in H. ok_inv H. destruct (bool_decide _); [|by injection H as <-]. ok_inv H. apply deref_ok in E0. destruct (_ && _); [|by injection H as <-].
  injection H as <-. apply ow_ins; eauto.
Qed.
Lemma take_nodes_spec K L l : forall m x m', owned K L m -> take_nodes l m = Ok (x, m') ->
  owned K L m' /\ dhp m' = dhp m /\ (forall n, n ∈ l.*2 -> hp m' !! inr n = None) /\ (forall a, hp m !! a = None -> hp m' !! a = None).
Proof.
  induction l as [|[T n] l IH]; intros m x m' HO H; simpl in H; [injection H as <- <-; split_and!; auto; intros n ?%elem_of_nil; done|].
  ok_inv H. ok_inv H. injection H as <- <-. destruct a0 as [y m1]. destruct (IH _ _ _ (ow_del _ _ _ (inr n) HO) E0) as (HO1 & D1 & D2 & D3). simpl.
  split; [done|]. split; [done|]. split.
  - intros n' Hn. apply elem_of_cons in Hn as [->|Hn]; [|auto]. apply D3. simpl. apply lookup_delete.
  - intros b Hb. apply D3. simpl. apply lookup_delete_None. auto.
Qed.
Lemma ow_mextract K L c id b m l m' : owned K L m -> mextract G c id b m = Ok (l, m') -> owned K L m'.
Proof.
  intros HO H. unfold mextract in H. ok_inv H. ok_inv H. ok_inv H. ok_inv H. ok_inv H. ok_inv H. injection H as <- <-. apply deref_ok in E2. destruct a4 as [x m2]. simpl.
  assert (owned K L a1) as HO1. { destruct (d_key _ =? id); [by injection E1 as <-|by eapply ow_dload]. }
  destruct (take_nodes_spec _ _ _ _ _ _ HO1 E4) as (HO2 & D1 & D2 & _). eapply ow_dins; [done|by rewrite D1| |done]. eauto.
Qed.

(** creation *)
Lemma new_slots_spec c tup : forall m, let m' := new_slots G c tup m in
  ctxs m' = ctxs m /\ nc m' = nc m /\ (forall n, hp m' !! inr n = hp m !! inr n) /\
  (forall c' T, is_Some (hp m' !! inl (c', T)) -> is_Some (hp m !! inl (c', T)) \/ c' = c /\ SE T ∈ tup) /\
  (forall c', dhp m' !! c' = dhp m !! c' \/ c' = c /\ SDA ∈ tup /\ dhp m' !! c' = Some (DSlot 0 [] true None)).
Proof.
  induction tup as [|[T|] tup IH]; intros m; simpl; [by auto 10|..].
  - destruct (IH (set_hp (<[inl (c, T) := ESlot 0 (g_def G T) None]> (hp m)) m)) as (D1 & D2 & D3 & D4 & D5). simpl in *. split; [done|]. split; [done|]. split; [|split].
    + intros n. rewrite D3. by rewrite lookup_insert_ne.
    + intros c' T' H. destruct (D4 _ _ H) as [H'|[-> ?]]; [|right; split; [done|set_solver]]. destruct (decide ((c', T') = (c, T))) as [[= -> ->]|Hne].
      * right. split; [done|set_solver].
      * left. rewrite lookup_insert_ne in H'; [done|]. congruence.
    + intros c'. destruct (D5 c') as [|(-> & ? & ?)]; [by left|]. right. split; [done|]. split; [set_solver|done].
  - destruct (IH (set_dhp (<[c := DSlot 0 [] true None]> (dhp m)) m)) as (D1 & D2 & D3 & D4 & D5). simpl in *. split; [done|]. split; [done|]. split; [done|]. split.
    + intros c' T' H. destruct (D4 _ _ H) as [H'|[-> ?]]; [by left|]. right; split; [done|set_solver].
    + intros c'. destruct (D5 c') as [E|(-> & ? & ?)]; [|right; split; [done|]; split; [set_solver|done]]. destruct (decide (c' = c)) as [->|].
      * right. split; [done|]. split; [set_solver|]. by rewrite E, lookup_insert.
      * left. by rewrite E, lookup_insert_ne.
Qed.
Lemma ow_new K m tup c m' : owned K [] m -> mnew G tup m = (c, m') -> K !! c = None /\ owned (<[c := tup]> K) [] m'.
Proof.
  intros [H0 H1 H2 H3 H4 H5] H. unfold mnew in H. injection H as <- <-. destruct (new_slots_spec (nc m) tup m) as (D1 & D2 & D3 & D4 & D5).
  assert (K !! nc m = None) as Hn. { destruct (K !! nc m) eqn:E; [|done]. assert (nc m < nc m)%nat by exact (H5 _ (mk_is_Some _ _ E)). lia. }
  split; [done|]. constructor; simpl.
  - unfold contexts. simpl. rewrite <- H0. exact (fmap_insert (K := cid) k_tup (ctxs m) (nc m) (CCtx tup false)).
  - intros c T Hc. destruct (D4 _ _ Hc) as [H|[-> ?]]; [|exists tup; by rewrite lookup_insert]. destruct (H1 _ _ H) as (t & Ht & ?). exists t.
    rewrite lookup_insert_ne; [done|]. congruence.
  - intros c Hc. destruct (D5 c) as [E|(-> & ? & _)]; [|exists tup; by rewrite lookup_insert]. rewrite E in Hc. destruct (H2 _ Hc) as (t & Ht & ?). exists t.
    rewrite lookup_insert_ne; [done|]. congruence.
  - intros n. rewrite D3. intros Hl. destruct (H3 n Hl) as [(c & d & Hd & Hin)|]; [|by right]. left. exists c, d. split; [|done].
    destruct (D5 c) as [E|(-> & _)]; [by rewrite E|]. destruct (H2 (nc m)) as (t & Ht & _); [by rewrite Hd|]. congruence.
  - intros c d Hd. destruct (D5 c) as [E|(-> & _ & E)]; rewrite E in Hd; [by eapply H4|]. by injection Hd as <-.
  - intros c. destruct (decide (c = nc m)) as [->|]; [lia|]. rewrite lookup_insert_ne by done. intros H. apply H5 in H. lia.
Qed.

(** destruction *)
Lemma ow_sty_free K L c t m m' : owned K L m -> sty_free G c t m = Ok m' ->
  owned K L m' /\ ctxs m' = ctxs m /\ (forall a, hp m !! a = None -> hp m' !! a = None) /\ (forall c', dhp m !! c' = None -> dhp m' !! c' = None) /\
  match t with SE T => hp m' !! inl (c, T) = None | SDA => dhp m' !! c = None end.
Proof.
  intros HO H. destruct t as [T|]; simpl in H.
  - destruct (ow_free _ _ _ _ _ _ HO H) as (HO1 & E1 & E2 & E3). split; [done|]. split; [done|]. rewrite E1, E2. split; [|split; [done|apply lookup_delete]].
    intros a Ha. apply lookup_delete_None. auto.
  - unfold dslot_free in H. ok_inv H. ok_inv H. ok_inv H. injection H as <-. simpl. destruct (ow_dreset _ _ _ _ _ HO E1) as (HO1 & D1 & (d & D2) & D3).
    split; [|split; [done|split; [done|split; [|apply lookup_delete]]]].
    + destruct HO1 as [H0 H1 H2 H3 H4 H5]. constructor; simpl; auto.
      * intros c' [x [_ Hx]%lookup_delete_Some]. apply H2. eauto.
      * intros n Hn. destruct (H3 n Hn) as [(c1 & d1 & Hd1 & Hin)|]; [|by right]. left. exists c1, d1. split; [|done]. apply lookup_delete_Some. split; [|done].
        intros <-. rewrite D2, lookup_insert in Hd1. injection Hd1 as <-. by apply elem_of_nil in Hin.
      * intros c1 d1 [_ Hd1]%lookup_delete_Some. eauto.
    + intros c' Hc'. apply lookup_delete_None. destruct (decide (c = c')); [by left|]. right. rewrite D2. by rewrite lookup_insert_ne.
Qed.
Lemma ow_free_all K L c l : forall m m', owned K L m -> for_tup (sty_free G c) l m = Ok m' ->
  owned K L m' /\ ctxs m' = ctxs m /\ (forall a, hp m !! a = None -> hp m' !! a = None) /\ (forall c', dhp m !! c' = None -> dhp m' !! c' = None) /\
  (forall T, SE T ∈ l -> hp m' !! inl (c, T) = None) /\ (SDA ∈ l -> dhp m' !! c = None).
Proof.
  induction l as [|t l IH]; intros m m' HO H; [injection H as <-; split_and!; auto; first [intros ?%elem_of_nil; done|intros ? ?%elem_of_nil; done]|]. simpl in H. ok_inv H.
  destruct (ow_sty_free _ _ _ _ _ _ HO E) as (HO1 & A1 & A2 & A3 & A4). destruct (IH _ _ HO1 H) as (HO2 & B1 & B2 & B3 & B4 & B5).
  split; [done|]. split; [congruence|]. split; [auto|]. split; [auto|]. split.
  - intros T [<-|Hin]%elem_of_cons; auto.
  - intros [<-|Hin]%elem_of_cons; auto.
Qed.
Lemma ow_end K c tup m m1 : K !! c = None -> owned (<[c := tup]> K) [] m -> for_tup (sty_free G c) (rev tup) m = Ok m1 ->
  owned K [] (set_ctxs (delete c (ctxs m1)) m1).
Proof.
  intros Hn HO H. destruct (ow_free_all _ _ _ _ _ _ HO H) as ([H0 H1 H2 H3 H4 H5] & _ & _ & _ & Ht & Hd).
  assert (forall T, SE T ∈ tup -> hp m1 !! inl (c, T) = None) as Ht'. { intros T HT. apply Ht. rewrite elem_of_list_In in *. by apply in_rev in HT. }
  assert (SDA ∈ tup -> dhp m1 !! c = None) as Hd'. { intros HT. apply Hd. rewrite elem_of_list_In in *. by apply in_rev in HT. }
  constructor; simpl; auto.
  - unfold contexts. simpl. rewrite fmap_delete. unfold contexts in H0. rewrite H0. by apply delete_insert.
  - intros c' T Hc. destruct (H1 _ _ Hc) as (t & Hl & Hin). destruct (decide (c' = c)) as [->|Hne].
    + rewrite lookup_insert in Hl. injection Hl as <-. rewrite (Ht' _ Hin) in Hc. by destruct Hc.
    + rewrite lookup_insert_ne in Hl by done. eauto.
  - intros c' Hc. destruct (H2 _ Hc) as (t & Hl & Hin). destruct (decide (c' = c)) as [->|Hne].
    + rewrite lookup_insert in Hl. injection Hl as <-. rewrite (Hd' Hin) in Hc. by destruct Hc.
    + rewrite lookup_insert_ne in Hl by done. eauto.
  - intros c' Hc. apply H5. destruct (decide (c' = c)) as [->|]; [by rewrite lookup_insert|by rewrite lookup_insert_ne].
Qed.
Lemma owned_tup K L m c tup k : owned (<[c := tup]> K) L m -> ctxs m !! c = Some k -> k_tup k = tup.
Proof. intros HO Hk. assert (contexts m !! c = Some tup) as E by (rewrite (o_ctx _ _ _ HO); apply lookup_insert). unfold contexts in E. rewrite lookup_fmap, Hk in E. by injection E. Qed.

Lemma kept_owned : (forall n, g_sup G n <> 0) -> kept G (pmach G) (fun _ => True) (fun K m => owned K [] m).
Proof.
  intros Hs. constructor; simpl; auto.
  - intros x b id it m g m' g' Hid HO H. by eapply ow_mload.
  - intros x id l m g m' g' Hid HO H. unfold mcap_unload in H. ok_inv H. injection H as <- <-. by eapply ow_capunload.
  - intros x tup m c m' _ HO H. destruct (ow_new _ _ _ _ _ HO H) as [Hn HO1]. exists (<[c := tup]> x). split; [done|]. split; intros m1 m2 HO2 H2.
    + unfold mdestroy in H2. ok_inv H2. apply deref_ok in E. ok_inv H2. ok_inv H2. injection H2 as <-. rewrite (owned_tup _ _ _ _ _ _ HO2 E) in E1. by eapply ow_end.
    + unfold mdrop in H2. ok_inv H2. apply deref_ok in E. ok_inv H2. injection H2 as <-. rewrite (owned_tup _ _ _ _ _ _ HO2 E) in E0. by eapply ow_end.
  - intros x c m m'. apply ow_mact.
  - intros x c m m'. apply ow_mdeact.
  - intros x c id m g m' g'. apply ow_munload.
  - intros x c T id v m m'. apply ow_mset.
  - intros x c id b m l m'. apply ow_mextract.
Qed.
End ops.

Lemma nothing_contexts m' : nothing_lost m' -> contexts m' = ∅ -> hp m' = ∅ /\ dhp m' = ∅ /\ ctxs m' = ∅.
Proof.
  intros [H1 H2 H3 H4 H5] Hc.
  assert (forall c, ctxs m' !! c = None) as Hn. { intros c. assert (contexts m' !! c = None) as E by by rewrite Hc. unfold contexts in E. rewrite lookup_fmap in E. by destruct (ctxs m' !! c). }
  assert (forall c, dhp m' !! c = None) as Hd. { intros c. destruct (dhp m' !! c) eqn:E; [|done]. destruct (H2 c) as (k & Hk & _); [by rewrite E|]. by rewrite Hn in Hk. }
  split; [|split]; apply map_eq; intros i; rewrite lookup_empty; auto. destruct (hp m' !! i) eqn:E; [|done]. destruct i as [[c T]|n].
  - destruct (H1 c T) as (k & Hk & _); [by rewrite E|]. by rewrite Hn in Hk.
  - destruct (H3 n) as (c & d & Hk & _); [by rewrite E|]. by rewrite Hd in Hk.
Qed.

(** ** Theorems *)
(** Any program, however it ends (value, failure or exception), in any build: the contexts that live afterwards are those that lived before, and
    nothing lives that does not belong to them. *)
Theorem C63_nothing_lost :
  forall G caught p m g o m' g', (forall n, g_sup G n <> 0) ->
    nothing_lost m -> eval G (pmach G) caught p (m, g) = Ok (o, (m', g')) ->
    nothing_lost m' /\ contexts m' = contexts m.
Proof.
  intros G caught p m g o m' g' Hs Hm H. apply owned_nl in Hm.
  pose proof (proj1 (kept_eval G (pmach G) _ _ (kept_owned G Hs)) p (proj1 (creates_all G _ (fun _ => Logic.I)) p) caught (m, g) (contexts m) Hm (o, (m', g')) H) as HO.
  change (owned (contexts m) [] m') in HO.
  pose proof (o_ctx _ _ _ HO) as E. split; [|done]. apply owned_nl. by rewrite E.
Qed.
Print Assumptions C63_nothing_lost.

(** A thread's whole life: nothing lives at the end. *)
Theorem C63_nothing_left :
  forall G p g o m' g', (forall n, g_sup G n <> 0) ->
    eval G (pmach G) None p (mem0, g) = Ok (o, (m', g')) -> hp m' = ∅ /\ dhp m' = ∅ /\ ctxs m' = ∅.
Proof.
  intros G p g o m' g' Hs H. destruct (C63_nothing_lost G None p mem0 g o m' g' Hs) as [Hm Hc].
  { constructor; simpl; intros *; rewrite lookup_empty; try (by intros []); done. }
  { done. }
  apply nothing_contexts; [done|]. rewrite Hc. exact (fmap_empty k_tup).
Qed.
Print Assumptions C63_nothing_left.

(** Programs that keep the rules (C15) do end. *)
Theorem C63_safe_programs :
  forall G t p g, good_sup G -> safe G env0 t p ->
    exists o m' g', eval G (pmach G) None p (mem0, g) = Ok (o, (m', g')) /\ vout t o /\ hp m' = ∅ /\ dhp m' = ∅ /\ ctxs m' = ∅.
Proof.
  intros G t p g Hs Hp. destruct (C15_no_assertion_no_dangling_access_partial G t p g Hs Hp) as (o & m' & g' & E & Ho). exists o, m', g'. split; [done|]. split; [done|].
  eapply C63_nothing_left; [|exact E]. intros n Hn. specialize (Hs n). by rewrite Hn in Hs.
Qed.
Print Assumptions C63_safe_programs.

(** Builds without exceptions: the same of every program that returns. (One that would throw never returns.) *)
Theorem C63_nothing_left_noexcept :
  forall G p m g r m' g', (forall n, g_sup G n <> 0) ->
    nothing_lost m -> evalN G (pmach G) p (m, g) = Ok (ORet r, (m', g')) ->
    nothing_lost m' /\ contexts m' = contexts m /\ (m = mem0 -> hp m' = ∅ /\ dhp m' = ∅ /\ ctxs m' = ∅).
Proof.
  intros G p m g r m' g' Hs Hm H. apply owned_nl in Hm.
  pose proof (proj1 (kept_evalN G (pmach G) _ _ (kept_owned G Hs)) p (proj1 (creates_all G _ (fun _ => Logic.I)) p) (m, g) (contexts m) Hm r (m', g') H) as HO.
  change (owned (contexts m) [] m') in HO.
  pose proof (o_ctx _ _ _ HO) as E. assert (nothing_lost m') as Hn by (apply owned_nl; by rewrite E). split; [done|]. split; [done|]. intros ->. apply nothing_contexts; [done|]. rewrite E. exact (fmap_empty k_tup).
Qed.
Print Assumptions C63_nothing_left_noexcept.

(** Non-trivial cases: a program with scopes, a captured result, contexts and an exception nothing handles makes four nodes and eight
    contexts and leaves none of them; *)
Definition ex63_p : prog :=
  PBind (PCapture false (PNewError [IVal TC (VZ 3); IVal TA (VZ 10)] (fun id => PRet (RErr id)))) (fun r =>
  PBind (PTHA (PTHS (PRet r) (HCons [AE TB] (fun _ => PRet (RVal 0)) HNil))
    (HCons [AE TA; ADetails] (fun l => match l with VE (VZ z) :: _ => PRet (RVal z) | _ => PRet (RVal 0) end) (HCons [] (fun _ => PRet (RVal (-1))) HNil))) (fun r' =>
  PBind ex15 (fun _ => PCtx [SE TA; SDA] (fun c => PAct c (PThrow None (XSpec true [T_STDEX] 4 None None) [IVal TA (VZ 1); IVal TB (VZ 2)]))))).
Example ex63 : match eval GX (pmach GX) None ex63_p (mem0, glob0) with
  | Ok (OThrow _, (m, _)) => (na m, nc m) = (4, 8)%nat /\ map_to_list (hp m) = [] /\ map_to_list (dhp m) = [] /\ map_to_list (ctxs m) = []
  | _ => False
  end.
Proof. vm_compute. by split_and!. Qed.
(** inside two scopes, one with a captured object, the hypothesis of the first theorem holds of a storage that is not empty. *)
Definition mid : res (mem * glob) :=
  let! m1 := mact GX 0%nat (snd (mnew GX [SDA] mem0)) in
  let! m3 := mact GX 1%nat (snd (mnew GX [SE TA; SE TB] m1)) in
  let! mg := mload GX true 9 (IVal TC (VZ 1)) m3 glob0 in mload GX true 9 (IVal TA (VZ 2)) (fst mg) (snd mg).
Example ex63_mid : match mid with Ok (m, _) => nothing_lost m /\ (size (hp m), size (dhp m), size (ctxs m)) = (3, 1, 2)%nat | Fail _ => False end.
Proof.
  assert (forall m g, mid = Ok (m, g) -> nothing_lost m) as H.
  { intros m g H. assert (owned ∅ [] mem0) as H0. { constructor; simpl; [exact (fmap_empty k_tup)|intros *; rewrite lookup_empty; try (by intros []); done..]. }
    unfold mid in H. destruct (mnew GX [SDA] mem0) as [c0 m0] eqn:E0. destruct (ow_new _ _ _ _ _ _ H0 E0) as [_ H1].
    destruct (mact GX 0%nat (snd (c0, m0))) as [m1|] eqn:E1; [|discriminate H]. cbn [rbind] in H. pose proof (ow_mact _ _ _ _ _ _ H1 E1) as H2.
    destruct (mnew GX [SE TA; SE TB] m1) as [c1 m2] eqn:E2. destruct (ow_new _ _ _ _ _ _ H2 E2) as [_ H3].
    destruct (mact GX 1%nat (snd (c1, m2))) as [m3|] eqn:E3; [|discriminate H]. cbn [rbind] in H. pose proof (ow_mact _ _ _ _ _ _ H3 E3) as H4.
    destruct (mload GX true 9 (IVal TC (VZ 1)) m3 glob0) as [[m4 g4]|] eqn:E4; [|discriminate H]. cbn [rbind fst snd] in H.
    assert (9 <> 0) as Hne by done. pose proof (ow_mload _ _ _ _ _ _ _ _ _ _ Hne H4 E4) as H5. pose proof (ow_mload _ _ _ _ _ _ _ _ _ _ Hne H5 H) as H6.
    apply owned_nl. by rewrite (o_ctx _ _ _ H6). }
  destruct mid as [[m g]|] eqn:E; [|vm_compute in E; discriminate E]. split; [by eapply H|].
  assert (match mid with Ok (m, _) => (size (hp m), size (dhp m), size (ctxs m)) | Fail _ => (0, 0, 0)%nat end = (3, 1, 2)%nat) as E' by (vm_compute; reflexivity).
  rewrite E in E'. exact E'.
Qed.
