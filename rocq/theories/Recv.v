(** Moving objects from an inactive context, or a captured result, to the active contexts. *)
From Verif Require Export View.
Open Scope Z_scope.

Section recv.
Context (G : cfg).

(** What an active context c holds for type T after the objects [src] of error id have been moved, if it held [old]. *)
Definition after (id : Z) (src : ety -> option val) (s : smem) (c : cid) (T : ety) (old : option (Z * val)) : option (Z * val) :=
  match src T with
  | None => old
  | Some v =>
      if decide (fst <$> find_e T s = Some c) then (if key_of old =? id then old else Some (id, v))
      else if decide (find_e T s = None /\ g_capture G = true /\ fst <$> find_d s = Some c) then Some (id, v)
      else old
  end.

Record recv (x : option cid) (id : Z) (src : ety -> option val) (s s' : smem) : Prop := Recv {
  rv_same : same s s';
  rv_get : forall c a a' T, c ∈ stack s -> actxs s !! c = Some a -> actxs s' !! c = Some a' -> get_e T a' = after id src s c T (get_e T a);
  rv_inact : forall c, c ∉ stack s -> Some c <> x -> actxs s' !! c = actxs s !! c }.

Definition none : ety -> option val := fun _ => None.
Definition one (T : ety) (v : val) : ety -> option val := fun T' => if decide (T' = T) then Some v else None.
Definition both (f g : ety -> option val) : ety -> option val := fun T => match f T with Some v => Some v | None => g T end.

Lemma recv_ext x id f g s s' : (forall T, f T = g T) -> recv x id f s s' -> recv x id g s s'.
Proof.
  intros E []. split; auto. intros c a a' T H1 H2 H3. rewrite (rv_get0 _ _ _ T H1 H2 H3). unfold after. by rewrite E.
Qed.

Lemma recv_none x id f s : (forall T, f T = None) -> recv x id f s s.
Proof. intros H. split; auto using same_refl. intros. simplify_eq. unfold after. by rewrite H. Qed.

Lemma recv_has x id f s s' T : recv x id f s s' -> f T = None -> forall c, c ∈ stack s -> hasT T c s' = hasT T c s.
Proof.
  intros [] Hf c Hc. unfold hasT. destruct (actxs s !! c) as [a|] eqn:Ha.
  - destruct (sm_tup _ _ rv_same0 _ _ Ha) as (a' & Ha' & Ht). rewrite Ha', !has_e_alt, Ht.
    rewrite (rv_get0 _ _ _ T Hc Ha Ha'). unfold after. by rewrite Hf.
  - by rewrite (sm_none _ _ rv_same0).
Qed.
Lemma recv_find x id f s s' T : swf s -> recv x id f s s' -> f T = None -> fst <$> find_e T s' = fst <$> find_e T s.
Proof.
  intros Hwf H Hf. pose proof (rv_same _ _ _ _ _ H) as Hs. rewrite !find_e_first by eauto using same_wf. rewrite (sm_stack _ _ Hs).
  apply first_of_ext. intros. eapply recv_has; eauto.
Qed.
Lemma fst_None {A B} (o : option (A * B)) : fst <$> o = None <-> o = None.
Proof. by destruct o. Qed.

Lemma recv_trans x id f g s1 s2 s3 : swf s1 -> recv x id f s1 s2 -> recv x id g s2 s3 -> (forall T, f T = None \/ g T = None) ->
  recv x id (both f g) s1 s3.
Proof.
  intros Hwf H1 H2 Hd. pose proof (rv_same _ _ _ _ _ H1) as Hs1. pose proof (rv_same _ _ _ _ _ H2) as Hs2.
  split; [by eapply same_trans| |].
  - intros c a a' T Hc Ha Ha'. destruct (sm_tup _ _ Hs1 _ _ Ha) as (a2 & Ha2 & _).
    assert (c ∈ stack s2) as Hc2 by by rewrite (sm_stack _ _ Hs1).
    rewrite (rv_get _ _ _ _ _ H2 _ _ _ T Hc2 Ha2 Ha'), (rv_get _ _ _ _ _ H1 _ _ _ T Hc Ha Ha2).
    unfold after, both. destruct (Hd T) as [E|E]; rewrite E.
    + rewrite (recv_find _ _ _ _ _ T Hwf H1 E). destruct (g T) as [v|]; [|done].
      destruct (decide (fst <$> find_e T s1 = Some c)); [done|].
      assert (find_e T s2 = None <-> find_e T s1 = None) as EN. { rewrite <- !fst_None. by rewrite (recv_find _ _ _ _ _ T Hwf H1 E). }
      rewrite (same_find_d _ _ Hwf Hs1).
      destruct (decide (find_e T s2 = None /\ _)), (decide (find_e T s1 = None /\ _)); tauto.
    + by destruct (f T).
  - intros c Hc Hx. rewrite (rv_inact _ _ _ _ _ H2), (rv_inact _ _ _ _ _ H1); auto. by rewrite (sm_stack _ _ Hs1).
Qed.

(** ** One object *)
Definition dok (s : smem) : Prop := forall c a q, find_d s = Some (c, a) -> ac_coll a = Some q -> q_ok q = true.

Lemma put_lookup c a s c' : actxs (put c a s) !! c' = if decide (c' = c) then Some a else actxs s !! c'.
Proof. simpl. destruct (decide (c' = c)) as [->|?]; [by rewrite lookup_insert|by rewrite lookup_insert_ne]. Qed.

Lemma find_ctx_put_ne P l c a cs : (forall a0, cs !! c = Some a0 -> P a = P a0) -> is_Some (cs !! c) -> 
  fst <$> find_ctx P l (<[c := a]> cs) = fst <$> find_ctx P l cs.
Proof.
  intros HP [a0 Ha0]. induction l as [|c1 l IH]; simpl; [done|]. destruct (decide (c1 = c)) as [->|Hne].
  - rewrite lookup_insert, Ha0, (HP a0 Ha0). by destruct (P a0).
  - rewrite lookup_insert_ne by done. destruct (cs !! c1) as [a1|]; [|done]. by destruct (P a1).
Qed.

Lemma find_d_put c a a0 s : actxs s !! c = Some a0 -> ac_tup a = ac_tup a0 -> fst <$> find_d (put c a s) = fst <$> find_d s.
Proof. intros Ha Ht. unfold find_d. simpl. apply find_ctx_put_ne; [|eauto]. intros. simplify_eq. unfold has_d. by rewrite Ht. Qed.

Lemma dok_put c a a0 s : actxs s !! c = Some a0 -> ac_tup a = ac_tup a0 -> 
  (fst <$> find_d s = Some c -> forall q, ac_coll a = Some q -> q_ok q = true) -> dok s -> dok (put c a s).
Proof.
  intros Ha Ht Hq Hd c1 a1 q1 Hf Hq1. pose proof (find_d_put _ _ _ _ Ha Ht) as HE. rewrite Hf in HE. simpl in HE. symmetry in HE.
  pose proof (find_ctx_in _ _ _ _ _ Hf) as (_ & Ha1 & _). rewrite put_lookup in Ha1. destruct (decide (c1 = c)) as [->|Hne].
  - simplify_eq. eauto.
  - destruct (find_d s) as [[c2 a2]|] eqn:E; simplify_eq/=. pose proof (find_ctx_in _ _ _ _ _ E) as (_ & Ha2 & _). simplify_eq. eapply Hd; eauto.
Qed.

Lemma set_e_ok T x a q : ac_coll (set_e T x a) = Some q -> exists q0, ac_coll a = Some q0 /\ q_ok q = q_ok q0.
Proof. unfold set_e. case_bool_decide; simpl; [eauto|]. destruct (ac_coll a); intros; simplify_eq. eauto. Qed.

Lemma sreceive_ok id T v s : id <> 0 -> dok s -> exists b s', sreceive G id T v s = Ok (b, s') /\ dok s'.
Proof.
  intros Hid Hd. unfold sreceive. destruct (find_e T s) as [[c a]|] eqn:Hf.
  - destruct (_ =? _); [eauto|]. unfold sstore, sassert. rewrite (proj2 (Z.eqb_neq id 0)) by done. simpl. eexists _, _. split; [done|].
    pose proof (find_ctx_in _ _ _ _ _ Hf) as (_ & Ha & _). eapply dok_put; eauto; [apply set_e_tup|].
    intros Hc q Hq. apply set_e_ok in Hq as (q0 & Hq0 & ->). destruct (find_d s) as [[c1 a1]|] eqn:Hf1; simplify_eq/=.
    pose proof (find_ctx_in _ _ _ _ _ Hf1) as (_ & Ha1 & _). simplify_eq. eapply Hd; eauto.
  - destruct (g_capture G); [|eauto]. unfold scollect. destruct (find_d s) as [[c a]|] eqn:Hf1; [|simpl; eauto].
    unfold sassert. rewrite (proj2 (Z.eqb_neq id 0)) by done. simpl. pose proof (find_ctx_in _ _ _ _ _ Hf1) as (_ & Ha & _).
    destruct (ac_coll a) as [q|] eqn:Hq.
    + rewrite (Hd _ _ _ Hf1 Hq). simpl. eexists _, _. split; [done|]. eapply dok_put; eauto. simpl. intros. by simplify_eq.
    + simpl. eexists _, _. split; [done|]. eapply dok_put; eauto. simpl. intros. by simplify_eq.
Qed.

Lemma scollect_app id T v s c a s' : find_d s = Some (c, a) -> scollect id T v s = Ok s' ->
  exists key, s' = put c (app_coll key T (id, v) a) s.
Proof.
  intros Hd. unfold scollect. rewrite Hd. intros H. ok_inv H. unfold app_coll, nodes. destruct (ac_coll a) as [q|].
  - destruct (q_ok q); simplify_eq. eauto.
  - simplify_eq. eauto.
Qed.
Lemma get_e_app_same T key x a : has_e T a = false -> get_e T (app_coll key T x a) = Some x.
Proof.
  unfold has_e, get_e. simpl. intros H. apply orb_false_iff in H as [-> H]. unfold nodes at 1. simpl. rewrite get_node_app.
  apply has_node_false in H. rewrite H. by rewrite decide_True.
Qed.

Ltac dec := repeat (match goal with |- context [decide ?P] => destruct (decide P) end);
  repeat match goal with H : _ /\ _ |- _ => destruct H end; try done; try congruence.

Lemma sreceive_recv x id T v s b s' : swf s -> sreceive G id T v s = Ok (b, s') -> recv x id (one T v) s s'.
Proof.
  intros Hwf. unfold sreceive. destruct (find_e T s) as [[c a]|] eqn:Hf.
  - pose proof (find_ctx_in _ _ _ _ _ Hf) as (Hin & Ha & HP). destruct (key_of (get_e T a) =? id) eqn:Ek; intros H.
    + simplify_eq. split; auto using same_refl. intros c1 b1 b1' T1 H1 H2 H3. simplify_eq. unfold after, one.
      destruct (decide (T1 = T)) as [->|?]; [|done]. rewrite Hf. simpl. destruct (decide (Some c = Some c1)) as [E|?].
      * simplify_eq. by rewrite Ek.
      * dec.
    + ok_inv H. unfold sstore in E. ok_inv E. simplify_eq. split.
      * eapply same_put; eauto. apply set_e_tup.
      * intros c1 b1 b1' T1 H1 H2 H3. rewrite put_lookup in H3. unfold after, one.
        destruct (decide (T1 = T)) as [->|Hne].
        -- rewrite Hf. simpl. destruct (decide (c1 = c)) as [->|Hn].
           ++ simplify_eq. rewrite decide_True by done. rewrite Ek. by apply get_e_set.
           ++ rewrite decide_False by congruence. simplify_eq. dec.
        -- destruct (decide (c1 = c)) as [->|Hn]; simplify_eq; [|done]. by apply get_e_set_ne.
      * intros c1 H1 _. rewrite put_lookup. rewrite decide_False; [done|]. congruence.
  - destruct (g_capture G) eqn:EG; intros H.
    + ok_inv H. simplify_eq. destruct (find_d s) as [[c a]|] eqn:Hd.
      * pose proof (find_ctx_in _ _ _ _ _ Hd) as (Hin & Ha & HP). destruct (scollect_app _ _ _ _ _ _ _ Hd E) as [key ->]. split.
        -- by eapply same_put.
        -- intros c1 b1 b1' T1 H1 H2 H3. rewrite put_lookup in H3. unfold after, one.
           destruct (decide (T1 = T)) as [->|Hne].
           ++ rewrite Hf, Hd. simpl. destruct (decide (None = Some c1)); [done|]. destruct (decide (c1 = c)) as [->|Hn].
              ** simplify_eq. rewrite decide_True by done. apply get_e_app_same.
                 pose proof (find_e_first T s Hwf) as F. rewrite Hf in F. simpl in F. symmetry in F.
                 pose proof (proj1 (first_of_None _ _) F c Hin) as F1. unfold hasT in F1. by rewrite Ha in F1.
              ** simplify_eq. dec.
           ++ destruct (decide (c1 = c)) as [->|Hn]; simplify_eq; [|done]. by apply get_e_app.
        -- intros c1 H1 _. rewrite put_lookup. rewrite decide_False; [done|]. congruence.
      * unfold scollect in E. rewrite Hd in E. simplify_eq. split; auto using same_refl. intros. simplify_eq. unfold after, one.
        destruct (decide (T0 = T)) as [->|?]; [|done]. rewrite Hf, Hd. simpl. dec.
    + simplify_eq. split; auto using same_refl. intros. simplify_eq. unfold after, one.
      destruct (decide (T0 = T)) as [->|?]; [|done]. rewrite Hf. simpl. dec.
Qed.

(** ** A list of objects *)
Definition src_nodes (id : Z) (l : list cnode) : ety -> option val := fun T =>
  match get_node T l with Some (k, v) => if k =? id then Some v else None | None => None end.

Lemma sreceive_all_ok id l : forall s, id <> 0 -> dok s -> exists s', sreceive_all G id l s = Ok s' /\ dok s'.
Proof.
  induction l as [|[T [k v]] l IH]; intros s Hid Hd; simpl; [eauto|]. unfold sassert. rewrite (proj2 (Z.eqb_neq id 0)) by done. simpl.
  destruct (k =? id); simpl; [|auto]. destruct (sreceive_ok id T v s Hid Hd) as (b & s1 & -> & Hd1). simpl. auto.
Qed.

Lemma sreceive_all_recv x id l : forall s s', swf s -> NoDup l.*1 -> sreceive_all G id l s = Ok s' -> recv x id (src_nodes id l) s s'.
Proof.
  induction l as [|[T [k v]] l IH]; intros s s' Hwf Hnd H; simpl in H; [simplify_eq; by apply recv_none|].
  csimpl in Hnd. apply NoDup_cons in Hnd as [Hn Hnd]. ok_inv H. ok_inv H. 
  assert (get_node T l = None) as Hgn. { apply has_node_false. unfold has_node. by rewrite bool_decide_false. }
  destruct (k =? id) eqn:Ek; simpl in E0.
  - ok_inv E0. destruct a1 as [b s2]. simpl in E0. injection E0 as <-. apply (sreceive_recv x) in E1; auto.
    assert (swf s2) as Hwf2 by (eapply same_wf; eauto; by apply (rv_same _ _ _ _ _ E1)).
    eapply recv_ext; [|eapply recv_trans; [exact Hwf|exact E1|by apply IH|]].
    + intros T1. unfold both, one, src_nodes. simpl. destruct (decide (T1 = T)); [by rewrite Ek|done].
    + intros T1. unfold one, src_nodes. destruct (decide (T1 = T)) as [->|?]; [right; by rewrite Hgn|by left].
  - simplify_eq. eapply recv_ext; [|by apply IH]. intros T1. unfold src_nodes. simpl. destruct (decide (T1 = T)) as [->|?]; [|done].
    by rewrite Ek, Hgn.
Qed.

(** ** A context *)
Record awf (a : actx) : Prop := Awf {
  aw_nodup : NoDup (ac_tup a);
  aw_disj : forall T, has_node T (nodes a) = true -> SE T ∉ ac_tup a;
  aw_nodes : NoDup (nodes a).*1;
  aw_nocoll : SDA ∉ ac_tup a -> ac_coll a = None }.

Lemma R_awf m s c a : R m s -> actxs s !! c = Some a -> awf a.
Proof.
  intros HR Ha. destruct (R_look _ _ _ _ HR Ha) as (k & Hk & []). split; auto.
  - destruct (decide (SDA ∈ ac_tup a)) as [Hd|Hd].
    + destruct (cr_coll Hd) as (d & _ & Hc). unfold nodes. destruct (ac_coll a) as [q|]; [|constructor].
      destruct Hc as (_ & _ & _ & Hn & _ & HF). by rewrite <- (nodes_types _ _ _ HF).
    + destruct (cr_nocoll Hd) as [_ E]. unfold nodes. rewrite E. constructor.
  - intros Hd. by destruct (cr_nocoll Hd).
Qed.

(** the objects the listed members of a context hold for id *)
Definition src_list (id : Z) (l : list sty) (a : actx) : ety -> option val := fun T =>
  if decide (SE T ∈ l) then match ac_cell a !! T with Some (k, v) => if k =? id then Some v else None | None => None end
  else if decide (SDA ∈ l) then src_nodes id (nodes a) T else None.

Lemma dok_inactive c a a0 s : actxs s !! c = Some a0 -> ac_tup a = ac_tup a0 -> c ∉ stack s -> dok s -> dok (put c a s).
Proof.
  intros Ha Ht Hn. eapply dok_put; eauto. intros Hf. destruct (find_d s) as [[c1 a1]|] eqn:E; simplify_eq/=.
  apply find_ctx_in in E as (? & _). done.
Qed.

Lemma find_ctx_inactive P c a l (cs : gmap cid actx) : c ∉ l -> find_ctx P l (<[c := a]> cs) = find_ctx P l cs.
Proof.
  induction l as [|c1 l IH]; intros Hn; simpl; [done|]. rewrite lookup_insert_ne by (intros ->; apply Hn; constructor).
  destruct (cs !! c1) as [a1|]; [|done]. destruct (P a1); [done|]. apply IH. intros ?. apply Hn. by constructor.
Qed.
Lemma recv_put_r c a a0 id f s s' : recv (Some c) id f s s' -> c ∉ stack s -> actxs s' !! c = Some a0 -> ac_tup a = ac_tup a0 ->
  recv (Some c) id f s (put c a s').
Proof.
  intros [] Hn Ha Ht. split.
  - eapply same_trans; eauto. by eapply same_put.
  - intros c1 b b' T H1 H2 H3. rewrite put_lookup in H3. rewrite decide_False in H3 by congruence. eauto.
  - intros c1 H1 H2. rewrite put_lookup, decide_False by congruence. eauto.
Qed.
Lemma recv_put_l c a a0 id f s s' : recv (Some c) id f (put c a s) s' -> c ∉ stack s -> actxs s !! c = Some a0 -> ac_tup a = ac_tup a0 ->
  recv (Some c) id f s s'.
Proof.
  intros [] Hn Ha Ht. split.
  - eapply same_trans; eauto. by eapply same_put.
  - intros c1 b b' T H1 H2 H3. rewrite (rv_get0 c1 b b' T); auto.
    + unfold after, find_e, find_d. simpl. by rewrite !find_ctx_inactive.
    + rewrite put_lookup. rewrite decide_False by congruence. done.
  - intros c1 H1 H2. rewrite rv_inact0; auto. rewrite put_lookup, decide_False by congruence. done.
Qed.

Definition src_cell (id : Z) (T : ety) (a : actx) : ety -> option val := fun T' =>
  if decide (T' = T) then match ac_cell a !! T with Some (k, v) => if k =? id then Some v else None | None => None end else None.

Lemma sunload1_cell c id T s g a : actxs s !! c = Some a -> c ∉ stack s -> swf s -> id <> 0 -> dok s ->
  exists s' a', sunload1 G c id (SE T) s g = Ok (s', g) /\ dok s' /\ recv (Some c) id (src_cell id T a) s s' /\
    actxs s' !! c = Some a' /\ ac_tup a' = ac_tup a /\ ac_coll a' = ac_coll a /\ (forall T', T' <> T -> ac_cell a' !! T' = ac_cell a !! T').
Proof.
  intros Ha Hn Hwf Hid Hd. unfold sunload1. rewrite Ha. unfold src_cell.
  assert (forall f, (forall T, f T = None) -> exists s' a', Ok (s, g) = Ok (s', g) /\ dok s' /\ recv (Some c) id f s s' /\
    actxs s' !! c = Some a' /\ ac_tup a' = ac_tup a /\ ac_coll a' = ac_coll a /\ (forall T', T' <> T -> ac_cell a' !! T' = ac_cell a !! T')) as Hno.
  { intros f Hf. exists s, a. split; [done|]. split; [done|]. split; [by apply recv_none|]. auto. }
  destruct (ac_cell a !! T) as [[k v]|] eqn:Hc; [|apply Hno; intros; by destruct (decide _)].
  destruct (k =? id) eqn:Ek; [|apply Hno; intros; by destruct (decide _)].
  destruct (sreceive_ok id T v s Hid Hd) as (b & s1 & E & Hd1). rewrite E. simpl.
  pose proof (sreceive_recv (Some c) _ _ _ _ _ _ Hwf E) as Hr. pose proof (rv_same _ _ _ _ _ Hr) as Hs.
  pose proof (sreceive_recv None _ _ _ _ _ _ Hwf E) as Hr0. assert (actxs s1 !! c = Some a) as Ha1.
  { rewrite (rv_inact _ _ _ _ _ Hr0) by done. done. }
  destruct b.
  - rewrite Ha1. exists (put c (cell_clear T a) s1), (cell_clear T a). split; [done|]. split; [|split; [|split; [|split; [done|split; [done|]]]]].
    + eapply dok_inactive; eauto. by rewrite (sm_stack _ _ Hs).
    + by apply (recv_put_r c (cell_clear T a) a _ _ _ _ Hr Hn Ha1 eq_refl).
    + by rewrite put_lookup, decide_True.
    + intros T' Hne. simpl. by rewrite lookup_delete_ne.
  - exists s1, a. auto 10.
Qed.

Definition unload_glob (id : Z) (a : actx) (g : glob) : glob := match ac_coll a with Some _ => set_cur id g | None => g end.

Lemma sunload1_coll c id s g a : actxs s !! c = Some a -> c ∉ stack s -> swf s -> id <> 0 -> dok s -> NoDup (nodes a).*1 ->
  exists s' a', sunload1 G c id SDA s g = Ok (s', unload_glob id a g) /\ dok s' /\ recv (Some c) id (src_nodes id (nodes a)) s s' /\
    actxs s' !! c = Some a' /\ ac_tup a' = ac_tup a /\ ac_cell a' = ac_cell a /\ nodes a' = [].
Proof.
  intros Ha Hn Hwf Hid Hd Hnd. unfold sunload1, unload_glob. rewrite Ha. unfold nodes in *. destruct (ac_coll a) as [q|] eqn:Hq.
  - set (q' := Coll _ _ _). set (a' := set_coll (Some q') a). 
    assert (swf (put c a' s)) as Hwf' by (eapply same_wf; eauto; by eapply same_put).
    destruct (sreceive_all_ok id (q_nodes q) (put c a' s)) as (s1 & E & Hd1); auto.
    { by eapply dok_inactive. }
    rewrite E. simpl. pose proof (sreceive_all_recv None _ _ _ _ Hwf' Hnd E) as Hr0. apply (sreceive_all_recv (Some c)) in E; auto.
    exists s1, a'. split; [done|]. split; [done|]. split; [by eapply recv_put_l|]. split; [|done].
    rewrite (rv_inact _ _ _ _ _ Hr0) by done. by rewrite put_lookup, decide_True.
  - exists s, a. rewrite Hq. split; [done|]. split; [done|]. split; [by apply recv_none|]. auto.
Qed.

Lemma sunload_list_recv c id : forall l s g a, id <> 0 -> swf s -> dok s -> c ∉ stack s -> actxs s !! c = Some a -> NoDup l ->
  (forall T, has_node T (nodes a) = true -> SE T ∉ l) -> NoDup (nodes a).*1 ->
  exists s' a', sunload_list G c id l s g = Ok (s', if decide (SDA ∈ l) then unload_glob id a g else g) /\ dok s' /\
    recv (Some c) id (src_list id l a) s s' /\ actxs s' !! c = Some a'.
Proof.
  induction l as [|t l IH]; intros s g a Hid Hwf Hd Hn Ha Hnd Hdj Hnn.
  - exists s, a. cbn [sunload_list]. split; [done|]. split; [done|]. split; [|done]. apply recv_none. intros T. unfold src_list.
    rewrite !decide_False by (by apply not_elem_of_nil). done.
  - apply NoDup_cons in Hnd as [Hnt Hnd]. cbn [sunload_list]. unfold sassert. rewrite (proj2 (Z.eqb_neq id 0)) by done. cbn [negb rbind].
    destruct t as [T|].
    + destruct (sunload1_cell c id T s g a Ha Hn Hwf Hid Hd) as (s1 & a1 & -> & Hd1 & Hr1 & Ha1 & Ht1 & Hq1 & Hc1). cbn [rbind fst snd].
      pose proof (rv_same _ _ _ _ _ Hr1) as Hs1. assert (nodes a1 = nodes a) as En by (unfold nodes; by rewrite Hq1).
      destruct (IH s1 g a1 Hid (same_wf _ _ Hwf Hs1) Hd1) as (s2 & a2 & -> & Hd2 & Hr2 & Ha2); auto.
      * by rewrite (sm_stack _ _ Hs1).
      * rewrite En. intros T' HT' Hx. apply (Hdj T' HT'). by constructor.
      * by rewrite En.
      * exists s2, a2. split.
        { do 2 f_equal. unfold unload_glob. rewrite Hq1. destruct (decide (SDA ∈ l)), (decide (SDA ∈ SE T :: l)) as [Hx|Hx]; try done.
          - exfalso. apply Hx. by constructor.
          - apply elem_of_cons in Hx as [?|?]; done. }
        split; [done|]. split; [|done].
        assert (get_node T (nodes a) = None) as Hg.
        { apply has_node_false. destruct (has_node T (nodes a)) eqn:E; [|done]. exfalso. apply (Hdj T E). constructor. }
        assert (forall T', src_list id l a1 T' = src_list id l a T') as Esl.
        { intros T'. unfold src_list. rewrite En. destruct (decide (SE T' ∈ l)) as [Hx|]; [|done]. rewrite Hc1; [done|]. intros ->. done. }
        eapply recv_ext; [|eapply recv_trans; [exact Hwf|exact Hr1|exact Hr2|]].
        -- intros T'. unfold both. rewrite Esl. unfold src_cell, src_list. destruct (decide (T' = T)) as [->|Hne].
           ++ rewrite (decide_True (P := SE T ∈ SE T :: l)) by constructor. rewrite (decide_False (P := SE T ∈ l)) by done. 
              unfold src_nodes. rewrite Hg. destruct (ac_cell a !! T) as [[k v]|]; [destruct (k =? id); [done|]|]; by destruct (decide (SDA ∈ l)).
           ++ destruct (decide (SE T' ∈ l)), (decide (SE T' ∈ SE T :: l)) as [Hx|Hx], (decide (SDA ∈ l)), (decide (SDA ∈ SE T :: l)) as [Hy|Hy]; try done;
                solve [exfalso; apply Hx; by constructor|exfalso; apply Hy; by constructor|apply elem_of_cons in Hx as [?|?]; congruence|apply elem_of_cons in Hy as [?|?]; congruence].
        -- intros T'. rewrite Esl. unfold src_cell, src_list. destruct (decide (T' = T)) as [->|Hne]; [|by left]. right.
           rewrite decide_False by done. unfold src_nodes. rewrite Hg. by destruct (decide _).
    + destruct (sunload1_coll c id s g a Ha Hn Hwf Hid Hd Hnn) as (s1 & a1 & -> & Hd1 & Hr1 & Ha1 & Ht1 & Hc1 & Hn1). cbn [rbind fst snd].
      pose proof (rv_same _ _ _ _ _ Hr1) as Hs1.
      destruct (IH s1 (unload_glob id a g) a1 Hid (same_wf _ _ Hwf Hs1) Hd1) as (s2 & a2 & -> & Hd2 & Hr2 & Ha2); auto.
      * by rewrite (sm_stack _ _ Hs1).
      * rewrite Hn1. intros T' HT'. done.
      * rewrite Hn1. constructor.
      * exists s2, a2. rewrite (decide_True (P := SDA ∈ SDA :: l)) by constructor. rewrite (decide_False (P := SDA ∈ l)) by done.
        split; [done|]. split; [done|]. split; [|done].
        assert (forall T', src_list id l a1 T' = if decide (SE T' ∈ l) then src_list id l a T' else None) as Esl.
        { intros T'. unfold src_list. rewrite Hn1, Hc1. destruct (decide (SE T' ∈ l)); [done|]. by destruct (decide _). }
        assert (forall T', SE T' ∈ l -> get_node T' (nodes a) = None) as Hg.
        { intros T' Hx. apply has_node_false. destruct (has_node T' (nodes a)) eqn:E; [|done]. exfalso. apply (Hdj T' E). by constructor. }
        eapply recv_ext; [|eapply recv_trans; [exact Hwf|exact Hr1|exact Hr2|]].
        -- intros T'. unfold both. rewrite Esl. unfold src_list. destruct (decide (SE T' ∈ l)) as [Hx|Hx].
           ++ unfold src_nodes. rewrite (Hg T' Hx). rewrite decide_True by by constructor. done.
           ++ rewrite decide_False; [|intros Hy; apply elem_of_cons in Hy as [?|?]; done]. rewrite decide_True by constructor. by destruct (src_nodes id (nodes a) T').
        -- intros T'. rewrite Esl. destruct (decide (SE T' ∈ l)) as [Hx|Hx]; [|by right]. left. unfold src_nodes. by rewrite Hg.
Qed.

(** the objects a context holds for id *)
Definition src_ctx (id : Z) (a : actx) : ety -> option val := fun T =>
  match get_e T a with Some (k, v) => if k =? id then Some v else None | None => None end.

Lemma sunload_recv c id s g a : id <> 0 -> swf s -> dok s -> c ∉ stack s -> actxs s !! c = Some a -> awf a ->
  exists s', sunload G c id s g = Ok (s', unload_glob id a g) /\ dok s' /\ recv (Some c) id (src_ctx id a) s s'.
Proof.
  intros Hid Hwf Hd Hn Ha []. unfold sunload. rewrite Ha, bool_decide_false by done.
  destruct (sunload_list_recv c id (rev (ac_tup a)) s g a) as (s' & a' & -> & Hd' & Hr & _); auto.
  - apply NoDup_ListNoDup. apply NoDup_rev. by apply NoDup_ListNoDup.
  - intros T HT Hx. apply elem_of_list_In, in_rev, elem_of_list_In in Hx. by eapply aw_disj0.
  - exists s'. assert (forall t, t ∈ rev (ac_tup a) <-> t ∈ ac_tup a) as Er.
    { intros t. rewrite !elem_of_list_In. symmetry. apply in_rev. }
    split; [|split; [done|]].
    + do 2 f_equal. destruct (decide _) as [Hx|Hx]; [done|]. unfold unload_glob. rewrite aw_nocoll0; [done|]. by rewrite <- Er.
    + eapply recv_ext; [|exact Hr]. intros T. unfold src_list, src_ctx, get_e. destruct (decide (SE T ∈ rev (ac_tup a))) as [Hx|Hx].
      * rewrite bool_decide_true by by apply Er. done.
      * rewrite bool_decide_false by by rewrite <- Er. destruct (decide (SDA ∈ _)) as [Hy|Hy]; [done|].
        unfold nodes. rewrite aw_nocoll0; [done|]. by rewrite <- Er.
Qed.
End recv.
