(** Runs with and without BOOST_LEAF_CFG_CAPTURE. *)
From Verif Require Export Config Recv Load.
Open Scope Z_scope.

Definition cap_off (G : cfg) : cfg :=
  Cfg false (g_diag G) (g_asserts G) (g_class G) (g_abs G) (g_show G) (g_def G) (g_sup G).

(** Not a function that returns an error object (those are called if capture is enabled, whether or not the object is wanted). *)
Definition undeferred (V : Prop) (it : item) : Prop := match it with IDef _ _ _ => V | _ => True end.

(** Programs that do not use what capture is for: no try_capture_all, no diagnostic_details (unless diagnostics are off); calling
    unload of a context of one's own is allowed if U, passing functions returning error objects if V. *)
Fixpoint captureless (U V : Prop) (G : cfg) (p : prog) : Prop :=
  match p with
  | PRet _ | PThrowX _ | PRethrow => True
  | PThrow _ _ its => Forall (undeferred V) its
  | PBind p k => captureless U V G p /\ forall r, captureless U V G (k r)
  | PEmit _ k => captureless U V G k
  | PNewError its k => Forall (undeferred V) its /\ forall z, captureless U V G (k z)
  | PLoad _ its k => Forall (undeferred V) its /\ captureless U V G k
  | PCurErr k | PMonitor k | PCheck _ k | PAssigned _ k | PValue _ k | PErrId _ k | PImport _ _ k => forall z, captureless U V G (k z)
  | PCatch p h => captureless U V G p /\ forall x, captureless U V G (h x)
  | POnError its p => Forall (undeferred V) its /\ captureless U V G p
  | PE2R _ p | PAct _ p => captureless U V G p
  | PTHA p hs | PTHS p hs | PTC p hs => captureless U V G p /\ capturelessH U V G hs
  | PUnload _ k => forall r, captureless U V G (k r)
  | PCtx tup k => SDA ∉ tup /\ forall c, captureless U V G (k c)
  | PCtxHandle _ _ hs => capturelessH U V G hs
  | PCtxUnload _ _ k => U /\ captureless U V G k
  | PCapture _ _ => False
  end
with capturelessH (U V : Prop) (G : cfg) (hs : handlers) : Prop :=
  match hs with
  | HNil => True
  | HMut args _ b rest => (ADetails ∉ args \/ g_diag G = false) /\ (forall l, captureless U V G (b l)) /\ capturelessH U V G rest
  | HTup hs' rest => capturelessH U V G hs' /\ capturelessH U V G rest
  end.

Lemma captureless_asserts U V G : (forall p, captureless U V G p -> captureless U V (asserts_on G) p) /\ (forall hs, capturelessH U V G hs -> capturelessH U V (asserts_on G) hs).
Proof. apply prog_handlers_ind; cbn [captureless capturelessH]; intros; naive_solver. Qed.

(** No context collects objects. *)
Definition nod (s : smem) : Prop := forall c a, actxs s !! c = Some a -> SDA ∉ ac_tup a.

Lemma nod_find_d s : nod s -> find_d s = None.
Proof.
  intros H. destruct (find_d s) as [[c a]|] eqn:E; [|done]. apply Frame.find_ctx_in in E as (_ & E & Hd).
  unfold has_d in Hd. apply bool_decide_eq_true in Hd. by destruct (H _ _ E).
Qed.
Lemma nod_put s c a a' : nod s -> actxs s !! c = Some a -> ac_tup a' = ac_tup a -> nod (put c a' s).
Proof.
  intros H E Et c' b Hb. simpl in Hb. destruct (decide (c = c')) as [->|Hne].
  - rewrite lookup_insert in Hb. injection Hb as <-. rewrite Et. by eapply H.
  - rewrite lookup_insert_ne in Hb by done. by eapply H.
Qed.
Lemma set_e_tup T x a : ac_tup (set_e T x a) = ac_tup a.
Proof. unfold set_e. by destruct (bool_decide _). Qed.
Lemma nod_store s c a T id v s' : nod s -> find_e T s = Some (c, a) -> sstore c a id T v s = Ok s' -> nod s'.
Proof.
  intros H E Es. unfold sstore in Es. ok_inv Es. injection Es as <-. apply Frame.find_ctx_in in E as (_ & E & _).
  eapply nod_put; [done|done|apply set_e_tup].
Qed.

(** Two runs with the same result, the states related. *)
Definition both {A B} (P : A -> B -> Prop) (x : res A) (y : res B) : Prop :=
  match x, y with Ok a, Ok b => P a b | Fail e, Fail f => e = f | _, _ => False end.
Lemma both_bind {A B A' B'} (P : A -> B -> Prop) (Q : A' -> B' -> Prop) x y f g :
  both P x y -> (forall a b, P a b -> both Q (f a) (g b)) -> both Q (rbind x f) (rbind y g).
Proof. destruct x, y; simpl; auto; done. Qed.
Lemma both_eq {A} (P : A -> A -> Prop) (x : res A) : (forall a, x = Ok a -> P a a) -> both P x x.
Proof. destruct x; simpl; auto. Qed.
Lemma both_mono {A B} (P Q : A -> B -> Prop) x y : (forall a b, P a b -> Q a b) -> both P x y -> both Q x y.
Proof. destruct x, y; simpl; auto. Qed.

Section cap.
Context (G : cfg).
Notation Gc := (cap_off G).
Notation M1 := (smach G).
Notation M2 := (smach Gc).

Definition same (s s' : st M1) : Prop := s = s' /\ nod (fst s).
Definition sameS (s s' : smem) : Prop := s = s' /\ nod s.
Definition same_x {X} (x y : X * st M1) : Prop := fst x = fst y /\ same (snd x) (snd y).

Lemma both_load o id it (s : smem) g : undeferred False it -> nod s -> both same (sload G o id it s g) (sload Gc o id it s g).
Proof.
  intros Hi Hn. destruct it as [T v|T tag gf|T tag f|tag]; simpl; [|done| |done].
  - destruct (find_e T s) as [[c a]|] eqn:E.
    + destruct (o && _); [done|]. apply both_eq. intros x Hx. ok_inv Hx. injection Hx as <-. split; [done|]. by eapply nod_store.
    + unfold scollect. rewrite nod_find_d by done. by destruct (g_capture G).
  - destruct (find_e T s) as [[c a]|] eqn:E.
    + apply both_eq. intros x Hx. ok_inv Hx. injection Hx as <-. split; [done|]. by eapply nod_store.
    + rewrite nod_find_d by done. by destruct (g_capture G).
Qed.
Lemma both_receive id T v s : nod s -> both (fun x y => snd x = snd y /\ nod (snd x) /\ (find_e T s <> None -> fst x = fst y) /\ (find_e T s = None -> snd x = s))
  (sreceive G id T v s) (sreceive Gc id T v s).
Proof.
  intros Hn. unfold sreceive. destruct (find_e T s) as [[c a]|] eqn:E.
  - destruct (_ =? _); [done|]. apply both_eq. intros x Hx. ok_inv Hx. injection Hx as <-. split; [done|]. split; [|done]. by eapply nod_store.
  - unfold scollect. rewrite nod_find_d by done. by destruct (g_capture G).
Qed.
Lemma both_receive_all id l : forall s, nod s -> both sameS (sreceive_all G id l s) (sreceive_all Gc id l s).
Proof.
  induction l as [|[T [k v]] l IH]; intros s Hn; cbn [sreceive_all]; [done|]. apply (both_bind eq).
  { by destruct (sassert _). }
  intros _ _ _. apply (both_bind sameS).
  - destruct (negb (k =? id)); [done|]. eapply both_bind; [by apply both_receive|]. intros x y (E & H & _). by split.
  - intros ? s1 [-> H]. by apply IH.
Qed.
Lemma both_capunload id l s g : nod s -> both same (scap_unload G id l s g) (scap_unload Gc id l s g).
Proof. intros Hn. eapply both_bind; [by apply both_receive_all|]. intros ? s1 [-> H]. done. Qed.

(** After an unload of c: the states agree, except for objects in c which nobody wanted. *)
Record modulo (c : cid) (s s' : smem) : Prop := Modulo {
  mo_nod : nod s;
  mo_nod' : nod s';
  mo_stack : stack s = stack s';
  mo_nc : snc s = snc s';
  mo_out : c ∉ stack s;
  mo_ne : forall c', c' <> c -> actxs s !! c' = actxs s' !! c';
  mo_c : exists a a', actxs s !! c = Some a /\ actxs s' !! c = Some a' /\ ac_tup a = ac_tup a' /\
    forall T, find_e T s <> None -> ac_cell a !! T = ac_cell a' !! T }.

Lemma find_ctx_agree P c l (cs cs' : gmap cid actx) : c ∉ l -> (forall c', c' <> c -> cs !! c' = cs' !! c') -> find_ctx P l cs = find_ctx P l cs'.
Proof.
  intros Hn H. induction l as [|c1 l IH]; simpl; [done|]. apply not_elem_of_cons in Hn as [H1 H2]. rewrite (H c1) by congruence.
  destruct (cs' !! c1); [|done]. destruct (P a); [done|]. by apply IH.
Qed.
Lemma modulo_find T c s s' : modulo c s s' -> find_e T s = find_e T s'.
Proof. intros H. unfold find_e. rewrite <- (mo_stack _ _ _ H). apply (find_ctx_agree _ c); apply H. Qed.
Lemma modulo_refl c a s : nod s -> c ∉ stack s -> actxs s !! c = Some a -> modulo c s s.
Proof. intros. constructor; try done. by exists a, a. Qed.
Lemma find_ctx_in_stack T s c a : find_e T s = Some (c, a) -> c ∈ stack s /\ actxs s !! c = Some a.
Proof. intros E. apply Frame.find_ctx_in in E as (? & ? & _). done. Qed.
Lemma find_store T T' x c1 a1 s : find_e T s = Some (c1, a1) -> find_e T' (put c1 (set_e T x a1) s) <> None -> find_e T' s <> None.
Proof.
  intros E H H'. apply H. pose proof (find_e_set_e T T' x c1 a1 s E) as HE. rewrite H' in HE. simpl in HE. by destruct (find_e T' (put c1 _ s)).
Qed.

Lemma modulo_store c s s' T id v c1 a1 : modulo c s s' -> find_e T s = Some (c1, a1) ->
  both (modulo c) (sstore c1 a1 id T v s) (sstore c1 a1 id T v s').
Proof.
  intros H E. unfold sstore. apply (both_bind eq); [by destruct (sassert _)|]. intros _ _ _. simpl.
  pose proof (find_ctx_in_stack _ _ _ _ E) as [Hin Ha]. pose proof E as E'. rewrite (modulo_find _ _ _ _ H) in E'.
  pose proof (find_ctx_in_stack _ _ _ _ E') as [_ Ha']. assert (c1 <> c) as Hne by (intros ->; by apply (mo_out _ _ _ H)).
  destruct H as [H1 H2 H3 H4 H5 H6 (a & a' & Hc & Hc' & Ht & HT)]. constructor; try done.
  - eapply nod_put; [done|done|apply set_e_tup].
  - eapply nod_put; [done|done|apply set_e_tup].
  - intros c' Hc1. simpl. destruct (decide (c1 = c')) as [->|]; [by rewrite !lookup_insert|]. rewrite !lookup_insert_ne by done. by apply H6.
  - exists a, a'. simpl. rewrite !lookup_insert_ne by done. split; [done|]. split; [done|]. split; [done|].
    intros T' HT'. apply HT. by eapply find_store.
Qed.

Lemma modulo_put c s s' a a' b b' : modulo c s s' -> actxs s !! c = Some a -> actxs s' !! c = Some a' -> ac_tup b = ac_tup a -> ac_tup b' = ac_tup a' ->
  (forall T, find_e T s <> None -> ac_cell b !! T = ac_cell b' !! T) -> modulo c (put c b s) (put c b' s').
Proof.
  intros [H1 H2 H3 H4 H5 H6 (a0 & a0' & Hc & Hc' & Ht & HT)] Ha Ha' Hb Hb' HT'. simplify_eq. constructor; try done.
  - by eapply nod_put.
  - by eapply nod_put.
  - intros c' Hne. simpl. rewrite !lookup_insert_ne by done. by apply H6.
  - exists b, b'. simpl. rewrite !lookup_insert. split; [done|]. split; [done|]. split; [congruence|].
    intros T HT1. apply HT'. unfold find_e in *. simpl in HT1. by rewrite find_ctx_inactive in HT1.
Qed.
Lemma put_same c a s : actxs s !! c = Some a -> put c a s = s.
Proof. intros H. unfold put. rewrite insert_id by done. by destruct s. Qed.

Lemma modulo_unload1 c id T s s' g : modulo c s s' ->
  both (fun x y => modulo c (fst x) (fst y) /\ snd x = snd y) (sunload1 G c id (SE T) s g) (sunload1 Gc c id (SE T) s' g).
Proof.
  intros H. pose proof (mo_c _ _ _ H) as (a & a' & Hc & Hc' & Ht & HT). unfold sunload1. rewrite Hc, Hc'.
  pose proof (modulo_find T _ _ _ H) as Ef. destruct (find_e T s) as [[c1 a1]|] eqn:E.
  - rewrite <- HT by (by rewrite E). destruct (ac_cell a !! T) as [[k v]|] eqn:Hcell; [|done]. destruct (k =? id); [|done].
    unfold sreceive. rewrite E, <- Ef. destruct (_ =? _); [simpl; done|].
    apply (both_bind (fun x y => modulo c (snd x) (snd y) /\ fst x = true /\ fst y = true)).
    + eapply both_bind; [by apply modulo_store|]. intros x y Hxy. done.
    + intros [b1 s1] [b2 s2] (Hm & -> & ->). simpl in *. pose proof (mo_c _ _ _ Hm) as (a2 & a2' & Hc2 & Hc2' & Ht2 & HT2).
      rewrite Hc2, Hc2'. simpl. split; [|done]. eapply modulo_put; [done|done|done|done|done|].
      intros T' HT'. simpl. destruct (decide (T = T')) as [->|]; [by rewrite !lookup_delete|]. rewrite !lookup_delete_ne by done. by apply HT2.
  - (* nobody wants it *)
    assert (both (fun x y => (x = (s, g) \/ x = (put c (cell_clear T a) s, g)) /\ y = (s', g))
      (match ac_cell a !! T with
       | Some (k, v) => if k =? id then
           let! bs := sreceive G id T v s in
           if fst bs then match actxs (snd bs) !! c with None => Fail UAF | Some a' => Ok (put c (cell_clear T a') (snd bs), g) end else Ok (snd bs, g)
         else Ok (s, g)
       | None => Ok (s, g) end)
      (match ac_cell a' !! T with
       | Some (k, v) => if k =? id then
           let! bs := sreceive Gc id T v s' in
           if fst bs then match actxs (snd bs) !! c with None => Fail UAF | Some a' => Ok (put c (cell_clear T a') (snd bs), g) end else Ok (snd bs, g)
         else Ok (s', g)
       | None => Ok (s', g) end)) as HB.
    { unfold sreceive. rewrite E, <- Ef. simpl. unfold scollect. rewrite (nod_find_d s) by apply H.
      destruct (ac_cell a !! T) as [[k v]|], (ac_cell a' !! T) as [[k' v']|]; try destruct (k =? id); try destruct (k' =? id); simpl; eauto;
        destruct (g_capture G); simpl; rewrite ?Hc; simpl; eauto. }
    eapply both_mono; [|exact HB]. intros x y [Hx ->]. simpl. destruct Hx as [-> | ->]; simpl; [done|]. split; [|done].
    rewrite <- (put_same c a' s') by done. eapply modulo_put; [done|done|done|done|done|]. intros T' HT'. simpl.
    rewrite lookup_delete_ne by (intros ->; congruence). by apply HT.
Qed.
Lemma modulo_unload_list c id tup : SDA ∉ tup -> forall s s' g, modulo c s s' ->
  both (fun x y => modulo c (fst x) (fst y) /\ snd x = snd y) (sunload_list G c id tup s g) (sunload_list Gc c id tup s' g).
Proof.
  induction tup as [|t tup IH]; intros Ht s s' g H; cbn [sunload_list]; [done|]. apply not_elem_of_cons in Ht as [Ht1 Ht2].
  apply (both_bind eq); [by destruct (sassert _)|]. intros _ _ _. destruct t as [T|]; [|done].
  eapply both_bind; [by apply modulo_unload1|]. intros [s1 g1] [s2 g2] [Hm Hg]. simpl in *. subst g2. by apply IH.
Qed.
Lemma both_unload c id s g : nod s ->
  both (fun x y => modulo c (fst x) (fst y) /\ snd x = snd y) (sunload G c id s g) (sunload Gc c id s g).
Proof.
  intros Hn. unfold sunload. destruct (actxs s !! c) as [a|] eqn:E; [|done]. destruct (bool_decide (c ∈ stack s)) eqn:Hb; [done|].
  apply bool_decide_eq_false in Hb. apply modulo_unload_list.
  - intros Hi. apply (Hn c a E). apply elem_of_list_In. apply in_rev. by apply elem_of_list_In.
  - by eapply modulo_refl.
Qed.
Lemma nod_delete s c : nod s -> nod (SMem (stack s) (delete c (actxs s)) (snc s)).
Proof. intros H c' a Ha. simpl in Ha. apply lookup_delete_Some in Ha as [_ Ha]. by eapply H. Qed.
Lemma modulo_destroy c s s' : modulo c s s' -> both sameS (sdestroy c s) (sdestroy c s').
Proof.
  intros [H1 H2 H3 H4 H5 H6 (a & a' & Hc & Hc' & Ht & HT)]. unfold sdestroy. rewrite Hc, Hc', <- H3. rewrite bool_decide_eq_false_2 by done.
  simpl. split; [|by apply nod_delete]. rewrite H4. f_equal. apply map_eq. intros c'. destruct (decide (c = c')) as [->|].
  - by rewrite !lookup_delete.
  - rewrite !lookup_delete_ne by done. by apply H6.
Qed.

(** ** Programs *)

Lemma both_on_mem f (s : smem) (g : glob) : nod s -> (forall s', f s = Ok s' -> nod s') -> both same (on_mem M1 f (s, g)) (on_mem M2 f (s, g)).
Proof. intros Hn H. unfold on_mem. simpl. destruct (f s) as [s'|] eqn:E; simpl; [|done]. split; [done|]. by apply H. Qed.
Lemma nod_act c s s' : nod s -> sact c s = Ok s' -> nod s'.
Proof.
  intros H E. unfold sact in E. destruct (actxs s !! c); [|done]. destruct (bool_decide _); [done|]. destruct (nodes a); [|done]. injection E as <-. exact H.
Qed.
Lemma nod_deact c s s' : nod s -> sdeact c s = Ok s' -> nod s'.
Proof. intros H E. unfold sdeact in E. destruct (stack s); [done|]. destruct (bool_decide _); [|done]. injection E as <-. exact H. Qed.
Lemma nod_destroy c s s' : nod s -> sdestroy c s = Ok s' -> nod s'.
Proof.
  intros H E. unfold sdestroy in E. destruct (actxs s !! c); [|done]. destruct (bool_decide _); [done|]. injection E as <-. by apply nod_delete.
Qed.
Lemma nod_set c T id v s s' : nod s -> sset c T id v s = Ok s' -> nod s'.
Proof.
  intros H E. unfold sset in E. destruct (actxs s !! c) eqn:Ea; [|done]. destruct (bool_decide _); [done|].
  destruct (bool_decide _); [|by injection E as <-]. destruct (ac_cell a !! T) as [[k ?]|]; [|by injection E as <-].
  destruct (k =? id); [|by injection E as <-]. injection E as <-. by eapply nod_put.
Qed.
Lemma nod_set_all c id l : forall s s', nod s -> set_all M1 c id l s = Ok s' -> nod s'.
Proof.
  induction l as [|[T v] l IH]; intros s s' H E; cbn [set_all] in E; [by injection E as <-|]. ok_inv E. eapply IH; [|done]. by eapply nod_set.
Qed.
Lemma set_all_eq c id l : forall s : smem, set_all M1 c id l s = set_all M2 c id l s.
Proof. induction l as [|[T v] l IH]; intros s; cbn [set_all]; [done|]. cbn [m_set smach]. destruct (sset c T id v s); simpl; [apply IH|done]. Qed.
Lemma nod_new tup s : SDA ∉ tup -> nod s -> nod (snd (snew tup s)).
Proof.
  intros Ht H c a Ha. simpl in Ha. destruct (decide (snc s = c)) as [<-|].
  - rewrite lookup_insert in Ha. by injection Ha as <-.
  - rewrite lookup_insert_ne in Ha by done. by eapply H.
Qed.

Lemma both_load_items o id its : Forall (undeferred False) its -> forall s g, nod s -> both same (load_items M1 o id its (s, g)) (load_items M2 o id its (s, g)).
Proof.
  induction 1 as [|it its Hi _ IH]; intros s g Hn; cbn [load_items]; [done|]. eapply both_bind; [by apply both_load|].
  intros [s1 g1] ? [<- H1]. by apply IH.
Qed.
Lemma both_id_load id its s g : Forall (undeferred False) its -> nod s -> both same (id_load M1 id its (s, g)) (id_load M2 id its (s, g)).
Proof. intros. unfold id_load. destruct (id =? 0); [done|by apply both_load_items]. Qed.
Lemma both_import cat v s g : nod s -> both same_x (import_ec G M1 cat v (s, g)) (import_ec Gc M2 cat v (s, g)).
Proof.
  intros Hn. unfold import_ec. destruct (v =? 0); [done|]. destruct (cat =? LEAFCAT)%nat.
  - change (assert Gc) with (assert G). apply (both_bind eq); [by destruct (assert _ _)|]. done.
  - unfold gnew. cbn [fst snd]. eapply both_bind; [by apply both_load|]. intros ? s1 [-> H]. done.
Qed.
Lemma both_err_id r s g : nod s -> both same_x (err_id_of G M1 r (s, g)) (err_id_of Gc M2 r (s, g)).
Proof. intros Hn. destruct r; simpl; try done. by apply both_import. Qed.
Lemma both_unload_ret r s g : nod s -> both same_x (unload_ret M1 r (s, g)) (unload_ret M2 r (s, g)).
Proof. intros Hn. destruct r; simpl; try done. eapply both_bind; [by apply both_capunload|]. intros ? s1 [-> H]. done. Qed.
Lemma arg_eq a c ei (s : smem) : (a <> ADetails \/ g_diag G = false) -> arg_get G M1 a c ei s = arg_get Gc M2 a c ei s.
Proof.
  intros Ha. destruct a; try reflexivity. destruct Ha as [|Hd]; [done|]. cbn [arg_get]. unfold shown. simpl. rewrite Hd. reflexivity.
Qed.
Lemma args_eq l c ei (s : smem) : (ADetails ∉ l \/ g_diag G = false) -> args_get G M1 l c ei s = args_get Gc M2 l c ei s.
Proof.
  intros Hl. induction l as [|a l IH]; [done|]. cbn [args_get]. rewrite (arg_eq a).
  - destruct (arg_get Gc M2 a c ei s) as [[v|]|]; simpl; try done. rewrite IH; [done|]. destruct Hl as [Hl|]; [left|by right]. intros Hi. apply Hl. by right.
  - destruct Hl as [Hl|]; [left|by right]. intros ->. apply Hl. left.
Qed.
Lemma types_nod hs : capturelessH False False G hs -> forall a, a ∈ handlers_args hs -> context_types G a = context_types Gc a /\ SDA ∉ context_types G a.
Proof.
  induction hs as [|args w b rest IH|hs1 IH1 rest IH]; cbn [capturelessH handlers_args]; intros H a Ha.
  - by apply elem_of_nil in Ha.
  - destruct H as (H1 & _ & H3). apply elem_of_app in Ha as [Ha|Ha]; [|by apply IH].
    destruct a; simpl; try (split; [done|]; set_solver).
    destruct H1 as [H1|H1]; [done|]. rewrite H1. simpl. split; [done|]. set_solver.
  - destruct H as [H1 H2]. apply elem_of_app in Ha as [Ha|Ha]; auto.
Qed.
Lemma push_back_in {A} `{EqDecision A} (l : list A) x : forall s, x ∈ mp_set_push_back s l -> x ∈ s \/ x ∈ l.
Proof.
  induction l as [|t l IH]; intros s H; cbn [mp_set_push_back] in H; [by left|]. apply IH in H as [H|H]; [|right; by right].
  case_bool_decide; [by left|]. apply elem_of_app in H as [H|H]; [by left|]. apply elem_of_list_singleton in H as ->. right. left.
Qed.
Lemma deduce_list_sub l : SDA ∉ l -> SDA ∉ deduce_list G l.
Proof.
  intros H Hi. apply H. unfold deduce_list in Hi. rewrite mp_remove_if_eq in Hi. apply elem_of_list_In, filter_In in Hi as [Hi _].
  apply elem_of_list_In in Hi. unfold mp_unique in Hi. apply push_back_in in Hi as [Hi|]; [by apply elem_of_nil in Hi|done].
Qed.
Lemma deduce_cap hs : capturelessH False False G hs -> deduce Gc hs = deduce G hs /\ SDA ∉ deduce G hs.
Proof.
  intros H. pose proof (types_nod hs H) as Ht. unfold deduce. split.
  - change (deduce_list Gc) with (deduce_list G). f_equal. f_equal. apply map_ext_in. intros a Ha. symmetry. apply Ht. by apply elem_of_list_In.
  - apply deduce_list_sub. rewrite mp_append_eq. intros Hi. apply elem_of_list_In, in_concat in Hi as (l & Hl & Hi).
    apply in_map_iff in Hl as (a & <- & Ha). destruct (Ht a) as [_ Hn]; [by apply elem_of_list_In|]. apply Hn. by apply elem_of_list_In.
Qed.

(** What a scope's handlers leave behind: the same state, or, if it ends with an exception, the same up to unwanted objects in its context. *)
Definition ends (c : cid) (x y : out * st M1) : Prop :=
  fst x = fst y /\ snd (snd x) = snd (snd y) /\
  (sameS (fst (snd x)) (fst (snd y)) \/ ((exists e, fst x = OThrow e) /\ modulo c (fst (snd x)) (fst (snd y)))).

Lemma ends_same c x y : same_x x y -> ends c x y.
Proof. intros [H1 [H2 H3]]. unfold ends. rewrite H1, H2. split; [done|]. split; [done|]. left. split; [done|]. by rewrite <- H2. Qed.
Lemma both_ends c x y : both same_x x y -> both (ends c) x y.
Proof. apply both_mono. intros. by apply ends_same. Qed.
Lemma both_leave c o s s' g : sameS s s' \/ modulo c s s' -> both same_x (leave M1 c o (s, g)) (leave M2 c o (s', g)).
Proof.
  intros H. unfold leave, on_mem. cbn [fst snd m_destroy smach]. apply (both_bind same).
  - eapply (both_bind sameS).
    + destruct H as [[<- Hn]|Hm]; [|by apply modulo_destroy]. apply both_eq. intros s1 E. split; [done|]. by eapply nod_destroy.
    + intros s1 s2 [<- H1]. done.
  - intros ? s1 [-> H1]. done.
Qed.
Lemma both_deact_leave c o s g : nod s -> both same_x (deact_leave M1 c o (s, g)) (deact_leave M2 c o (s, g)).
Proof.
  intros Hn. unfold deact_leave. eapply both_bind; [apply both_on_mem; [done|]; intros s' E; by eapply nod_deact|].
  intros [s1 g1] ? [<- H1]. apply both_leave. left. done.
Qed.
Lemma both_unload_rethrow c id x s g : nod s -> both (ends c) (unload_rethrow M1 c id x (s, g)) (unload_rethrow M2 c id x (s, g)).
Proof.
  intros Hn. unfold unload_rethrow. eapply both_bind; [by apply both_unload|]. intros [s1 g1] [s2 g2] [Hm Hg]. simpl in *. subst g2.
  split; [done|]. split; [done|]. right. simpl. eauto.
Qed.
Lemma both_exn_info c x s g : nod s -> both same_x (exn_info M1 c x (s, g)) (exn_info M2 c x (s, g)).
Proof.
  intros Hn. unfold exn_info. eapply both_bind; [apply both_on_mem; [done|]; intros s' E; by eapply nod_deact|].
  intros [s1 g1] ? [<- H1]. cbn [fst snd]. destruct (catch_info x g1) as [[id ex] g']. apply (both_bind eq); [by destruct (m_get _ _ _ _ _)|].
  intros ? loc ->. done.
Qed.
Lemma both_res_info c r s g : nod s -> both (fun x y => x = y /\ match x with inl (_, s) => nod (fst s) | inr (_, s) => nod (fst s) end)
  (res_info G M1 c r (s, g)) (res_info Gc M2 c r (s, g)).
Proof.
  intros Hn. unfold res_info. eapply both_bind; [by apply both_unload_ret|]. intros [o [s1 g1]] [o' s1'] [E [E1 H1]]. simpl in E, E1, H1. subst o' s1'.
  destruct o as [r1|x]; [|done]. eapply both_bind; [by apply both_err_id|]. intros [i [s2 g2]] [i' s2'] [E [E2 H2]]. simpl in E, E2, H2. subst i' s2'. cbn [fst snd].
  eapply both_bind; [apply both_on_mem; [done|]; intros s' E; by eapply nod_deact|]. intros [s3 g3] ? [<- H3]. cbn [fst snd].
  apply (both_bind eq); [by destruct (m_get _ _ _ _ _)|]. intros ? loc ->. done.
Qed.
Lemma both_ths_end c x y : ends c x y -> both same_x (ths_end G M1 c (fst x) (snd x)) (ths_end Gc M2 c (fst y) (snd y)).
Proof.
  destruct x as [o [s g]], y as [o' [s' g']]. intros (E1 & E2 & H). simpl in *. subst o' g'. unfold ths_end. destruct o as [r|e].
  - destruct H as [H|[[e He] _]]; [|done]. destruct (is_val r); [apply both_leave; by left|]. destruct H as [<- Hn].
    eapply both_bind; [by apply both_err_id|]. intros [i [s2 g2]] [i' s2'] [E [E2 H2]]. simpl in E, E2, H2. subst i' s2'. cbn [fst snd].
    eapply both_bind; [by apply both_unload|]. intros [s3 g3] [s4 g4] [Hm Hg]. simpl in *. subst g4. apply both_leave. by right.
  - apply both_leave. destruct H as [|[_ H]]; auto.
Qed.
Lemma both_leave_end c x y : ends c x y -> both same_x (leave M1 c (fst x) (snd x)) (leave M2 c (fst y) (snd y)).
Proof. destruct x as [o [s g]], y as [o' [s' g']]. intros (E1 & E2 & H). simpl in *. subst o' g'. apply both_leave. destruct H as [|[_ H]]; auto. Qed.
Lemma both_tha_end c x y : ends c x y -> both same_x (tha_end M1 c (fst x) (snd x)) (tha_end M2 c (fst y) (snd y)).
Proof.
  intros H. pose proof (both_leave_end _ _ _ H) as HL. destruct H as (E1 & _). unfold tha_end. rewrite <- E1 in *. destruct (fst x) as [r|e]; [|exact HL].
  by destruct (is_val r).
Qed.
Lemma both_e2r cls x s g : nod s -> both same_x (e2r G M1 cls x (s, g)) (e2r Gc M2 cls x (s, g)).
Proof.
  intros Hn. unfold e2r, gnew. cbn [fst snd]. eapply both_bind; [apply both_id_load; [|done]|].
  - constructor; [done|]. destruct (x_std x); [|done]. unfold slices. apply Forall_forall. intros it Hi.
    apply elem_of_list_In, in_map_iff in Hi as (? & <- & _). done.
  - intros ? s1 [-> H]. done.
Qed.

Theorem both_eval :
  (forall p caught s g, captureless False False G p -> nod s -> both same_x (eval G M1 caught p (s, g)) (eval Gc M2 caught p (s, g))) /\
  (forall hs caught c ei (Q : out * st M1 -> out * st M1 -> Prop) (d d' : st M1 -> _) s g, capturelessH False False G hs ->
     (forall x y, same_x x y -> Q x y) -> (forall s g, nod s -> both Q (d (s, g)) (d' (s, g))) -> nod s ->
     both Q (evalH G M1 caught hs c ei d (s, g)) (evalH Gc M2 caught hs c ei d' (s, g))).
Proof.
  apply prog_handlers_ind.
  - done.
  - intros p IH k IHk caught s g [W1 W2] Hn. cbn [eval]. eapply both_bind; [by apply IH|]. intros [o [s1 g1]] [o' s1'] [E [E1 H1]]. simpl in E, E1, H1. subst o' s1'.
    destruct o; [by apply IHk|done].
  - intros z k IH caught s g W Hn. cbn [eval captureless] in *. by apply IH.
  - intros its k IH caught s g [W1 W2] Hn. cbn [eval]. unfold gnew. cbn [fst snd]. eapply both_bind; [by apply both_id_load|].
    intros [s1 g1] ? [<- H1]. by apply IH.
  - intros id its k IH caught s g [W1 W2] Hn. cbn [eval]. eapply both_bind; [by apply both_id_load|]. intros [s1 g1] ? [<- H1]. by apply IH.
  - intros k IH caught s g W Hn. cbn [eval captureless] in *. by apply IH.
  - intros id x its caught s g W Hn. cbn [eval captureless] in *. unfold gnew. cbn [fst snd]. destruct id; (eapply both_bind; [by apply both_id_load|];
      intros [s1 g1] ? [<- H1]; done).
  - done.
  - intros caught s g W Hn. cbn [eval]. by destruct caught.
  - intros p IH h IHh caught s g [W1 W2] Hn. cbn [eval]. eapply both_bind; [by apply IH|]. intros [o [s1 g1]] [o' s1'] [E [E1 H1]]. simpl in E, E1, H1. subst o' s1'.
    destruct o; [done|]. eapply both_bind; [by apply IHh|]. intros [o [s2 g2]] [o' s2'] [E [E2 H2]]. simpl in E, E2, H2. subst o' s2'. done.
  - intros its p IH caught s g [W1 W2] Hn. cbn [eval fst snd]. eapply both_bind; [by apply IH|]. intros [o [s1 g1]] [o' s1'] [E [E1 H1]]. simpl in E, E1, H1. subst o' s1'.
    change (gnew Gc) with (gnew G). cbn [fst snd]. match goal with |- both _ (match ?x with _ => _ end) _ => destruct x as [id g'] end.
    destruct (id =? 0); [done|]. eapply both_bind; [by apply both_load_items|]. intros ? s2 [-> H2]. done.
  - intros k IH caught s g W Hn. cbn [eval captureless] in *. by apply IH.
  - intros m k IH caught s g W Hn. cbn [eval captureless] in *. by apply IH.
  - intros m k IH caught s g W Hn. cbn [eval captureless] in *. unfold gnew. cbn [fst snd]. destruct (negb _); by apply IH.
  - (* PTHA *) intros p IH hs IHh caught s g [W1 W2] Hn. cbn [eval]. destruct (deduce_cap hs W2) as [-> Ht]. cbn [m_new smach fst snd].
    pose proof (nod_new _ s Ht Hn) as Hn1. destruct (snew (deduce G hs) s) as [c s1]. simpl in Hn1.
    eapply both_bind; [apply both_on_mem; [done|]; intros s' E; by eapply nod_act|]. intros [s2 g2] ? [<- H2]. cbn [fst snd] in *.
    eapply both_bind; [by apply IH|]. intros [o [s3 g3]] [o' s3'] [E [E3 H3]]. simpl in E, E3, H3. subst o' s3'.
    apply (both_bind same_x). { destruct o; [by apply both_unload_ret|done]. }
    intros [o1 [s4 g4]] [o' s4'] [E [E4 H4]]. simpl in E, E4, H4. subst o' s4'. destruct o1 as [r|x].
    + destruct (is_val r); [by apply both_deact_leave|]. eapply both_bind; [by apply both_res_info|].
      intros [[[ei r1] [s5 g5]]|[x [s5 g5]]] ? [<- H5]; cbn [fst snd] in H5.
      * eapply both_bind; [apply (IHh _ _ _ (ends c)); [done|apply ends_same|intros; done|done]|]. intros. by apply both_tha_end.
      * by apply both_deact_leave.
    + eapply both_bind; [by apply both_exn_info|]. intros [ei [s5 g5]] [ei' s5'] [E [E5 H5]]. simpl in E, E5, H5. subst ei' s5'. cbn [fst snd].
      eapply both_bind; [apply (IHh _ _ _ (ends c)); [done|apply ends_same|intros; by apply both_unload_rethrow|done]|]. intros. by apply both_tha_end.
  - (* PTHS *) intros p IH hs IHh caught s g [W1 W2] Hn. cbn [eval]. destruct (deduce_cap hs W2) as [-> Ht]. cbn [m_new smach fst snd].
    pose proof (nod_new _ s Ht Hn) as Hn1. destruct (snew (deduce G hs) s) as [c s1]. simpl in Hn1.
    eapply both_bind; [apply both_on_mem; [done|]; intros s' E; by eapply nod_act|]. intros [s2 g2] ? [<- H2]. cbn [fst snd] in *.
    eapply both_bind; [by apply IH|]. intros [o [s3 g3]] [o' s3'] [E [E3 H3]]. simpl in E, E3, H3. subst o' s3'.
    apply (both_bind same_x). { destruct o; [by apply both_unload_ret|done]. }
    intros [o1 [s4 g4]] [o' s4'] [E [E4 H4]]. simpl in E, E4, H4. subst o' s4'. destruct o1 as [r|x].
    + destruct (is_val r); [by apply both_deact_leave|]. eapply both_bind; [by apply both_res_info|].
      intros [[[ei r1] [s5 g5]]|[x [s5 g5]]] ? [<- H5]; cbn [fst snd] in H5.
      * eapply both_bind; [apply (IHh _ _ _ (ends c)); [done|apply ends_same|intros; by apply both_ends|done]|]. intros. by apply both_ths_end.
      * by apply both_deact_leave.
    + eapply both_bind; [by apply both_exn_info|]. intros [ei [s5 g5]] [ei' s5'] [E [E5 H5]]. simpl in E, E5, H5. subst ei' s5'. cbn [fst snd].
      eapply both_bind; [apply (IHh _ _ _ (ends c)); [done|apply ends_same|intros; by apply both_unload_rethrow|done]|]. intros. by apply both_ths_end.
  - (* PTC *) intros p IH hs IHh caught s g [W1 W2] Hn. cbn [eval]. destruct (deduce_cap hs W2) as [-> Ht]. cbn [m_new smach fst snd].
    pose proof (nod_new _ s Ht Hn) as Hn1. destruct (snew (deduce G hs) s) as [c s1]. simpl in Hn1.
    eapply both_bind; [apply both_on_mem; [done|]; intros s' E; by eapply nod_act|]. intros [s2 g2] ? [<- H2]. cbn [fst snd] in *.
    eapply both_bind; [by apply IH|]. intros [o [s3 g3]] [o' s3'] [E [E3 H3]]. simpl in E, E3, H3. subst o' s3'.
    destruct o as [r|x]; [by apply both_deact_leave|].
    eapply both_bind; [by apply both_exn_info|]. intros [ei [s5 g5]] [ei' s5'] [E [E5 H5]]. simpl in E, E5, H5. subst ei' s5'. cbn [fst snd].
    eapply both_bind; [apply (IHh _ _ _ (ends c)); [done|apply ends_same|intros; by apply both_unload_rethrow|done]|]. intros. by apply both_leave_end.
  - done.
  - intros r k IH caught s g W Hn. cbn [eval captureless] in *. eapply both_bind; [by apply both_unload_ret|].
    intros [o [s1 g1]] [o' s1'] [E [E1 H1]]. simpl in E, E1, H1. subst o' s1'. destruct o; [by apply IH|done].
  - intros r k IH caught s g W Hn. cbn [eval captureless] in *. destruct r; [by apply IH| | |done];
      (eapply both_bind; [by apply both_unload_ret|]; intros [o [s1 g1]] [o' s1'] [E [E1 H1]]; simpl in E, E1, H1; subst o' s1'; by destruct o).
  - intros r k IH caught s g W Hn. cbn [eval captureless] in *. eapply both_bind; [by apply both_err_id|].
    intros [o [s1 g1]] [o' s1'] [E [E1 H1]]. simpl in E, E1, H1. subst o' s1'. by apply IH.
  - intros cls p IH caught s g W Hn. cbn [eval captureless] in *. eapply both_bind; [by apply IH|].
    intros [o [s1 g1]] [o' s1'] [E [E1 H1]]. simpl in E, E1, H1. subst o' s1'. destruct o; [done|by apply both_e2r].
  - intros cat v k IH caught s g W Hn. cbn [eval captureless] in *. eapply both_bind; [by apply both_import|].
    intros [o [s1 g1]] [o' s1'] [E [E1 H1]]. simpl in E, E1, H1. subst o' s1'. by apply IH.
  - (* PCtx *) intros tup k IH caught s g [W1 W2] Hn. cbn [eval]. change (deduce_list Gc tup) with (deduce_list G tup). cbn [m_new smach fst snd].
    pose proof (nod_new _ s (deduce_list_sub _ W1) Hn) as Hn1. destruct (snew (deduce_list G tup) s) as [c s1]. simpl in Hn1.
    eapply both_bind; [by apply IH|]. intros x y H. apply both_leave_end. by apply ends_same.
  - (* PAct *) intros c p IH caught s g W Hn. cbn [eval captureless fst snd] in *. apply (both_bind eq); [by destruct (m_isact _ _ _)|].
    intros ? [|] ->; [by apply IH|]. eapply both_bind; [apply both_on_mem; [done|]; intros s' E; by eapply nod_act|]. intros [s2 g2] ? [<- H2].
    eapply both_bind; [by apply IH|]. intros [o [s3 g3]] [o' s3'] [E [E3 H3]]. simpl in E, E3, H3. subst o' s3'. cbn [fst snd].
    apply (both_bind eq); [by destruct (m_isact _ _ _)|]. intros ? [|] ->; [|done].
    eapply both_bind; [apply both_on_mem; [done|]; intros s' E; by eapply nod_deact|]. intros ? s4 [-> H4]. done.
  - intros c id k IH caught s g [[] _] Hn.
  - intros c id hs IH caught s g W Hn. cbn [eval captureless fst snd] in *. apply (both_bind eq); [by destruct (m_isact _ _ _)|].
    intros ? a ->. change (assert Gc) with (assert G). apply (both_bind eq); [by destruct (assert _ _)|]. intros _ _ _.
    apply (both_bind eq); [by destruct (m_get _ _ _ _ _)|]. intros ? loc ->. by apply IH.
  - intros caught c ei Q d d' s g _ HQ Hd Hn. cbn [evalH]. by apply Hd.
  - intros args w b IH rest IHr caught c ei Q d d' s g (W1 & W2 & W3) HQ Hd Hn. cbn [evalH fst snd]. rewrite <- (args_eq args) by done.
    destruct (args_get G M1 args c ei s) as [[l|]|]; cbn [rbind]; [|by apply IHr|done].
    change (both Q
      (let! m1 := set_all M1 c (ei_id ei) (writes args (w l)) s in eval G M1 caught (b l) (m1, g))
      (let! m1 := set_all M2 c (ei_id ei) (writes args (w l)) s in eval Gc M2 caught (b l) (m1, g))).
    rewrite <- set_all_eq. destruct (set_all M1 c (ei_id ei) (writes args (w l)) s) as [m1|] eqn:E; [|done]. cbn [rbind].
    eapply both_mono; [exact HQ|]. apply IH; [done|]. by eapply nod_set_all.
  - intros hs1 IH1 rest IHr caught c ei Q d d' s g [W1 W2] HQ Hd Hn. cbn [evalH]. apply IH1; [done|done| |done]. intros. by apply IHr.
Qed.

End cap.
