(** The relation between the pointer machine and the stack machine, and basic lemmas about it. *)
From Verif Require Export Interp.
Open Scope Z_scope.

Fixpoint node_at (T : ety) (l : list (ety * nat)) : option nat :=
  match l with [] => None | (T', n) :: l' => if decide (T = T') then Some n else node_at T l' end.

(** Where context c keeps objects of type T. *)
Definition caddr (m : mem) (c : cid) (T : ety) : option addr :=
  match ctxs m !! c with
  | None => None
  | Some k => if bool_decide (SE T ∈ k_tup k) then Some (inl (c, T))
              else match dhp m !! c with Some d => inr <$> node_at T (d_nodes d) | None => None end
  end.

(** The first such place along a stack of contexts. *)
Fixpoint chead (m : mem) (T : ety) (l : list cid) : option addr :=
  match l with
  | [] => None
  | c :: l' => match caddr m c T with Some a => Some a | None => chead m T l' end
  end.

(** prev_ of every slot leads to the next place. *)
Fixpoint linked (m : mem) (T : ety) (l : list cid) : Prop :=
  match l with
  | [] => True
  | c :: l' => (forall a, caddr m c T = Some a -> exists sl, hp m !! a = Some sl /\ e_prev sl = chead m T l') /\ linked m T l'
  end.

Definition hasd (m : mem) (c : cid) : bool :=
  match ctxs m !! c with Some k => bool_decide (SDA ∈ k_tup k) | None => false end.
Fixpoint dhead (m : mem) (l : list cid) : option cid :=
  match l with
  | [] => None
  | c :: l' => if hasd m c then Some c else dhead m l'
  end.
Fixpoint dlinked (m : mem) (l : list cid) : Prop :=
  match l with
  | [] => True
  | c :: l' => (hasd m c = true -> exists d, dhp m !! c = Some d /\ d_prev d = dhead m l') /\ dlinked m l'
  end.

(** Contents *)
Definition cellR (sl : eslot) (o : option (Z * val)) : Prop :=
  match o with Some (k, v) => k <> 0 /\ e_key sl = k /\ e_val sl = v | None => e_key sl = 0 end.
Definition nodeR (h : gmap addr eslot) (x : ety * nat) (y : cnode) : Prop :=
  fst x = fst y /\ exists sl, h !! inr (snd x) = Some sl /\ cellR sl (Some (snd y)).
Definition collR (h : gmap addr eslot) (d : dslot) (o : option coll) : Prop :=
  match o with
  | None => d_key d = 0 /\ d_nodes d = []
  | Some q => q_key q <> 0 /\ d_key d = q_key q /\ d_last d = q_ok q /\
              NoDup ((d_nodes d).*1) /\ NoDup ((d_nodes d).*2) /\ Forall2 (nodeR h) (d_nodes d) (q_nodes q)
  end.

Record ctxR (m : mem) (act : bool) (c : cid) (k : cctx) (a : actx) : Prop := CtxR {
  cr_tup : k_tup k = ac_tup a;
  cr_act : k_act k = act;
  cr_nodup : NoDup (ac_tup a);
  cr_cell : forall T, SE T ∈ ac_tup a -> exists sl, hp m !! inl (c, T) = Some sl /\ cellR sl (ac_cell a !! T);
  cr_coll : SDA ∈ ac_tup a -> exists d, dhp m !! c = Some d /\ collR (hp m) d (ac_coll a);
  cr_nocoll : SDA ∉ ac_tup a -> dhp m !! c = None /\ ac_coll a = None;
  cr_disj : forall T, has_node T (nodes a) = true -> SE T ∉ ac_tup a }.

Definition optR {A B} (P : A -> B -> Prop) (x : option A) (y : option B) : Prop :=
  match x, y with Some a, Some b => P a b | None, None => True | _, _ => False end.

Record R (m : mem) (s : smem) : Prop := MkR {
  R_nc : nc m = snc s;
  R_ctx : forall c, optR (ctxR m (bool_decide (c ∈ stack s)) c) (ctxs m !! c) (actxs s !! c);
  R_dom : forall c d, dhp m !! c = Some d -> is_Some (ctxs m !! c);
  R_lt : forall c a, actxs s !! c = Some a -> (c < snc s)%nat;
  R_nodup : NoDup (stack s);
  R_in : forall c, c ∈ stack s -> is_Some (actxs s !! c);
  R_tls : forall T, tls m !! T = chead m T (stack s);
  R_lnk : forall T, linked m T (stack s);
  R_tlsd : tlsd m = dhead m (stack s);
  R_dlnk : dlinked m (stack s);
  R_own : forall c1 c2 d1 d2 n, dhp m !! c1 = Some d1 -> dhp m !! c2 = Some d2 ->
     n ∈ (d_nodes d1).*2 -> n ∈ (d_nodes d2).*2 -> c1 = c2;
  R_na : forall c d n, dhp m !! c = Some d -> n ∈ (d_nodes d).*2 -> (n < na m)%nat }.

(** ** Shape *)
Definition shape (m m' : mem) : Prop :=
  (forall c, k_tup <$> ctxs m !! c = k_tup <$> ctxs m' !! c) /\ (forall c, d_nodes <$> dhp m !! c = d_nodes <$> dhp m' !! c).

Lemma caddr_shape m m' c T : shape m m' -> caddr m c T = caddr m' c T.
Proof.
  intros [H1 H2]. unfold caddr. specialize (H1 c). specialize (H2 c).
  destruct (ctxs m !! c), (ctxs m' !! c); simplify_eq/=; auto.
  rewrite H1. case_bool_decide; auto.
  destruct (dhp m !! c), (dhp m' !! c); simplify_eq/=; auto. by rewrite H2.
Qed.

Lemma hasd_shape m m' c : shape m m' -> hasd m c = hasd m' c.
Proof.
  intros [H1 _]. unfold hasd. specialize (H1 c).
  destruct (ctxs m !! c), (ctxs m' !! c); simplify_eq/=; auto. by rewrite H1.
Qed.

Lemma chead_shape m m' T l : shape m m' -> chead m T l = chead m' T l.
Proof. intros H. induction l as [|c l IH]; simpl; auto. by rewrite (caddr_shape _ _ _ _ H), IH. Qed.

Lemma dhead_shape m m' l : shape m m' -> dhead m l = dhead m' l.
Proof. intros H. induction l as [|c l IH]; simpl; auto. by rewrite (hasd_shape _ _ _ H), IH. Qed.

(** local versions: only the contexts on the list matter *)
Lemma chead_ext m m' T l : (forall c, c ∈ l -> caddr m c T = caddr m' c T) -> chead m T l = chead m' T l.
Proof.
  induction l as [|c l IH]; simpl; intros H; auto.
  rewrite (H c) by constructor. rewrite IH; auto. intros c' ?. apply H. by constructor.
Qed.

Lemma linked_ext m m' T l :
  (forall c, c ∈ l -> caddr m c T = caddr m' c T) ->
  (forall c a sl, c ∈ l -> caddr m c T = Some a -> hp m !! a = Some sl -> exists sl', hp m' !! a = Some sl' /\ e_prev sl' = e_prev sl) ->
  linked m T l -> linked m' T l.
Proof.
  induction l as [|c l IH]; simpl; intros H1 H2; auto. intros [H3 H4]. split.
  - intros a Ha. rewrite <- (H1 c) in Ha by constructor. destruct (H3 a Ha) as (sl & Hsl & Hp).
    destruct (H2 c a sl) as (sl' & ? & ?); auto; [constructor|].
    exists sl'. split; auto. rewrite H0, Hp. apply chead_ext. intros. apply H1. by constructor.
  - apply IH; auto; intros.
    + apply H1. by constructor.
    + eapply H2; eauto. by constructor.
Qed.

Lemma dhead_ext m m' l : (forall c, c ∈ l -> hasd m c = hasd m' c) -> dhead m l = dhead m' l.
Proof.
  induction l as [|c l IH]; simpl; intros H; auto.
  rewrite (H c) by constructor. rewrite IH; auto. intros c' ?. apply H. by constructor.
Qed.

Lemma dlinked_ext m m' l :
  (forall c, c ∈ l -> hasd m c = hasd m' c) ->
  (forall c d, c ∈ l -> dhp m !! c = Some d -> exists d', dhp m' !! c = Some d' /\ d_prev d' = d_prev d) ->
  dlinked m l -> dlinked m' l.
Proof.
  induction l as [|c l IH]; simpl; intros H1 H2; auto. intros [H3 H4]. split.
  - intros Ha. rewrite <- (H1 c) in Ha by constructor. destruct (H3 Ha) as (d & Hd & Hp).
    destruct (H2 c d) as (d' & ? & ?); auto; [constructor|].
    exists d'. split; auto. rewrite H0, Hp. apply dhead_ext. intros. apply H1. by constructor.
  - apply IH; auto; intros.
    + apply H1. by constructor.
    + eapply H2; eauto. by constructor.
Qed.

(** ** Nodes *)
Lemma node_at_in T l n : node_at T l = Some n -> (T, n) ∈ l.
Proof.
  induction l as [|[T' n'] l IH]; simpl; [done|]. destruct (decide (T = T')); intros; simplify_eq; [constructor|].
  constructor. auto.
Qed.

Lemma node_at_None T l : node_at T l = None <-> T ∉ l.*1.
Proof.
  induction l as [|[T' n'] l IH]; simpl; [split; auto; intros _ H; inversion H|].
  destruct (decide (T = T')); subst.
  - split; [done|]. intros H. exfalso. apply H. constructor.
  - rewrite IH, not_elem_of_cons. naive_solver.
Qed.

Lemma node_at_app T l T' n' : node_at T (l ++ [(T', n')]) =
  match node_at T l with Some n => Some n | None => if decide (T = T') then Some n' else None end.
Proof.
  induction l as [|[T1 n1] l IH]; simpl; auto. destruct (decide (T = T1)); auto.
Qed.

Lemma get_node_has T l : has_node T l = true <-> is_Some (get_node T l).
Proof.
  unfold has_node. rewrite bool_decide_eq_true.
  induction l as [|[T' x] l IH]; simpl.
  - split; [intros H; inversion H|intros [? ?]; done].
  - rewrite elem_of_cons. destruct (decide (T = T')); subst; [split; eauto|].
    rewrite <- IH. naive_solver.
Qed.

Lemma has_node_false T l : has_node T l = false <-> get_node T l = None.
Proof.
  pose proof (get_node_has T l) as H. destruct (has_node T l), (get_node T l); split; intros; try done.
  - destruct H as [H _]. destruct H; done.
  - destruct H as [_ H]. discriminate H. eauto.
Qed.

Lemma nodes_types h l1 l2 : Forall2 (nodeR h) l1 l2 -> l1.*1 = l2.*1.
Proof. induction 1 as [|x y l1 l2 [H _] _ IH]; csimpl; auto. f_equal; auto. Qed.

Lemma nodes_get h l1 l2 T : Forall2 (nodeR h) l1 l2 ->
  match node_at T l1, get_node T l2 with
  | Some n, Some kv => exists sl, h !! inr n = Some sl /\ cellR sl (Some kv)
  | None, None => True
  | _, _ => False
  end.
Proof.
  induction 1 as [|[T1 n1] [T2 kv] l1 l2 [H Hsl] _ IH]; simpl in *; auto. subst T2.
  destruct (decide (T = T1)); auto.
Qed.

Lemma set_node_types T x l : (set_node T x l).*1 = l.*1.
Proof. induction l as [|[T' y] l IH]; csimpl; auto. destruct (decide (T = T')); csimpl; congruence. Qed.

Lemma Forall2_nodeR_ext h h' l1 l2 :
  (forall n, n ∈ l1.*2 -> forall sl, h !! inr n = Some sl -> exists sl', h' !! inr n = Some sl' /\ e_key sl' = e_key sl /\ e_val sl' = e_val sl) ->
  Forall2 (nodeR h) l1 l2 -> Forall2 (nodeR h') l1 l2.
Proof.
  intros Hext H. induction H as [|[T1 n1] [T2 [k v]] l1 l2 [H Hsl] _ IH]; constructor.
  - destruct Hsl as (sl & Hsl & ? & ? & ?). split; auto. simpl in *.
    destruct (Hext n1 ltac:(constructor) sl Hsl) as (sl' & ? & ? & ?).
    exists sl'. simpl. repeat split; auto; congruence.
  - apply IH. intros n Hn. apply Hext. simpl. by constructor.
Qed.

Lemma collR_ext h h' d d' o :
  d_key d' = d_key d -> d_last d' = d_last d -> d_nodes d' = d_nodes d ->
  (forall n, n ∈ (d_nodes d).*2 -> forall sl, h !! inr n = Some sl -> exists sl', h' !! inr n = Some sl' /\ e_key sl' = e_key sl /\ e_val sl' = e_val sl) ->
  collR h d o -> collR h' d' o.
Proof.
  intros H1 H2 H3 Hext. unfold collR. rewrite H1, H2, H3. destruct o as [q|]; auto.
  intros (? & ? & ? & ? & ? & ?). repeat split; auto. by eapply Forall2_nodeR_ext.
Qed.

Lemma ctxR_ext m m' act act' c k k' a :
  k_tup k' = k_tup k -> (k_act k = act -> k_act k' = act') ->
  (forall T sl, SE T ∈ ac_tup a -> hp m !! inl (c, T) = Some sl -> exists sl', hp m' !! inl (c, T) = Some sl' /\ e_key sl' = e_key sl /\ e_val sl' = e_val sl) ->
  (forall d, dhp m !! c = Some d -> exists d', dhp m' !! c = Some d' /\ d_key d' = d_key d /\ d_last d' = d_last d /\ d_nodes d' = d_nodes d /\
     (forall n, n ∈ (d_nodes d).*2 -> forall sl, hp m !! inr n = Some sl -> exists sl', hp m' !! inr n = Some sl' /\ e_key sl' = e_key sl /\ e_val sl' = e_val sl)) ->
  (dhp m !! c = None -> dhp m' !! c = None) ->
  ctxR m act c k a -> ctxR m' act' c k' a.
Proof.
  intros H1 H2 H3 H4 H5 []. constructor; auto.
  - congruence.
  - intros T HT. destruct (cr_cell0 T HT) as (sl & Hsl & HR). destruct (H3 T sl HT Hsl) as (sl' & ? & Hk & Hv).
    exists sl'. split; auto. destruct (ac_cell a !! T) as [[? ?]|]; simpl in *; rewrite ?Hk, ?Hv; auto.
  - intros HT. destruct (cr_coll0 HT) as (d & Hd & HR). destruct (H4 d Hd) as (d' & ? & ? & ? & ? & ?).
    exists d'. split; auto. by eapply collR_ext.
  - intros HT. destruct (cr_nocoll0 HT). auto.
Qed.

(** ** Finding *)
Lemma R_look m s c a : R m s -> actxs s !! c = Some a ->
  exists k, ctxs m !! c = Some k /\ ctxR m (bool_decide (c ∈ stack s)) c k a.
Proof.
  intros HR Ha. pose proof (R_ctx _ _ HR c) as H. rewrite Ha in H. destruct (ctxs m !! c) as [k|]; [|done].
  exists k. auto.
Qed.

Lemma R_look_none m s c : R m s -> actxs s !! c = None -> ctxs m !! c = None.
Proof.
  intros HR Ha. pose proof (R_ctx _ _ HR c) as H. rewrite Ha in H. destruct (ctxs m !! c) as [k|]; done.
Qed.

(** the address and the content of type T in a context *)
Lemma caddr_spec m act c k a T : ctxs m !! c = Some k -> ctxR m act c k a ->
  if has_e T a then exists ad sl, caddr m c T = Some ad /\ hp m !! ad = Some sl /\ cellR sl (get_e T a)
  else caddr m c T = None.
Proof.
  intros Hk HR. destruct HR. unfold has_e, get_e, caddr. rewrite Hk, cr_tup0.
  case_bool_decide as HT; simpl.
  - destruct (cr_cell0 T HT) as (sl & ? & ?). eauto.
  - destruct (decide (SDA ∈ ac_tup a)) as [Hd|Hd].
    + destruct (cr_coll0 Hd) as (d & Hd' & Hc). rewrite Hd'. unfold nodes.
      destruct (ac_coll a) as [q|]; simpl in *.
      * destruct Hc as (? & ? & ? & ? & ? & HF). pose proof (nodes_get _ _ _ T HF) as Hg.
        destruct (has_node T (q_nodes q)) eqn:Hh.
        -- apply get_node_has in Hh as [kv Hkv]. rewrite Hkv in *.
           destruct (node_at T (d_nodes d)); [|done]. destruct Hg as (sl & ? & ?). simpl. eauto.
        -- apply has_node_false in Hh. rewrite Hh in *. destruct (node_at T (d_nodes d)); done.
      * destruct Hc as [_ Hc]. by rewrite Hc.
    + destruct (cr_nocoll0 Hd) as [-> Hc]. unfold nodes. by rewrite Hc.
Qed.

Lemma find_e_R m s T : R m s ->
  match find_e T s with
  | Some (c, a) => actxs s !! c = Some a /\ c ∈ stack s /\ has_e T a = true /\
      exists ad sl, tls m !! T = Some ad /\ caddr m c T = Some ad /\ hp m !! ad = Some sl /\ cellR sl (get_e T a)
  | None => tls m !! T = None
  end.
Proof.
  intros HR. rewrite (R_tls _ _ HR T). unfold find_e.
  assert (forall l, (forall c, c ∈ l -> c ∈ stack s) ->
    match find_ctx (has_e T) l (actxs s) with
    | Some (c, a) => actxs s !! c = Some a /\ c ∈ l /\ has_e T a = true /\
        exists ad sl, chead m T l = Some ad /\ caddr m c T = Some ad /\ hp m !! ad = Some sl /\ cellR sl (get_e T a)
    | None => chead m T l = None
    end) as H; [|exact (H _ (fun _ h => h))].
  induction l as [|c l IH]; intros Hl; simpl; auto.
  destruct (R_in _ _ HR c) as [a Ha]; [apply Hl; constructor|]. rewrite Ha.
  destruct (R_look _ _ _ _ HR Ha) as (k & Hk & Hc).
  pose proof (caddr_spec _ _ _ _ _ T Hk Hc) as Hs. destruct (has_e T a) eqn:He.
  - destruct Hs as (ad & sl & H1 & H2 & H3). rewrite H1. repeat split; auto; [constructor|]. eauto 10.
  - rewrite Hs. specialize (IH (fun c' h => Hl c' (elem_of_list_further c' c l h))).
    destruct (find_ctx (has_e T) l (actxs s)) as [[c' a']|]; auto.
    destruct IH as (? & ? & ? & ?). repeat split; auto. by constructor.
Qed.

Lemma find_d_R m s : R m s ->
  match find_d s with
  | Some (c, a) => actxs s !! c = Some a /\ c ∈ stack s /\ SDA ∈ ac_tup a /\ tlsd m = Some c /\
      exists d, dhp m !! c = Some d /\ collR (hp m) d (ac_coll a)
  | None => tlsd m = None
  end.
Proof.
  intros HR. rewrite (R_tlsd _ _ HR). unfold find_d.
  assert (forall l, (forall c, c ∈ l -> c ∈ stack s) ->
    match find_ctx has_d l (actxs s) with
    | Some (c, a) => actxs s !! c = Some a /\ c ∈ l /\ SDA ∈ ac_tup a /\ dhead m l = Some c /\
        exists d, dhp m !! c = Some d /\ collR (hp m) d (ac_coll a)
    | None => dhead m l = None
    end) as H; [|exact (H _ (fun _ h => h))].
  induction l as [|c l IH]; intros Hl; simpl; auto.
  destruct (R_in _ _ HR c) as [a Ha]; [apply Hl; constructor|]. rewrite Ha.
  destruct (R_look _ _ _ _ HR Ha) as (k & Hk & Hc).
  destruct Hc. assert (hasd m c = has_d a) as -> by (unfold hasd, has_d; by rewrite Hk, cr_tup0).
  destruct (has_d a) eqn:Hd.
  - apply bool_decide_eq_true in Hd.
    destruct (cr_coll0 Hd) as (d & ? & ?).
    split; [done|]. split; [constructor|]. eauto 10.
  - specialize (IH (fun c' h => Hl c' (elem_of_list_further c' c l h))).
    destruct (find_ctx has_d l (actxs s)) as [[c' a']|]; auto.
    destruct IH as (? & ? & ? & ?). split; [done|]. split; [by constructor|]. auto.
Qed.
