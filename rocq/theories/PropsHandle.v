(** C11, C37: which handler is invoked, and with what. *)
From Verif Require Export PropsUnload.
Open Scope Z_scope.

(** ** Specification *)

(** Handlers in order, tuples spliced. *)
Definition handler : Type := list harg * ((list argval -> list (ety * val)) * (list argval -> prog)).
Fixpoint flat (hs : handlers) : list handler :=
  match hs with
  | HNil => []
  | HMut args w b rest => (args, (w, b)) :: flat rest
  | HTup hs' rest => flat hs' ++ flat rest
  end.

Definition members (m : mem) (c : cid) : list ety :=
  match ctxs m !! c with Some k => omap (fun t => match t with SE T => Some T | SDA => None end) (k_tup k) | None => [] end.
Definition collected (m : mem) (c : cid) : list ety :=
  match dhp m !! c with Some d => (d_nodes d).*1 | None => [] end.

(** The value assigned last to the object of type T. *)
Fixpoint finally (T : ety) (l : list (ety * val)) : option val :=
  match l with
  | [] => None
  | (T', v) :: l' => match finally T l' with Some v' => Some v' | None => if decide (T' = T) then Some v else None end
  end.

(** A handler with the arguments args, for error id, assigned l to its arguments: [m'] is [m] but for the objects of that error
    that context c holds in its slots, if they are of a type of which the handler takes an E & or E *. *)
Definition rewritten (m : mem) (c : cid) (id : Z) (args : list harg) (l : list (ety * val)) (T : ety) (v : val) : Prop :=
  (AE T ∈ args \/ APtr T ∈ args) /\ T ∈ members m c /\ is_Some (sees id (held m c T)) /\ finally T l = Some v.
Record assigned (m : mem) (c : cid) (id : Z) (args : list harg) (l : list (ety * val)) (m' : mem) : Prop := Assigned {
  as_none : l = [] -> m' = m;
  as_new : forall T v, rewritten m c id args l T v -> held m' c T = Some (id, v);
  as_old : forall c' T, (c' = c -> forall v, ~ rewritten m c id args l T v) -> held m' c' T = held m c' T;
  as_same : ctxs m' = ctxs m /\ dhp m' = dhp m /\ tls m' = tls m /\ tlsd m' = tlsd m;
  as_prev : forall ad, e_prev <$> hp m' !! ad = e_prev <$> hp m !! ad }.

Section spec.
Context (G : cfg) (m : mem) (c : cid) (ei : einfo).

(** What a caught exception converts to. *)
Definition from_exn (T : ety) : option val :=
  match ei_ex ei with
  | Some x => if g_class G T then
                if (T =? T_EC)%nat then (fun cv => VEC (fst cv) (snd cv)) <$> x_code x
                else if decide (T ∈ x_cls x) then Some (VZ (x_val x)) else None
              else None
  | None => None
  end.

(** The object of type T available for the error. *)
Definition obj (T : ety) : option val :=
  match (if decide (T ∈ members m c) then sees (ei_id ei) (held m c T) else None) with
  | Some v => Some v
  | None => from_exn T
  end.

(** The objects of the error among the given types, those hidden from diagnostics left out. *)
Definition listing (l : list ety) : list (ety * val) :=
  omap (fun T => match sees (ei_id ei) (held m c T) with Some v => if g_show G T then Some (T, v) else None | None => None end) l.

Definition supply (a : harg) : option argval :=
  match a with
  | AE T => VE <$> obj T
  | APtr T => Some (VP (obj T))
  | APred T f => v ← obj T; if f v then Some (VE v) else None
  | ACatch cls => x ← ei_ex ei; if decide (cls = [] \/ Exists (fun cl => cl ∈ x_cls x) cls) then Some (VCatch x) else None
  | ABoost info f => x ← ei_ex ei; if decide (T_BOOSTEX ∈ x_cls x) then z ← info x; if f z then Some (VE (VZ z)) else None else None
  | AInfo => Some (VInfo (ei_id ei) (ei_ex ei) (ei_loc ei))
  | ADiag => Some (VDiag (ei_id ei) (ei_ex ei) (ei_loc ei) (if g_diag G then listing (members m c) else []))
  | ADetails => Some (VDetails (ei_id ei) (ei_ex ei) (ei_loc ei) (if g_diag G then listing (members m c) else [])
                       (if g_diag G && g_capture G then listing (collected m c) else []))
  end.
End spec.

(** ** Proofs *)
Lemma elem_members m c k T : ctxs m !! c = Some k -> T ∈ members m c <-> SE T ∈ k_tup k.
Proof.
  intros Hk. unfold members. rewrite Hk, elem_of_list_omap. split.
  - intros ([T'|] & ? & ?); simplify_eq; auto.
  - intros. exists (SE T). auto.
Qed.

Lemma held_cell m s c k T : R m s -> ctxs m !! c = Some k -> SE T ∈ k_tup k ->
  exists sl, hp m !! inl (c, T) = Some sl /\ held m c T = if e_key sl =? 0 then None else Some (e_key sl, e_val sl).
Proof.
  intros HR Hk HT. pose proof (R_ctx _ _ HR c) as H. rewrite Hk in H. destruct (actxs s !! c) as [a|]; [|done].
  destruct H. rewrite cr_tup in HT. destruct (cr_cell T HT) as (sl & Hsl & _). exists sl. split; [done|].
  unfold held, caddr. rewrite Hk, cr_tup, bool_decide_true by done. by rewrite Hsl.
Qed.

Lemma mget_spec G m s c k T id : R m s -> ctxs m !! c = Some k -> id <> 0 ->
  mget G c T id m = Ok (if bool_decide (SE T ∈ k_tup k) then sees id (held m c T) else None).
Proof.
  intros HR Hk Hid. unfold mget. rewrite Hk. simpl. case_bool_decide as HT; [|done].
  destruct (held_cell _ _ _ _ _ HR Hk HT) as (sl & -> & ->). simpl. rewrite assert_ok by by apply nz_true. simpl.
  rewrite (proj2 (Z.eqb_neq id 0)) by done. destruct (e_key sl =? id) eqn:E.
  - rewrite (proj2 (Z.eqb_neq (e_key sl) 0)) by lia. simpl. by rewrite E.
  - destruct (e_key sl =? 0); simpl; [done|]. by rewrite E.
Qed.

Lemma print_slot_sees G id T k v : id <> 0 -> 
  print_slot G id T k v = match sees id (if k =? 0 then None else Some (k, v)) with Some v => if g_show G T then [(T, v)] else [] | None => [] end.
Proof.
  intros Hid. unfold print_slot. rewrite (proj2 (Z.eqb_neq id 0)) by done. destruct (k =? 0); simpl; [done|].
  by destruct (k =? id), (g_show G T).
Qed.

Lemma mprint_spec G m s c k ei : R m s -> ctxs m !! c = Some k -> ei_id ei <> 0 ->
  mprint G c (ei_id ei) m = Ok (listing G m c ei (members m c)).
Proof.
  intros HR Hk Hid. unfold mprint, members. rewrite Hk. simpl. assert (forall t, t ∈ k_tup k -> t ∈ k_tup k) as Hsub by done.
  revert Hsub. generalize (k_tup k) at 1 3 4. intros l. induction l as [|[T|] l IH]; intros Hsub; [done| |].
  - destruct (held_cell _ _ _ _ T HR Hk) as (sl & H1 & H2); [apply Hsub; constructor|]. simpl. rewrite H1. simpl.
    rewrite IH by (intros; apply Hsub; by constructor). simpl. unfold listing. simpl. rewrite H2, print_slot_sees by done. destruct (sees _ _); simpl; [|done].
    by destruct (g_show G T).
  - cbn [tup_print omap list_omap]. apply IH. intros. apply Hsub. by constructor.
Qed.

Lemma listing_app G m c ei l1 l2 : listing G m c ei (l1 ++ l2) = listing G m c ei l1 ++ listing G m c ei l2.
Proof. unfold listing. apply omap_app. Qed.

Lemma mdetails_spec G m s c k ei : R m s -> ctxs m !! c = Some k -> ei_id ei <> 0 ->
  mdetails G c (ei_id ei) m = Ok (listing G m c ei (collected m c)).
Proof.
  intros HR Hk Hid. pose proof (R_ctx _ _ HR c) as H. rewrite Hk in H. destruct (actxs s !! c) as [a|] eqn:Ha; [|done]. destruct H.
  unfold mdetails, collected. rewrite Hk. simpl. rewrite cr_tup. destruct (decide (SDA ∈ ac_tup a)) as [Hd|Hd]; [rewrite bool_decide_true by done|rewrite bool_decide_false by done].
  - destruct (cr_coll Hd) as (d & Hd1 & Hd2). rewrite Hd1. simpl. destruct (d_key d =? 0) eqn:Ez.
    + destruct (ac_coll a) as [q|]; [|by destruct Hd2 as [_ ->]]. destruct Hd2 as (? & ? & _). lia.
    + destruct (ac_coll a) as [q|] eqn:Eq; [|destruct Hd2; lia]. destruct Hd2 as (_ & _ & _ & Hnd & _ & HF).
      assert (forall T n, (T, n) ∈ d_nodes d -> exists sl, hp m !! inr n = Some sl /\ held m c T = if e_key sl =? 0 then None else Some (e_key sl, e_val sl)) as Hnode.
      { intros T n Hin. assert (has_node T (nodes a) = true) as Hh.
        { unfold has_node, nodes. rewrite Eq, <- (nodes_types _ _ _ HF). apply bool_decide_eq_true. apply elem_of_list_fmap. by exists (T, n). }
        assert (exists y, nodeR (hp m) (T, n) y) as (y & _ & sl & Hsl & _).
        { destruct (elem_of_list_lookup_1 _ _ Hin) as [i Hi]. destruct (Forall2_lookup_l _ _ _ _ _ HF Hi) as (y & _ & ?). eauto. }
        simpl in Hsl.
        exists sl. split; [done|]. unfold held, caddr. rewrite Hk, cr_tup, bool_decide_false by by apply cr_disj. rewrite Hd1.
        assert (node_at T (d_nodes d) = Some n) as ->; [|simpl; by rewrite Hsl].
        clear -Hnd Hin. induction (d_nodes d) as [|[T1 n1] l IH]; [by apply elem_of_nil in Hin|]. simpl. csimpl in Hnd. apply NoDup_cons in Hnd as [Hn Hnd].
        apply elem_of_cons in Hin as [?|Hin]; [simplify_eq; by rewrite decide_True|]. destruct (decide (T = T1)) as [->|]; [|by apply IH].
        exfalso. apply Hn. apply elem_of_list_fmap. by exists (T1, n). }
      clear -Hnode Hid. induction (d_nodes d) as [|[T n] l IH]; [done|]. simpl. destruct (Hnode T n) as (sl & -> & Hsl); [constructor|]. simpl.
      rewrite IH; [|intros; apply Hnode; by constructor]. simpl. unfold listing. simpl. rewrite Hsl, print_slot_sees by done.
      destruct (sees _ _); simpl; [|done]. by destruct (g_show G T).
  - destruct (cr_nocoll Hd) as [-> _]. done.
Qed.

Lemma peek_exn_spec G T ei : peek_exn G T (ei_ex ei) = from_exn G ei T.
Proof.
  unfold peek_exn, from_exn. destruct (ei_ex ei) as [x|]; [|done]. destruct (g_class G T); simpl; [|done].
  destruct (T =? T_EC)%nat; [by destruct (x_code x) as [[? ?]|]|]. case_bool_decide; [by rewrite decide_True|by rewrite decide_False].
Qed.

Lemma peek_spec G m s c k T ei : R m s -> ctxs m !! c = Some k -> ei_id ei <> 0 -> peek G (pmach G) T c ei m = Ok (obj G m c ei T).
Proof.
  intros HR Hk Hid. unfold peek, obj. rewrite (proj2 (Z.eqb_neq _ 0)) by done. simpl. rewrite (mget_spec _ _ _ _ _ _ _ HR Hk Hid). simpl.
  f_equal. rewrite peek_exn_spec. case_bool_decide as HT.
  - rewrite decide_True by by eapply elem_members. done.
  - rewrite decide_False; [done|]. by rewrite (elem_members _ _ _ _ Hk).
Qed.

Lemma args_get_spec G m s c k ei args : R m s -> ctxs m !! c = Some k -> ei_id ei <> 0 ->
  args_get G (pmach G) args c ei m = Ok (mapM (supply G m c ei) args).
Proof.
  intros HR Hk Hid. induction args as [|a args IH]; [done|]. cbn [args_get]. 
  assert (arg_get G (pmach G) a c ei m = Ok (supply G m c ei a)) as ->.
  { destruct a as [T|T|T f|cls|info f| | |]; simpl; rewrite ?(peek_spec _ _ _ _ _ _ _ HR Hk Hid); simpl; auto.
    - destruct (ei_ex ei) as [x|]; [|done]. simpl. f_equal. destruct cls as [|c1 cls]; [by rewrite decide_True by by left|].
      destruct (existsb _ _) eqn:E.
      + rewrite decide_True; [done|]. right. apply existsb_exists in E as (cl & H1 & H2). apply bool_decide_eq_true in H2.
        apply Exists_exists. exists cl. split; [by apply elem_of_list_In|done].
      + rewrite decide_False; [done|]. intros [?|Hx]; [done|]. apply Exists_exists in Hx as (cl & H1 & H2).
        enough (existsb (fun cl => bool_decide (cl ∈ x_cls x)) (c1 :: cls) = true) by congruence. apply existsb_exists. exists cl.
        split; [by apply elem_of_list_In|]. by apply bool_decide_eq_true.
    - destruct (ei_ex ei) as [x|]; [|done]. simpl. f_equal. case_bool_decide; [rewrite decide_True by done|by rewrite decide_False by done].
      by destruct (info x).
    - unfold shown. destruct (g_diag G); simpl; [|done]. by rewrite (mprint_spec _ _ _ _ _ _ HR Hk Hid).
    - unfold shown. destruct (g_diag G); simpl; [|done]. rewrite (mprint_spec _ _ _ _ _ _ HR Hk Hid). simpl.
      destruct (g_capture G); simpl; [|done]. by rewrite (mdetails_spec _ _ _ _ _ _ HR Hk Hid). }
  cbn [rbind mapM]. destruct (supply G m c ei a) as [v|]; [|done]. rewrite IH. simpl. by destruct (mapM _ args).
Qed.

(** ** Assignments to handler arguments *)
Lemma mset_R m s c T id v k : R m s -> ctxs m !! c = Some k -> id <> 0 -> exists m' s', mset c T id v m = Ok m' /\ R m' s' /\ stack s' = stack s /\
  nc m' = nc m /\ na m' = na m /\ ctxs m' = ctxs m /\ dhp m' = dhp m /\ tls m' = tls m /\ tlsd m' = tlsd m /\ (forall ad, e_prev <$> hp m' !! ad = e_prev <$> hp m !! ad) /\
  forall c' T', held m' c' T' = if decide (c' = c /\ T' = T /\ T ∈ members m c /\ is_Some (sees id (held m c T))) then Some (id, v) else held m c' T'.
Proof.
  intros HR Hk Hid. pose proof (R_ctx _ _ HR c) as Hc. rewrite Hk in Hc. destruct (actxs s !! c) as [a|] eqn:Ha; [|done]. simpl in Hc.
  assert (forall b : Prop, ~ b -> forall Hd : Decision b, forall (x : option (Z * val)), x = if decide b then Some (id, v) else x) as Hno.
  { intros b Hb Hd x. by rewrite decide_False. }
  unfold mset. rewrite Hk. simpl. destruct (decide (SE T ∈ k_tup k)) as [HT|HT]; [rewrite (bool_decide_true (SE T ∈ _)) by done|rewrite (bool_decide_false (SE T ∈ _)) by done].
  - destruct (held_cell _ _ _ _ _ HR Hk HT) as (sl & Hsl & Hh). rewrite Hsl. simpl. destruct (e_key sl =? id) eqn:Ek; simpl.
    + apply Z.eqb_eq in Ek. rewrite (proj2 (Z.eqb_neq id 0)) by done. simpl. rewrite Ek, (proj2 (Z.eqb_neq id 0)) in Hh by done.
      rewrite (cr_tup _ _ _ _ _ Hc) in HT.
      destruct (store_R (Cfg false false false (fun _ => true) (fun _ => true) (fun _ => true) (fun _ => v) (fun _ => 0)) m s c a T (inl (c, T)) sl id v) as (m' & E1 & E2); auto.
      { unfold has_e. by rewrite bool_decide_true. }
      { unfold caddr. rewrite Hk, (cr_tup _ _ _ _ _ Hc). by rewrite bool_decide_true. }
      unfold slot_load in E1. rewrite Hsl in E1. simpl in E1. simplify_eq. eexists _, _. split; [done|]. split; [exact E2|].
      do 7 (split; [done|]). split.
      * intros ad. simpl. destruct (decide (ad = inl (c, T))) as [->|?]; [rewrite lookup_insert, Hsl; done|by rewrite lookup_insert_ne].
      * intros c' T'. destruct (decide _) as [(-> & -> & _ & _)|Hn].
        -- unfold held, caddr. simpl. rewrite Hk, (cr_tup _ _ _ _ _ Hc), bool_decide_true by done. rewrite lookup_insert. simpl.
           by rewrite (proj2 (Z.eqb_neq _ 0)).
        -- unfold held. replace (caddr (set_hp _ m) c' T') with (caddr m c' T') by done. destruct (caddr m c' T') as [ad|] eqn:Ead; [|done].
           simpl. rewrite lookup_insert_ne; [done|]. intros <-. apply Hn. unfold caddr in Ead. destruct (ctxs m !! c'); [|done].
           case_bool_decide; [|by destruct (dhp m !! c') as [dd|]; [destruct (node_at T' (d_nodes dd))|]]. simplify_eq.
           repeat split; auto; [apply (elem_members _ _ _ _ Hk); by rewrite (cr_tup _ _ _ _ _ Hc)|]. rewrite Hh. simpl. rewrite Z.eqb_refl. eauto.
    + exists m, s. repeat (split; [done|]). intros c' T'. apply Hno; auto. intros (_ & _ & _ & [v0 Hs]). rewrite Hh in Hs.
      destruct (e_key sl =? 0); simpl in Hs; [done|]. by rewrite Ek in Hs.
  - exists m, s. repeat (split; [done|]). intros c' T'. apply Hno; auto. intros (_ & _ & Hm & _). by apply (elem_members _ _ _ _ Hk) in Hm.
Qed.

Lemma mutable_spec args T : mutable args T = true <-> AE T ∈ args \/ APtr T ∈ args.
Proof.
  unfold mutable. rewrite existsb_exists. split.
  - intros (a & Ha & E). apply elem_of_list_In in Ha. destruct a; try done; apply Nat.eqb_eq in E; subst; auto.
  - intros [H|H]; apply elem_of_list_In in H; eexists; (split; [exact H|]); apply Nat.eqb_refl.
Qed.
Lemma finally_writes args T l : finally T (writes args l) = if mutable args T then finally T l else None.
Proof.
  unfold writes. induction l as [|[T1 v] l IH]; simpl; [by destruct (mutable args T)|]. destruct (mutable args T1) eqn:E1; simpl; rewrite IH.
  - destruct (mutable args T) eqn:E2; [done|]. rewrite decide_False; [done|]. congruence.
  - destruct (mutable args T) eqn:E2; [|done]. destruct (finally T l); [done|]. rewrite decide_False; [done|]. congruence.
Qed.

Lemma set_all_R (G : cfg) c id l : forall m s k, R m s -> ctxs m !! c = Some k -> id <> 0 -> exists m' s', set_all (pmach G) c id l m = Ok m' /\ R m' s' /\ stack s' = stack s /\
  nc m' = nc m /\ na m' = na m /\ ctxs m' = ctxs m /\ dhp m' = dhp m /\ tls m' = tls m /\ tlsd m' = tlsd m /\ (forall ad, e_prev <$> hp m' !! ad = e_prev <$> hp m !! ad) /\
  forall c' T, held m' c' T = if decide (c' = c /\ T ∈ members m c)
    then match sees id (held m c T), finally T l with Some _, Some v => Some (id, v) | _, _ => held m c T end else held m c' T.
Proof.
  induction l as [|[T v] l IH]; intros m s k HR Hk Hid.
  - exists m, s. repeat (split; [done|]). intros c' T. destruct (decide _) as [[-> _]|]; [|done]. simpl. by destruct (sees _ _).
  - destruct (mset_R m s c T id v k HR Hk Hid) as (m1 & s1 & E1 & HR1 & A0 & A1 & A2 & A3 & A4 & A5 & A6 & A7 & A8).
    assert (ctxs m1 !! c = Some k) as Hk1 by by rewrite A3.
    destruct (IH m1 s1 k HR1 Hk1 Hid) as (m2 & s2 & E2 & HR2 & B0 & B1 & B2 & B3 & B4 & B5 & B6 & B7 & B8).
    exists m2, s2. cbn [set_all]. replace (m_set (pmach G) c T id v m) with (mset c T id v m) by done. rewrite E1. cbn [rbind]. split; [done|].
    split; [done|]. do 7 (split; [congruence|]). split; [intros; by rewrite B7|].
    assert (members m1 c = members m c) as Em by (unfold members; by rewrite A3).
    intros c' T'. rewrite B8, Em. destruct (decide (c' = c /\ T' ∈ members m c)) as [[-> Hm]|Hn].
    + rewrite A8. simpl. destruct (decide (T = T')) as [->|Hne].
      * destruct (decide (c = c /\ _)) as [(_ & _ & _ & [v0 Hs])|Hn2].
        -- rewrite Hs. simpl. rewrite Z.eqb_refl. by destruct (finally T' l).
        -- destruct (sees id (held m c T')) eqn:Es; [|done]. exfalso. apply Hn2. eauto.
      * rewrite decide_False by naive_solver. by destruct (finally T' l).
    + rewrite A8, decide_False; [done|]. naive_solver.
Qed.

Lemma assigned_R (G : cfg) c id args l m s k : R m s -> ctxs m !! c = Some k -> id <> 0 ->
  exists m' s', set_all (pmach G) c id (writes args l) m = Ok m' /\ R m' s' /\ stack s' = stack s /\ assigned m c id args l m'.
Proof.
  intros HR Hk Hid. destruct (set_all_R G c id (writes args l) m s k HR Hk Hid) as (m' & s' & E & HR' & A0 & _ & _ & A3 & A4 & A5 & A6 & A7 & A8).
  exists m', s'. split; [done|]. split; [done|]. split; [done|]. split; auto.
  - intros ->. simpl in E. congruence.
  - intros T v (H1 & H2 & [v0 H3] & H4). rewrite A8, decide_True by done. rewrite H3, finally_writes, (proj2 (mutable_spec args T) H1). by rewrite H4.
  - intros c' T Hn. rewrite A8, finally_writes. destruct (decide _) as [[-> Hm]|]; [|done].
    destruct (sees id (held m c T)) as [v0|] eqn:Es; [|done]. destruct (mutable args T) eqn:Em; [|done]. destruct (finally T l) as [v|] eqn:Ef; [|done].
    exfalso. apply (Hn eq_refl v). split; [by apply mutable_spec|]. split; [done|]. split; [by eexists|done].
Qed.

Lemma first_handler :
  forall G caught hs c ei dflt m s g,
    R m s -> is_Some (ctxs m !! c) -> ei_id ei <> 0 ->
    (exists pre args w b post vs m',
        flat hs = pre ++ (args, (w, b)) :: post /\
        Forall (fun h => mapM (supply G m c ei) (fst h) = None) pre /\
        mapM (supply G m c ei) args = Some vs /\
        set_all (pmach G) c (ei_id ei) (writes args (w vs)) m = Ok m' /\
        assigned m c (ei_id ei) args (w vs) m' /\
        evalH G (pmach G) caught hs c ei dflt (m, g) = eval G (pmach G) caught (b vs) (m', g)) \/
    (Forall (fun h => mapM (supply G m c ei) (fst h) = None) (flat hs) /\
     evalH G (pmach G) caught hs c ei dflt (m, g) = dflt (m, g)).
Proof.
  intros G caught hs c ei dflt m s g HR [k Hk] Hid. revert dflt.
  induction hs as [|args w b hs IH|hs1 IH1 hs2 IH2]; intros dflt.
  - right. split; [constructor|done].
  - cbn [evalH flat]. simpl fst. simpl snd. rewrite (args_get_spec _ _ _ _ _ _ _ HR Hk Hid). cbn [rbind].
    destruct (mapM (supply G m c ei) args) as [vs|] eqn:E.
    + left. destruct (assigned_R G c (ei_id ei) args (w vs) m s k HR Hk Hid) as (m' & _ & Es & _ & _ & Ha).
      exists [], args, w, b, (flat hs), vs, m'. split; [done|]. split; [constructor|]. split; [done|]. split; [exact Es|]. split; [done|].
      replace (set_all (pmach G) c (ei_id ei) (writes args (w vs)) m) with (Ok m' : res (mst (pmach G))). done.
    + destruct (IH dflt) as [(pre & args' & w' & b' & post & vs & m' & H1 & H2 & H3 & H4)|(H1 & H2)].
      * left. exists ((args, (w, b)) :: pre), args', w', b', post, vs, m'. rewrite H1. split; [done|]. split; [by constructor|]. done.
      * right. split; [by constructor|done].
  - cbn [evalH flat]. destruct (IH1 (evalH G (pmach G) caught hs2 c ei dflt)) as [(pre & args' & w' & b' & post & vs & m' & H1 & H2 & H3 & H4)|(H1 & H2)].
    + left. exists pre, args', w', b', (post ++ flat hs2), vs, m'. rewrite H1, <- app_assoc. done.
    + rewrite H2. destruct (IH2 dflt) as [(pre & args' & w' & b' & post & vs & m' & H3 & H4 & H5 & H6)|(H3 & H4)].
      * left. exists (flat hs1 ++ pre), args', w', b', post, vs, m'. rewrite H3, <- app_assoc. split; [done|]. split; [by apply Forall_app|]. done.
      * right. split; [by apply Forall_app|done].
Qed.

(** ** C11
    Either some handler's arguments can all be supplied, and then what happens is exactly that the first such handler is called with
    these arguments; or none can, and what happens is what follows the handlers. *)
Theorem C11_first_matching_handler :
  forall G caught hs c ei dflt m s g,
    R m s -> is_Some (ctxs m !! c) -> ei_id ei <> 0 ->
    (exists pre args w b post vs m',
        flat hs = pre ++ (args, (w, b)) :: post /\
        Forall (fun h => mapM (supply G m c ei) (fst h) = None) pre /\
        mapM (supply G m c ei) args = Some vs /\
        assigned m c (ei_id ei) args (w vs) m' /\
        evalH G (pmach G) caught hs c ei dflt (m, g) = eval G (pmach G) caught (b vs) (m', g)) \/
    (Forall (fun h => mapM (supply G m c ei) (fst h) = None) (flat hs) /\
     evalH G (pmach G) caught hs c ei dflt (m, g) = dflt (m, g)).
Proof.
  intros G caught hs c ei dflt m s g HR Hk Hid.
  destruct (first_handler G caught hs c ei dflt m s g HR Hk Hid) as [(pre & args & w & b & post & vs & m' & H1 & H2 & H3 & _ & H4)|H]; [left|by right].
  by exists pre, args, w, b, post, vs, m'.
Qed.
Print Assumptions C11_first_matching_handler.
