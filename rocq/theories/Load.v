(** What loading one item does to the visible objects. *)
From Verif Require Export PropsTry.
Open Scope Z_scope.

(** ** Vocabulary *)

(** The type of object an item deals with. *)
Definition ity (it : item) : option ety :=
  match it with IVal T _ | IDef T _ _ | IAcc T _ _ => Some T | IVoid _ => None end.

(** The object an item produces, if [old] is the object already there for the same error. *)
Definition value (G : cfg) (it : item) (old : option val) (t : list ev) : option val :=
  match it with
  | IVal _ v => Some v
  | IDef _ _ gf => Some (gf t)
  | IAcc T _ f => Some (f (match old with Some v => v | None => g_def G T end))
  | IVoid _ => None
  end.

(** The call of user code the item leads to, if it is not skipped. *)
Definition call (it : item) : list ev :=
  match it with IVal _ _ => [] | IDef _ tag _ | IVoid tag => [EvDefer tag] | IAcc _ tag _ => [EvAcc tag] end.

(** The object, with its error, in the slot which serves T. *)
Definition visible (m : mem) (T : ety) : option (Z * val) :=
  match tls m !! T with
  | Some ad => match hp m !! ad with
               | Some sl => if e_key sl =? 0 then None else Some (e_key sl, e_val sl)
               | None => None
               end
  | None => None
  end.
Definition unserved (m : mem) (T : ety) : Prop := tls m !! T = None.

(** No slot serves T, but context c collects. *)
Definition collects (G : cfg) (m : mem) (T : ety) (c : cid) : Prop := unserved m T /\ g_capture G = true /\ tlsd m = Some c.

(** on_error does not replace an object of the same error; accumulating functions always work on it. *)
Definition skipped (onerr : bool) (id : Z) (it : item) (m : mem) : Prop :=
  match it with
  | IVal T _ | IDef T _ _ => onerr = true /\ sees id (visible m T) <> None
  | _ => False
  end.

Definition quiet_glob (g g' : glob) : Prop := cur g' = cur g /\ ngen g' = ngen g /\ oid g' = oid g /\ clr g' = clr g.

(** What loading an item for error id must do. *)
Record loaded (G : cfg) (onerr : bool) (id : Z) (it : item) (m : mem) (g : glob) (m' : mem) (g' : glob) : Prop := {
  ld_ctxs : ctxs m' = ctxs m;
  ld_tlsd : tlsd m' = tlsd m;
  ld_new c T v : ity it = Some T -> value G it (sees id (visible m T)) (tr g) = Some v ->
    (serves m T c /\ ~ skipped onerr id it m) \/ collects G m T c -> held m' c T = Some (id, v);
  ld_old c T : (ity it = Some T -> ~ ((serves m T c /\ ~ skipped onerr id it m) \/ collects G m T c)) -> held m' c T = held m c T;
  ld_serves c T : serves m' T c <-> serves m T c \/ (ity it = Some T /\ collects G m T c);
  ld_quiet : quiet_glob g g';
  ld_void tag : it = IVoid tag -> tr g' = EvDefer tag :: tr g;
  ld_served T c : ity it = Some T -> serves m T c -> (skipped onerr id it m /\ tr g' = tr g) \/ (~ skipped onerr id it m /\ tr g' = call it ++ tr g);
  ld_coll T c : ity it = Some T -> collects G m T c -> tr g' = call it ++ tr g;
  ld_lost T : ity it = Some T -> unserved m T -> (forall c, ~ collects G m T c) ->
    tr g' = tr g \/ (exists tag gf, it = IDef T tag gf /\ g_capture G = true /\ tr g' = EvDefer tag :: tr g) }.

(** The collecting context can take what an accumulating function produces: see C15. *)
Definition acc_ok (G : cfg) (id : Z) (it : item) (m : mem) : Prop :=
  match it with
  | IAcc T _ _ => unserved m T -> g_capture G = true -> forall c d, tlsd m = Some c -> dhp m !! c = Some d -> d_key d <> 0 ->
      d_key d = id \/ d_nodes d = []
  | _ => True
  end.

(** ** The stack machine *)
Definition sskip (onerr : bool) (id : Z) (it : item) (o : option (Z * val)) : bool :=
  match it with IVal _ _ | IDef _ _ _ => onerr && (key_of o =? id) | _ => false end.

Section stk.
Context (G : cfg).
Definition sacc_ok (id : Z) (it : item) (s : smem) : Prop :=
  match it with
  | IAcc T _ _ => find_e T s = None -> g_capture G = true -> forall c a q, find_d s = Some (c, a) -> ac_coll a = Some q ->
      q_key q = id \/ q_nodes q = []
  | _ => True
  end.

Lemma sees_key_eq id o : id <> 0 -> sees id o <> None <-> key_of o = id.
Proof. intros Hid. destruct o as [[k v]|]; simpl; [|split; congruence]. destruct (Z.eqb_spec k id); split; congruence. Qed.

Lemma sload_cases onerr id it s g : id <> 0 -> dok s -> sacc_ok id it s ->
  exists s' g', sload G onerr id it s g = Ok (s', g') /\ quiet_glob g g' /\
    match ity it with
    | None => s' = s /\ tr g' = call it ++ tr g
    | Some T =>
        match find_e T s with
        | Some (c, a) =>
            if sskip onerr id it (get_e T a) then s' = s /\ g' = g
            else exists v, value G it (sees id (get_e T a)) (tr g) = Some v /\ s' = put c (set_e T (id, v) a) s /\ tr g' = call it ++ tr g
        | None =>
            if g_capture G then
              match find_d s with
              | None => s' = s /\ (tr g' = tr g \/ exists tag gf, it = IDef T tag gf /\ tr g' = EvDefer tag :: tr g)
              | Some (c, a) => exists v key, value G it None (tr g) = Some v /\ s' = put c (app_coll key T (id, v) a) s /\ tr g' = call it ++ tr g
              end
            else s' = s /\ tr g' = tr g
        end
    end.
Proof.
  intros Hid Hd Hacc.
  assert (sassert (negb (id =? 0)) = Ok tt) as Hz by (unfold sassert; by rewrite (proj2 (Z.eqb_neq id 0))).
  assert (forall T v, find_e T s = None -> exists s', scollect id T v s = Ok s' /\ match find_d s with
    | Some (c, a) => exists key, s' = put c (app_coll key T (id, v) a) s | None => s' = s end) as Hcol.
  { intros T v _. unfold scollect. destruct (find_d s) as [[c a]|] eqn:Hf; [|eauto]. rewrite Hz. simpl. unfold app_coll, nodes.
    destruct (ac_coll a) as [q|] eqn:Hq; [|eauto]. rewrite (Hd _ _ _ Hf Hq). eauto. }
  assert (quiet_glob g g) as Hqg by (by repeat split).
  assert (forall e, quiet_glob g (emit e g)) as Hqe by (by repeat split).
  destruct it as [T v|T tag gf|T tag f|tag]; cbn [ity sload sskip call].
  - destruct (find_e T s) as [[c a]|] eqn:Hf.
    + destruct (_ && _); [eauto 10|]. unfold sstore. rewrite Hz. simpl. eauto 10.
    + destruct (g_capture G); [|eauto 10]. destruct (Hcol T v Hf) as (s' & -> & Hs). simpl. exists s', g. split; [done|]. split; [done|].
      destruct (find_d s) as [[c a]|]; [|by split; auto]. destruct Hs as [key ->]. eauto.
  - destruct (find_e T s) as [[c a]|] eqn:Hf.
    + destruct (_ && _); [eauto 10|]. unfold sstore. rewrite Hz. simpl. eexists _, _. split; [done|]. split; [done|]. eauto.
    + destruct (g_capture G); [|eauto 10]. destruct (Hcol T (gf (tr g)) Hf) as (s' & -> & Hs). simpl. eexists _, _. split; [done|]. split; [done|].
      destruct (find_d s) as [[c a]|]; [|split; eauto]. destruct Hs as [key ->]. eauto.
  - destruct (find_e T s) as [[c a]|] eqn:Hf.
    + unfold sstore. rewrite Hz. simpl. eexists _, _. split; [done|]. split; [done|]. eexists. split; [done|]. split; [|done].
      repeat f_equal. unfold sees. destruct (get_e T a) as [[k v]|]; [|done]. by destruct (k =? id).
    + destruct (g_capture G) eqn:EG; [|eauto 10]. destruct (find_d s) as [[c a]|] eqn:Hfd; [|eauto 10].
      unfold scollect_acc. rewrite Hfd, Hz. simpl. simpl in Hacc. unfold app_coll, nodes.
      destruct (ac_coll a) as [q|] eqn:Hq; simpl.
      * destruct (q_key q =? id) eqn:Ek.
        -- rewrite (Hd _ _ _ Hfd Hq). simpl. eexists _, _. split; [done|]. split; [done|]. eauto.
        -- destruct (Hacc Hf EG _ _ _ Hfd Hq) as [?| ->]; [lia|]. simpl. eexists _, _. split; [done|]. split; [done|]. eauto.
      * eexists _, _. split; [done|]. split; [done|]. eauto.
  - eauto 10.
Qed.
End stk.

(** ** The library *)
Lemma R_visible m s T : R m s -> visible m T = match find_e T s with Some (c, a) => get_e T a | None => None end.
Proof.
  intros HR. pose proof (find_e_R _ _ T HR) as H. unfold visible. destruct (find_e T s) as [[c a]|]; [|by rewrite H].
  destruct H as (_ & _ & _ & ad & sl & -> & _ & -> & H). by apply cellR_held.
Qed.
Lemma R_unserved m s T : R m s -> unserved m T <-> find_e T s = None.
Proof.
  intros HR. pose proof (find_e_R _ _ T HR) as H. unfold unserved. destruct (find_e T s) as [[c a]|]; [|done].
  destruct H as (_ & _ & _ & ad & sl & -> & _). done.
Qed.
Lemma R_collects G m s T c : R m s -> collects G m T c <-> find_e T s = None /\ g_capture G = true /\ fst <$> find_d s = Some c.
Proof. intros HR. unfold collects. by rewrite (R_unserved _ _ _ HR), (R_tlsd_find _ _ HR). Qed.
Lemma serves_visible m T c : serves m T c -> visible m T = held m c T.
Proof. intros (ad & H1 & H2). unfold visible, held. by rewrite H1, H2. Qed.
Lemma held_dead m c T : ctxs m !! c = None -> held m c T = None.
Proof. intros H. unfold held, caddr. by rewrite H. Qed.

Lemma find_e_set_e T T' x c a s : find_e T s = Some (c, a) -> fst <$> find_e T' (put c (set_e T x a) s) = fst <$> find_e T' s.
Proof.
  intros Hf. apply find_ctx_in in Hf as (_ & Ha & _). unfold find_e. simpl. apply find_ctx_put_ne; [|eauto]. intros a0 ?. simplify_eq.
  apply has_e_set.
Qed.
Lemma has_e_app T T' key x a : has_e T (app_coll key T' x a) = has_e T a || bool_decide (T = T').
Proof.
  unfold has_e. simpl. rewrite <- orb_assoc. f_equal. unfold has_node, nodes at 1. simpl.
  apply eq_true_iff_eq. rewrite orb_true_iff, !bool_decide_eq_true. setoid_rewrite elem_of_list_fmap. setoid_rewrite elem_of_app.
  setoid_rewrite elem_of_list_singleton. split.
  - intros ([T1 y] & -> & [?|?]); simplify_eq; [left; eauto|by right].
  - intros [(y & -> & ?)| ->]; [eauto|]. exists (T', x). auto.
Qed.
Lemma find_e_app T T' key x c a s : swf s -> find_e T s = None -> find_d s = Some (c, a) ->
  fst <$> find_e T' (put c (app_coll key T x a) s) = if decide (T' = T) then Some c else fst <$> find_e T' s.
Proof.
  intros Hwf Hn Hd. apply find_ctx_in in Hd as (Hin & Ha & _). destruct (decide (T' = T)) as [->|Hne].
  - assert (swf (put c (app_coll key T x a) s)) as Hwf' by (eapply same_wf; [exact Hwf|by eapply same_put]).
    rewrite (find_e_first _ _ Hwf'). pose proof (find_e_first T s Hwf) as F. rewrite Hn in F. simpl in F. symmetry in F.
    simpl. assert (forall c1, c1 ∈ stack s -> hasT T c1 (put c (app_coll key T x a) s) = bool_decide (c1 = c)) as HH.
    { intros c1 H1. unfold hasT. rewrite put_lookup. destruct (decide (c1 = c)) as [->|Hc].
      - rewrite has_e_app. by rewrite !bool_decide_true, orb_true_r.
      - rewrite bool_decide_false by done. exact (proj1 (first_of_None _ _) F c1 H1). }
    rewrite (first_of_ext _ (fun c1 => bool_decide (c1 = c))) by done.
    clear -Hin. induction (stack s) as [|c1 l IH]; simpl; [by apply elem_of_nil in Hin|]. case_bool_decide as E; [by subst|].
    apply IH. apply elem_of_cons in Hin as [?|?]; congruence.
  - unfold find_e. simpl. apply find_ctx_put_ne; [|eauto]. intros a0 ?. simplify_eq. rewrite has_e_app. rewrite bool_decide_false by done.
    by rewrite orb_false_r.
Qed.

Lemma sstore_dok T x c a s : find_e T s = Some (c, a) -> dok s -> dok (put c (set_e T x a) s).
Proof.
  intros Hf Hd. pose proof (find_ctx_in _ _ _ _ _ Hf) as (_ & Ha & _). eapply dok_put; eauto; [apply set_e_tup|].
  intros Hc q Hq. apply set_e_ok in Hq as (q0 & Hq0 & ->). destruct (find_d s) as [[c1 a1]|] eqn:Hf1; simplify_eq/=.
  pose proof (find_ctx_in _ _ _ _ _ Hf1) as (_ & Ha1 & _). simplify_eq. eapply Hd; eauto.
Qed.

Lemma R_acc_ok G m s id it : R m s -> acc_ok G id it m -> sacc_ok G id it s.
Proof.
  intros HR. destruct it as [| |T tag f|]; simpl; auto. rewrite (R_unserved _ _ _ HR). intros H Hn HG c a q Hd Hq.
  pose proof (find_d_R _ _ HR) as HD. rewrite Hd in HD. destruct HD as (_ & _ & _ & Ht & d & Hd1 & Hd2). rewrite Hq in Hd2.
  destruct Hd2 as (H1 & H2 & H3 & _ & _ & H4). destruct (H Hn HG c d Ht Hd1) as [E|E].
  - by rewrite H2.
  - left. congruence.
  - right. apply nodes_types in H4. rewrite E in H4. simpl in H4. destruct (q_nodes q); [done|discriminate H4].
Qed.

Theorem load_one G onerr id it m s g :
  R m s -> id <> 0 -> usable m -> acc_ok G id it m ->
  exists m' g' s', mload G onerr id it m g = Ok (m', g') /\ R m' s' /\ usable m' /\ loaded G onerr id it m g m' g'.
Proof.
  intros HR Hid Hu Hacc. pose proof (R_wf _ _ HR) as Hwf. apply (R_usable _ _ HR) in Hu. apply (R_acc_ok _ _ _ _ _ HR) in Hacc.
  destruct (sload_cases (asserts_on G) onerr id it s g Hid Hu Hacc) as (s' & g' & E & Hq & Hc).
  destruct (sim_load G onerr id it (m, g) (s, g)) as [H1 _]; [by split|]. destruct (H1 _ E) as ([m' g1] & E' & HR' & Hg).
  simpl in E', HR', Hg. subst g1. exists m', g', s'. split; [done|]. split; [done|].
  assert (forall T, visible m T = match find_e T s with Some (c, a) => get_e T a | None => None end) as HV by (intros; by apply R_visible).
  assert (same s s' -> dok s' -> usable m' /\ ctxs m' = ctxs m /\ tlsd m' = tlsd m) as Hsame.
  { intros Hs Hd. split; [by apply (R_usable _ _ HR')|]. split; [by eapply same_ctxs|].
    rewrite (R_tlsd_find _ _ HR), (R_tlsd_find _ _ HR'). by apply same_find_d. }
  assert (forall c T a a', actxs s !! c = Some a -> actxs s' !! c = Some a' -> get_e T a' = get_e T a -> held m' c T = held m c T) as Hheld.
  { intros c T a a' Ha Ha' Ee. by rewrite (R_held _ _ _ _ T HR Ha), (R_held _ _ _ _ T HR' Ha'). }
  assert (s' = s -> usable m' /\ ctxs m' = ctxs m /\ tlsd m' = tlsd m /\ (forall c T, held m' c T = held m c T) /\
            (forall c T, serves m' T c <-> serves m T c)) as Hid_s.
  { intros ->. destruct Hsame as (? & ? & ?); [apply same_refl|done|]. split; [done|]. split; [done|]. split; [done|]. split.
    - intros c T. destruct (actxs s !! c) as [a|] eqn:Ha; [by eapply Hheld|]. 
      pose proof (R_look_none _ _ _ HR Ha). rewrite !held_dead; congruence.
    - intros c T. by rewrite (R_serves _ _ _ _ HR), (R_serves _ _ _ _ HR'). }
  destruct (ity it) as [T|] eqn:HT; cycle 1.
  { destruct Hc as [-> Ht]. destruct Hid_s as (A1 & A2 & A3 & A4 & A5); auto. split; [done|].
    split; try done; try (intros; congruence).
    - intros. rewrite A5. split; [by left|]. intros [?|[? _]]; congruence.
    - intros. subst it. done. }
  assert (forall c, serves m T c <-> fst <$> find_e T s = Some c) as HS by (intros; by apply R_serves).
  assert (forall c, collects G m T c <-> find_e T s = None /\ g_capture G = true /\ fst <$> find_d s = Some c) as HC by (intros; by apply R_collects).
  change (value (asserts_on G)) with (value G) in Hc.
  destruct (find_e T s) as [[c a]|] eqn:Hf; [|change (g_capture (asserts_on G)) with (g_capture G) in Hc; destruct (g_capture G) eqn:EG; [destruct (find_d s) as [[c a]|] eqn:Hd|]].
  - pose proof (find_ctx_in _ _ _ _ _ Hf) as (Hin & Ha & Hhas).
    assert (skipped onerr id it m <-> sskip onerr id it (get_e T a) = true) as Hsk.
    { destruct it; simpl in HT |- *; simplify_eq; try done; rewrite HV, Hf, andb_true_iff, Z.eqb_eq, (sees_key_eq _ _ Hid); done. }
    assert (forall c, ~ collects G m T c) as HNC by (intros c1; rewrite HC; intros (? & _); done).
    destruct (sskip onerr id it (get_e T a)).
    + destruct Hc as [-> ->]. destruct Hid_s as (A1 & A2 & A3 & A4 & A5); auto. split; [done|].
      split; try done; try (intros; congruence).
      * intros c1 T1 v1 ? _ [[_ Hn]|Hx]; simplify_eq; [tauto|by apply HNC in Hx].
      * intros c1 T1. rewrite A5. split; [by left|]. intros [?|[? Hx]]; simplify_eq; [done|by apply HNC in Hx].
      * intros tag ->. done.
      * intros. left. split; [by apply Hsk|done].
      * intros. simplify_eq. by apply HNC in H0.
      * intros. simplify_eq. by left.
    + destruct Hc as (v & Hv & -> & Htr). destruct Hsame as (A1 & A2 & A3); [eapply same_put; eauto; apply set_e_tup|by apply sstore_dok|].
      assert (~ skipped onerr id it m) as HNS by (rewrite Hsk; done).
      split; [done|]. split; try done; try (intros; congruence).
      * intros c1 T1 v1 HT1 Hv1 [[Hs _]|Hx]; (assert (T1 = T) as -> by congruence); [|by apply HNC in Hx]. apply HS in Hs. simpl in Hs. simplify_eq.
        rewrite HV, Hf in Hv1. assert (v1 = v) as -> by congruence.
        rewrite (R_held _ _ c1 (set_e T (id, v) a) T HR'); [|by rewrite put_lookup, decide_True]. by apply get_e_set.
      * intros c1 T1 Hn. destruct (actxs s !! c1) as [a1|] eqn:Ha1; [|pose proof (R_look_none _ _ _ HR Ha1); rewrite !held_dead; congruence].
        destruct (decide (c1 = c)) as [->|Hne].
        -- simplify_eq. eapply Hheld; [done|by rewrite put_lookup, decide_True|]. apply get_e_set_ne. intros ->. apply Hn; [done|]. left. split; [by apply HS|done].
        -- eapply Hheld; [done|rewrite put_lookup, decide_False by done; done|done].
      * intros c1 T1. rewrite (R_serves _ _ _ _ HR), (R_serves _ _ _ _ HR'). rewrite (find_e_set_e _ _ _ _ _ _ Hf). split; [by left|].
        intros [?|[? Hx]]; [done|]. simplify_eq. by apply HNC in Hx.
      * intros tag ->. done.
      * intros. right. done.
      * intros T1 ? Hn. simplify_eq. by apply (R_unserved _ _ _ HR) in Hn; rewrite Hf in Hn.
  - destruct Hc as (v & key & Hv & -> & Htr). pose proof (find_ctx_in _ _ _ _ _ Hd) as (Hin & Ha & Hhas).
    destruct Hsame as (A1 & A2 & A3); [by eapply same_put|eapply dok_put; eauto; simpl; intros; by simplify_eq|].
    assert (forall c, ~ serves m T c) as HNS by (intros c1; rewrite HS; done).
    assert (collects G m T c) as HCc by (by apply HC).
    assert (has_e T a = false) as Hno. { pose proof (find_e_first T s Hwf) as F. rewrite Hf in F. simpl in F. symmetry in F.
      pose proof (proj1 (first_of_None _ _) F c Hin) as F1. unfold hasT in F1. by rewrite Ha in F1. }
    split; [done|]. split; try done; try (intros; congruence).
    + intros c1 T1 v1 HT1 Hv1 [[Hs _]|Hx]; (assert (T1 = T) as -> by congruence); [by apply HNS in Hs|]. apply HC in Hx as (_ & _ & ?). simplify_eq/=.
      rewrite HV, Hf in Hv1. simpl in Hv1. assert (v1 = v) as -> by congruence.
      rewrite (R_held _ _ c1 (app_coll key T (id, v) a) T HR'); [|by rewrite put_lookup, decide_True]. by apply get_e_app_same.
    + intros c1 T1 Hn. destruct (actxs s !! c1) as [a1|] eqn:Ha1; [|pose proof (R_look_none _ _ _ HR Ha1); rewrite !held_dead; congruence].
      destruct (decide (c1 = c)) as [->|Hne].
      * simplify_eq. eapply Hheld; [done|by rewrite put_lookup, decide_True|]. apply get_e_app. intros ->. apply Hn; [done|]. by right.
      * eapply Hheld; [done|rewrite put_lookup, decide_False by done; done|done].
    + intros c1 T1. rewrite (R_serves _ _ _ _ HR), (R_serves _ _ _ _ HR'). rewrite (find_e_app _ _ _ _ _ _ _ Hwf Hf Hd).
      destruct (decide (T1 = T)) as [->|Hne].
      * rewrite Hf. split; [intros; simplify_eq; by right|]. intros [?|[_ Hx]]; [done|]. apply HC in Hx as (_ & _ & ?). by simplify_eq/=.
      * split; [by left|]. intros [?|[? _]]; [done|congruence].
    + intros tag ->. done.
    + intros T1 c1 ? Hs. simplify_eq. by apply HNS in Hs.
    + intros T1 ? Hn Hx. simplify_eq. by apply Hx in HCc.
  - destruct Hc as [-> Ht]. destruct Hid_s as (A1 & A2 & A3 & A4 & A5); auto. split; [done|].
    assert (forall c, ~ serves m T c) as HNS by (intros c1; rewrite HS; done).
    assert (forall c, ~ collects G m T c) as HNC by (intros c1; rewrite HC; intros (_ & _ & ?); done).
    split; try done; try (intros; congruence).
    + intros c1 T1 v1 ? _ [[Hs _]|Hx]; simplify_eq; [by apply HNS in Hs|by apply HNC in Hx].
    + intros c1 T1. rewrite A5. split; [by left|]. intros [?|[? Hx]]; simplify_eq; [done|by apply HNC in Hx].
    + intros tag ->. done.
    + intros T1 c1 ? Hs. simplify_eq. by apply HNS in Hs.
    + intros T1 c1 ? Hx. simplify_eq. by apply HNC in Hx.
    + intros T1 ? _ _. simplify_eq. destruct Ht as [->|(tag & gf & -> & ->)]; [by left|]. right. eauto.
  - destruct Hc as [-> Ht]. destruct Hid_s as (A1 & A2 & A3 & A4 & A5); auto. split; [done|].
    assert (forall c, ~ serves m T c) as HNS by (intros c1; rewrite HS; done).
    assert (forall c, ~ collects G m T c) as HNC by (intros c1; rewrite HC; intros (_ & ? & ?); done).
    split; try done; try (intros; congruence).
    + intros c1 T1 v1 ? _ [[Hs _]|Hx]; simplify_eq; [by apply HNS in Hs|by apply HNC in Hx].
    + intros c1 T1. rewrite A5. split; [by left|]. intros [?|[? Hx]]; simplify_eq; [done|by apply HNC in Hx].
    + intros tag ->. done.
    + intros T1 c1 ? Hs. simplify_eq. by apply HNS in Hs.
    + intros T1 c1 ? Hx. simplify_eq. by apply HNC in Hx.
    + intros T1 ? _ _. simplify_eq. by left.
Qed.
