(** Every run is a well-bracketed sequence of storage operations. *)
From Verif Require Export Sim.
Open Scope Z_scope.

Section wb.
Context (G : cfg).
Notation MS := (smach G).

(** ** Atomic changes *)
Inductive atom : smem -> smem -> Prop :=
| at_store s c a T id v : find_e T s = Some (c, a) -> id <> 0 -> atom s (put c (set_e T (id, v) a) s)
| at_collect s c a T id v key : find_e T s = None -> find_d s = Some (c, a) -> id <> 0 ->
    (nodes a <> [] -> exists q, ac_coll a = Some q /\ q_key q = key) ->
    atom s (put c (set_coll (Some (Coll key (nodes a ++ [(T, (id, v))]) true)) a) s)
| at_clear s c a T : c ∉ stack s -> actxs s !! c = Some a -> atom s (put c (cell_clear T a) s)
| at_coll s c a q : c ∉ stack s -> actxs s !! c = Some a -> (SDA ∈ ac_tup a \/ ac_coll a <> None) -> q_nodes q = [] ->
    atom s (put c (set_coll (Some q) a) s)
| at_set s c a T id v v0 : c ∉ stack s -> actxs s !! c = Some a -> SE T ∈ ac_tup a -> ac_cell a !! T = Some (id, v0) ->
    atom s (put c (cell_set T (id, v) a) s).

Lemma atom_stack s s' : atom s s' -> stack s' = stack s.
Proof. by destruct 1. Qed.
Lemma atoms_stack s s' : rtc atom s s' -> stack s' = stack s.
Proof. induction 1; auto. rewrite IHrtc. by apply atom_stack. Qed.

Lemma sstore_atom c a id T v s s' : find_e T s = Some (c, a) -> sstore c a id T v s = Ok s' -> atom s s'.
Proof.
  unfold sstore. intros Hf H. ok_inv H. simplify_eq. apply at_store; auto. apply sassert_ok in E. by apply nz_true.
Qed.

Lemma collq_eq (q : coll) : Coll (q_key q) (q_nodes q) (q_ok q) = q.
Proof. by destruct q. Qed.

Lemma scollect_atom id T v s s' : find_e T s = None -> scollect id T v s = Ok s' -> rtc atom s s'.
Proof.
  unfold scollect. intros Hf H. destruct (find_d s) as [[c a]|] eqn:Hd; [|simplify_eq; constructor].
  ok_inv H. apply sassert_ok, nz_true in E. apply rtc_once.
  destruct (ac_coll a) as [q|] eqn:Hq.
  - destruct (q_ok q); simplify_eq. pose proof (at_collect s c a T id v (q_key q) Hf Hd E) as HH. unfold nodes in HH. rewrite Hq in HH.
    apply HH. eauto.
  - simplify_eq. pose proof (at_collect s c a T id v id Hf Hd E) as HH. unfold nodes in HH. rewrite Hq in HH. simpl in HH. apply HH. done.
Qed.

Lemma scollect_acc_atom id T v s s' : find_e T s = None -> scollect_acc id T v s = Ok s' -> rtc atom s s'.
Proof.
  unfold scollect_acc. intros Hf H. destruct (find_d s) as [[c a]|] eqn:Hd; [|simplify_eq; constructor].
  ok_inv H. apply sassert_ok, nz_true in E. apply rtc_once.
  destruct (ac_coll a) as [q|] eqn:Hq.
  - destruct (q_key q =? id) eqn:Ek.
    + destruct (q_ok q); simplify_eq. pose proof (at_collect s c a T id v (q_key q) Hf Hd E) as HH. unfold nodes in HH. rewrite Hq in HH.
      apply HH. eauto.
    + destruct (q_nodes q) eqn:Hn; simplify_eq. pose proof (at_collect s c a T id v id Hf Hd E) as HH. unfold nodes in HH. rewrite Hq, Hn in HH.
      apply HH. done.
  - simplify_eq. pose proof (at_collect s c a T id v id Hf Hd E) as HH. unfold nodes in HH. rewrite Hq in HH. simpl in HH. apply HH. done.
Qed.

Lemma sload_atom onerr id it s g s' g' : sload G onerr id it s g = Ok (s', g') -> rtc atom s s'.
Proof.
  destruct it as [T v|T tag gf|T tag f|tag]; simpl.
  - destruct (find_e T s) as [[c a]|] eqn:Hf.
    + destruct (_ && _); intros H; [simplify_eq; constructor|]. ok_inv H. simplify_eq. apply rtc_once. by eapply sstore_atom.
    + destruct (g_capture G); intros H; [|simplify_eq; constructor]. ok_inv H. simplify_eq. by eapply scollect_atom.
  - destruct (find_e T s) as [[c a]|] eqn:Hf.
    + destruct (_ && _); intros H; [simplify_eq; constructor|]. ok_inv H. simplify_eq. apply rtc_once. by eapply sstore_atom.
    + destruct (g_capture G); intros H; [|simplify_eq; constructor]. ok_inv H. simplify_eq. by eapply scollect_atom.
  - destruct (find_e T s) as [[c a]|] eqn:Hf.
    + intros H. ok_inv H. simplify_eq. apply rtc_once. by eapply sstore_atom.
    + destruct (g_capture G); [|intros; simplify_eq; constructor]. destruct (find_d s) as [[c a]|] eqn:Hd; intros H; [|simplify_eq; constructor].
      ok_inv H. simplify_eq. by eapply scollect_acc_atom.
  - intros. simplify_eq. constructor.
Qed.

Lemma sreceive_atom id T v s b s' : sreceive G id T v s = Ok (b, s') -> rtc atom s s'.
Proof.
  unfold sreceive. destruct (find_e T s) as [[c a]|] eqn:Hf.
  - destruct (_ =? _); intros H; [simplify_eq; constructor|]. ok_inv H. simplify_eq. apply rtc_once. by eapply sstore_atom.
  - destruct (g_capture G); intros H; [|simplify_eq; constructor]. ok_inv H. simplify_eq. by eapply scollect_atom.
Qed.

Lemma sreceive_all_atom id l : forall s s', sreceive_all G id l s = Ok s' -> rtc atom s s'.
Proof.
  induction l as [|[T [k v]] l IH]; intros s s' H; simpl in H; [simplify_eq; constructor|].
  ok_inv H. destruct (negb (k =? id)); simpl in H; [eauto|]. ok_inv H. ok_inv E0. simplify_eq. destruct a1 as [b s1]. simpl in *.
  apply sreceive_atom in E1. etrans; eauto.
Qed.

Lemma sunload1_atom c id t s g s' g' : c ∉ stack s -> sunload1 G c id t s g = Ok (s', g') -> rtc atom s s'.
Proof.
  unfold sunload1. intros Hni H. destruct (actxs s !! c) as [a|] eqn:Ha; [|done]. destruct t as [T|].
  - destruct (ac_cell a !! T) as [[k v]|] eqn:Hc; [|simplify_eq; constructor]. destruct (k =? id); [|simplify_eq; constructor].
    ok_inv H. destruct a0 as [b s1]. simpl in H. pose proof (sreceive_atom _ _ _ _ _ _ E) as H1. destruct b; [|by simplify_eq].
    destruct (actxs s1 !! c) as [a'|] eqn:Ha'; [|done]. simplify_eq. eapply rtc_r; [exact H1|].
    apply at_clear; auto. by rewrite (atoms_stack _ _ H1).
  - destruct (ac_coll a) as [q|] eqn:Hq; [|simplify_eq; constructor]. ok_inv H. simplify_eq. eapply rtc_l; [|by eapply sreceive_all_atom].
    apply at_coll; auto. right. congruence.
Qed.

Lemma sunload_list_atom c id tup : forall s g s' g', c ∉ stack s -> sunload_list G c id tup s g = Ok (s', g') -> rtc atom s s'.
Proof.
  induction tup as [|t tup IH]; intros s g s' g' Hni H; simpl in H; [simplify_eq; constructor|]. ok_inv H. ok_inv H.
  destruct a0 as [s1 g1]. apply sunload1_atom in E0; auto. etrans; [exact E0|]. eapply IH; [|exact H]. by rewrite (atoms_stack _ _ E0).
Qed.

Lemma sunload_atom c id s g s' g' : sunload G c id s g = Ok (s', g') -> rtc atom s s'.
Proof.
  unfold sunload. destruct (actxs s !! c); [|done]. case_bool_decide; [done|]. by apply sunload_list_atom.
Qed.

Lemma sextract_atom c id b s l s' : sextract c id b s = Ok (l, s') -> atom s s'.
Proof.
  unfold sextract. destruct (actxs s !! c) as [a|] eqn:Ha; [|done]. destruct (has_d a) eqn:Hd; [|done]. simpl. case_bool_decide; [done|].
  intros H1. ok_inv H1. apply bool_decide_eq_true in Hd.
  destruct (ac_coll a) as [q|]; [destruct (q_key q =? id); [destruct (b && _); [done|]|]|]; simplify_eq; apply at_coll; auto.
Qed.

Lemma sset_atom c T id v s s' : sset c T id v s = Ok s' -> rtc atom s s'.
Proof.
  unfold sset. destruct (actxs s !! c) as [a|] eqn:Ha; [|done]. case_bool_decide; [done|]. case_bool_decide; [|intros; simplify_eq; constructor].
  destruct (ac_cell a !! T) as [[k v0]|] eqn:Hc; [|intros; simplify_eq; constructor]. destruct (k =? id) eqn:E; [|intros; simplify_eq; constructor].
  apply Z.eqb_eq in E. subst k. intros. simplify_eq. apply rtc_once. by eapply at_set.
Qed.
Lemma set_all_atom c id l : forall s s', set_all MS c id l s = Ok s' -> rtc atom s s'.
Proof.
  induction l as [|[T v] l IH]; intros s s' H; simpl in H; [simplify_eq; constructor|]. ok_inv H. etrans; [by eapply sset_atom|]. by apply IH.
Qed.

(** ** Well-bracketed runs
    [wb s s']: [s'] is reached from [s] by loads, unloads, and properly nested activations and lifetimes of contexts. *)
Inductive wb : smem -> smem -> Prop :=
| wb_refl s : wb s s
| wb_trans s1 s2 s3 : wb s1 s2 -> wb s2 s3 -> wb s1 s3
| wb_atom s s' : atom s s' -> wb s s'
| wb_scope tup s s2 s3 : NoDup tup -> wb (snd (snew tup s)) s2 -> sdestroy (snc s) s2 = Ok s3 -> wb s s3
| wb_act c s s1 s2 s3 : sact c s = Ok s1 -> wb s1 s2 -> sdeact c s2 = Ok s3 -> wb s s3.

Lemma wb_atoms s s' : rtc atom s s' -> wb s s'.
Proof. induction 1; [constructor|]. eapply wb_trans; [by apply wb_atom|done]. Qed.

Lemma wb_stack s s' : wb s s' -> stack s' = stack s.
Proof.
  induction 1; auto.
  - congruence.
  - by apply atom_stack.
  - unfold sdestroy in H1. destruct (actxs s2 !! snc s); [|done]. case_bool_decide; simplify_eq. simpl. rewrite IHwb. done.
  - unfold sact in H. destruct (actxs s !! c); [|done]. case_bool_decide; [done|]. destruct (nodes a); [|done]. simplify_eq. simpl in IHwb.
    unfold sdeact in H1. rewrite IHwb in H1. rewrite bool_decide_true in H1 by done. by simplify_eq.
Qed.

Lemma sact_stack c s s' : sact c s = Ok s' -> stack s' = c :: stack s /\ actxs s' = actxs s /\ snc s' = snc s.
Proof.
  unfold sact. destruct (actxs s !! c); [|done]. case_bool_decide; [done|]. destruct (nodes a); [|done]. by intros ?; simplify_eq.
Qed.
Lemma sdestroy_inv c s s' : sdestroy c s = Ok s' -> c ∉ stack s /\ s' = SMem (stack s) (delete c (actxs s)) (snc s).
Proof. unfold sdestroy. destruct (actxs s !! c); [|done]. case_bool_decide; [done|]. by intros ?; simplify_eq. Qed.
Lemma sdeact_inv c s s' : sdeact c s = Ok s' -> stack s = c :: stack s' /\ actxs s' = actxs s /\ snc s' = snc s.
Proof. unfold sdeact. destruct (stack s); [done|]. case_bool_decide; [|done]. by intros ?; simplify_eq. Qed.

Lemma sisact_inv c s b : sisact c s = Ok b -> b = bool_decide (c ∈ stack s).
Proof. unfold sisact. destruct (actxs s !! c); [|done]. by intros ?; simplify_eq. Qed.

Lemma on_mem_inv (f : smem -> res smem) (s s' : st MS) : on_mem MS f s = Ok s' -> f (fst s) = Ok (fst s') /\ snd s' = snd s.
Proof. unfold on_mem. intros H. ok_inv H. by simplify_eq. Qed.

Lemma wb_load_items onerr id its : forall (s s' : st MS), load_items MS onerr id its s = Ok s' -> wb (fst s) (fst s').
Proof.
  induction its as [|it its IH]; intros s s' H; simpl in H; [simplify_eq; constructor|].
  ok_inv H. eapply wb_trans; [|by apply IH]. destruct s, a. apply wb_atoms. eapply sload_atom. exact E.
Qed.

Lemma wb_id_load id its (s s' : st MS) : id_load MS id its s = Ok s' -> wb (fst s) (fst s').
Proof. unfold id_load. destruct (id =? 0); intros; [simplify_eq; constructor|]. by eapply wb_load_items. Qed.

Lemma wb_import cat v (s : st MS) i s' : import_ec G MS cat v s = Ok (i, s') -> wb (fst s) (fst s').
Proof.
  unfold import_ec. destruct (v =? 0); [intros; simplify_eq; constructor|]. destruct (cat =? LEAFCAT)%nat.
  - intros H. ok_inv H. simplify_eq. constructor.
  - unfold gnew. cbv beta zeta iota. intros H. ok_inv H. simplify_eq. destruct s'. apply wb_atoms. eapply sload_atom. exact E.
Qed.

Lemma wb_err_id r (s : st MS) i s' : err_id_of G MS r s = Ok (i, s') -> wb (fst s) (fst s').
Proof. destruct r; simpl; intros; simplify_eq; try apply wb_refl. by eapply wb_import. Qed.

Lemma wb_unload_ret r (s : st MS) o s' : unload_ret MS r s = Ok (o, s') -> wb (fst s) (fst s').
Proof.
  destruct r; simpl; intros H; simplify_eq; try apply wb_refl. ok_inv H. simplify_eq. unfold scap_unload in E. ok_inv E. simplify_eq.
  apply wb_atoms. by eapply sreceive_all_atom.
Qed.

Lemma wb_e2r cls x (s : st MS) o s' : e2r G MS cls x s = Ok (o, s') -> wb (fst s) (fst s').
Proof.
  unfold e2r, gnew. cbv beta zeta iota. intros H. ok_inv H. simplify_eq. apply wb_id_load in E. exact E.
Qed.

Lemma wb_munload c id (s s' : st MS) : m_unload MS c id (fst s) (snd s) = Ok s' -> wb (fst s) (fst s').
Proof. destruct s, s'. intros H. apply wb_atoms. eapply sunload_atom. exact H. Qed.

(** What happens inside an activation, and inside the life of a context, ends with these: *)
Lemma leave_inv c o (s : st MS) o' s' : leave MS c o s = Ok (o', s') -> o' = o /\ sdestroy c (fst s) = Ok (fst s') /\ snd s' = snd s.
Proof. unfold leave. intros H. ok_inv H. simplify_eq. apply on_mem_inv in E as [? ?]. auto. Qed.

Lemma deact_leave_inv c o (s : st MS) o' s' : deact_leave MS c o s = Ok (o', s') ->
  o' = o /\ exists s1, sdeact c (fst s) = Ok s1 /\ sdestroy c s1 = Ok (fst s') /\ snd s' = snd s.
Proof.
  unfold deact_leave. intros H. ok_inv H. apply on_mem_inv in E as [E1 E2]. apply leave_inv in H as (-> & ? & ?).
  split; auto. exists (fst a). rewrite <- E2. auto.
Qed.

Lemma exn_info_inv c x (s : st MS) ei s' : exn_info MS c x s = Ok (ei, s') ->
  sdeact c (fst s) = Ok (fst s') /\ exists ex loc, catch_info x (snd s) = (ei_id ei, ex, snd s') /\ ei = EInfo (ei_id ei) ex loc /\
  sget c T_LOC (ei_id ei) (fst s') = Ok loc.
Proof.
  unfold exn_info. intros H. ok_inv H. apply on_mem_inv in E as [E1 E2]. destruct s as [s g0], a as [a g1]. simpl in E2. subst g1.
  simpl in H |- *. destruct (catch_info x g0) as [[id ex] g]. ok_inv H. simplify_eq. simpl. split; auto. exists ex, a0. auto.
Qed.

Lemma res_info_inl c r (s : st MS) ei r1 s' : res_info G MS c r s = Ok (inl (ei, r1, s')) ->
  exists s1 i s2 loc, unload_ret MS r s = Ok (ORet r1, s1) /\ err_id_of G MS r1 s1 = Ok (i, s2) /\
  sdeact c (fst s2) = Ok (fst s') /\ snd s' = snd s2 /\ sget c T_LOC i (fst s') = Ok loc /\ ei = EInfo i None loc.
Proof.
  unfold res_info. intros H. ok_inv H. destruct a as [[r0|x] s1]; [|done]. ok_inv H. destruct a as [i s2]. ok_inv H. ok_inv H.
  simplify_eq. apply on_mem_inv in E1 as [? ?]. exists s1, i, s2, a0. auto 10.
Qed.

Lemma res_info_inr c r (s : st MS) x s' : res_info G MS c r s = Ok (inr (x, s')) -> unload_ret MS r s = Ok (OThrow x, s').
Proof.
  unfold res_info. intros H. ok_inv H. destruct a as [[r0|y] s1]; [|by simplify_eq]. ok_inv H. ok_inv H. ok_inv H. done.
Qed.

Lemma unload_rethrow_inv c id x (s : st MS) o s' : unload_rethrow MS c id x s = Ok (o, s') ->
  o = OThrow x /\ m_unload MS c id (fst s) (snd s) = Ok s'.
Proof. unfold unload_rethrow. intros H. ok_inv H. by simplify_eq. Qed.

Lemma wb_scope' tup (s s2 s3 : smem) c m1 : NoDup tup -> snew tup s = (c, m1) -> wb m1 s2 ->
  sdestroy c s2 = Ok s3 -> wb s s3.
Proof.
  intros Hnd Hn Hw Hd. unfold snew in Hn. injection Hn as <- <-. by eapply (wb_scope tup).
Qed.

Lemma ths_end_inv c o (s : st MS) o' s' : ths_end G MS c o s = Ok (o', s') ->
  o' = o /\ exists s2 : st MS, wb (fst s) (fst s2) /\ sdestroy c (fst s2) = Ok (fst s') /\ snd s' = snd s2.
Proof.
  unfold ths_end. destruct o as [r|x].
  - destruct (is_val r).
    + intros H. apply leave_inv in H as (-> & ? & ?). split; auto. exists s. repeat split; auto. constructor.
    + intros H. ok_inv H. destruct a as [i s1]. ok_inv H. apply leave_inv in H as (-> & ? & ?). split; auto. exists a. repeat split; auto.
      eapply wb_trans; [by eapply wb_err_id|]. by eapply wb_munload.
  - intros H. apply leave_inv in H as (-> & ? & ?). split; auto. exists s. repeat split; auto. constructor.
Qed.
Lemma tha_end_inv c o (s : st MS) o' s' : tha_end MS c o s = Ok (o', s') ->
  o' = o /\ sdestroy c (fst s) = Ok (fst s') /\ snd s' = snd s.
Proof.
  unfold tha_end. destruct o as [r|x]; [destruct (is_val r); [|done]|]; apply leave_inv.
Qed.

Theorem eval_wb :
  (forall p caught (s : st MS) o s', eval G MS caught p s = Ok (o, s') -> wb (fst s) (fst s')) /\
  (forall hs caught c ei d (s : st MS) o s', (forall s o s', d s = Ok (o, s') -> wb (fst s) (fst s')) ->
     evalH G MS caught hs c ei d s = Ok (o, s') -> wb (fst s) (fst s')).
Proof.
  apply prog_handlers_ind.
  - intros r caught s o s' H. cbn [eval] in H. simplify_eq. constructor.
  - intros p IH k IHk caught s o s' H. cbn [eval] in H. ok_inv H. destruct a as [[r|x] s1].
    + eapply wb_trans; eauto.
    + simplify_eq. eauto.
  - intros z k IH caught s o s' H. cbn [eval] in H. apply IH in H. exact H.
  - intros its k IH caught s o s' H. cbn [eval] in H. unfold gnew in H. cbv beta zeta iota in H. ok_inv H.
    apply wb_id_load in E. eapply wb_trans; eauto.
  - intros id its k IH caught s o s' H. cbn [eval] in H. ok_inv H. eapply wb_trans; [by eapply wb_id_load|]. eauto.
  - intros k IH caught s o s' H. cbn [eval] in H. eauto.
  - intros oid x its caught s o s' H. cbn [eval] in H.
    assert (exists id g, (let! s1 := id_load MS id its (fst s, g) in Ok (throw_leaf MS id x s1)) = Ok (o, s')) as (id & g & H').
    { destruct oid; [eauto|]. unfold gnew in H. eauto. }
    clear H. ok_inv H'. unfold throw_leaf in H'. injection H' as _ <-. apply wb_id_load in E. exact E.
  - intros x caught s o s' H. cbn [eval] in H. unfold throw_plain in H. injection H as _ <-. constructor.
  - intros caught s o s' H. cbn [eval] in H. destruct caught; simplify_eq. constructor.
  - intros p IH h IHh caught s o s' H. cbn [eval] in H. ok_inv H. destruct a as [[r|x] s1]; [simplify_eq; eauto|].
    ok_inv H. destruct a as [o2 s2]. eapply wb_trans; [eauto|]. apply IHh in E0.
    destruct o2 as [r|y]; [simplify_eq; exact E0|]. destruct (x_oid y =? x_oid x)%nat; simplify_eq; exact E0.
  - intros its p IH caught s o s' H. cbn [eval] in H. ok_inv H. destruct a as [o1 s1]. eapply wb_trans; [eauto|].
    match type of H with match ?x with _ => _ end = _ => destruct x as [i g] end.
    destruct (i =? 0); [simplify_eq; constructor|]. ok_inv H. simplify_eq. apply wb_load_items in E0. exact E0.
  - intros k IH caught s o s' H. cbn [eval] in H. eauto.
  - intros m k IH caught s o s' H. cbn [eval] in H. eauto.
  - intros m k IH caught s o s' H. cbn [eval] in H. unfold gnew in H. destruct (negb _); [eauto|]. cbv beta zeta iota in H.
    apply IH in H. exact H.
  - (* PTHA *) intros p IH hs IHh caught s o s' H. cbn [eval] in H.
    destruct (m_new MS (deduce G hs) (fst s)) as [c m1] eqn:Hnew. ok_inv H. apply on_mem_inv in E as [Eact Eg]. simpl in Eact, Eg.
    ok_inv H. destruct a0 as [o1 s1]. ok_inv H. destruct a0 as [o2 s2].
    assert (wb (fst a) (fst s2)) as Hbody.
    { eapply wb_trans; [eauto|]. destruct o1; [by eapply wb_unload_ret|]. simplify_eq. constructor. }
    destruct o2 as [r|x].
    + destruct (is_val r).
      * apply deact_leave_inv in H as (-> & s3 & Hd & Hl & Hg).
        eapply (wb_scope' (deduce G hs)); eauto; [apply deduce_list_nodup|]. by eapply wb_act.
      * ok_inv H. destruct a0 as [[[ei r1] s3]|[x s3]].
        -- apply res_info_inl in E1 as (s4 & i & s5 & loc & H1 & H2 & H3 & H4 & H5 & ->).
           ok_inv H. destruct a0 as [o6 s6]. apply tha_end_inv in H as (-> & Hl & Hg).
           eapply (wb_scope' (deduce G hs)); eauto; [apply deduce_list_nodup|].
           eapply wb_trans; [|eapply IHh; [|exact E1]; done].
           eapply wb_act; [eauto| |eauto].
           eapply wb_trans; [eauto|]. eapply wb_trans; [by eapply wb_unload_ret|]. by eapply wb_err_id.
        -- apply res_info_inr in E1. apply deact_leave_inv in H as (-> & s4 & Hd & Hl & Hg).
           eapply (wb_scope' (deduce G hs)); eauto; [apply deduce_list_nodup|].
           eapply wb_act; [eauto| |eauto]. eapply wb_trans; [eauto|]. by eapply wb_unload_ret.
    + ok_inv H. destruct a0 as [ei s3]. apply exn_info_inv in E1 as (Hd & ex & loc & Hc & Hei & Hget).
      ok_inv H. destruct a0 as [o6 s6]. apply tha_end_inv in H as (-> & Hl & Hg).
      eapply (wb_scope' (deduce G hs)); eauto; [apply deduce_list_nodup|].
      eapply wb_trans; [|eapply IHh; [|exact E1]].
      * by eapply wb_act.
      * intros s7 o7 s8 H7. apply unload_rethrow_inv in H7 as [-> ?]. by eapply wb_munload.
  - (* PTHS *) intros p IH hs IHh caught s o s' H. cbn [eval] in H.
    destruct (m_new MS (deduce G hs) (fst s)) as [c m1] eqn:Hnew. ok_inv H. apply on_mem_inv in E as [Eact Eg]. simpl in Eact, Eg.
    ok_inv H. destruct a0 as [o1 s1]. ok_inv H. destruct a0 as [o2 s2].
    assert (wb (fst a) (fst s2)) as Hbody.
    { eapply wb_trans; [eauto|]. destruct o1; [by eapply wb_unload_ret|]. simplify_eq. constructor. }
    destruct o2 as [r|x].
    + destruct (is_val r).
      * apply deact_leave_inv in H as (-> & s3 & Hd & Hl & Hg).
        eapply (wb_scope' (deduce G hs)); eauto; [apply deduce_list_nodup|]. by eapply wb_act.
      * ok_inv H. destruct a0 as [[[ei r1] s3]|[x s3]].
        -- apply res_info_inl in E1 as (s4 & i & s5 & loc & H1 & H2 & H3 & H4 & H5 & ->).
           ok_inv H. destruct a0 as [o6 s6]. apply ths_end_inv in H as (-> & s7 & Hw & Hl & Hg).
           eapply (wb_scope' (deduce G hs)); eauto; [apply deduce_list_nodup|].
           eapply wb_trans; [|exact Hw].
           eapply wb_trans; [|eapply IHh; [|exact E1]; simpl; intros; simplify_eq; constructor].
           eapply wb_act; [eauto| |eauto].
           eapply wb_trans; [eauto|]. eapply wb_trans; [by eapply wb_unload_ret|]. by eapply wb_err_id.
        -- apply res_info_inr in E1. apply deact_leave_inv in H as (-> & s4 & Hd & Hl & Hg).
           eapply (wb_scope' (deduce G hs)); eauto; [apply deduce_list_nodup|].
           eapply wb_act; [eauto| |eauto]. eapply wb_trans; [eauto|]. by eapply wb_unload_ret.
    + ok_inv H. destruct a0 as [ei s3]. apply exn_info_inv in E1 as (Hd & ex & loc & Hc & Hei & Hget).
      ok_inv H. destruct a0 as [o6 s6]. apply ths_end_inv in H as (-> & s7 & Hw & Hl & Hg).
      eapply (wb_scope' (deduce G hs)); eauto; [apply deduce_list_nodup|].
      eapply wb_trans; [|exact Hw]. eapply wb_trans; [|eapply IHh; [|exact E1]].
      * by eapply wb_act.
      * intros s8 o7 s9 H7. apply unload_rethrow_inv in H7 as [-> ?]. by eapply wb_munload.
  - (* PTC *) intros p IH hs IHh caught s o s' H. cbn [eval] in H.
    destruct (m_new MS (deduce G hs) (fst s)) as [c m1] eqn:Hnew. ok_inv H. apply on_mem_inv in E as [Eact Eg]. simpl in Eact, Eg.
    ok_inv H. destruct a0 as [o2 s2]. pose proof (IH _ _ _ _ E) as Hbody.
    destruct o2 as [r|x].
    + apply deact_leave_inv in H as (-> & s3 & Hd & Hl & Hg).
      eapply (wb_scope' (deduce G hs)); eauto; [apply deduce_list_nodup|]. by eapply wb_act.
    + ok_inv H. destruct a0 as [ei s3]. apply exn_info_inv in E0 as (Hd & ex & loc & Hc & Hei & Hget).
      ok_inv H. destruct a0 as [o6 s6]. apply leave_inv in H as (-> & Hl & Hg).
      eapply (wb_scope' (deduce G hs)); eauto; [apply deduce_list_nodup|].
      eapply wb_trans; [|eapply IHh; [|exact E0]].
      * by eapply wb_act.
      * intros s8 o7 s9 H7. apply unload_rethrow_inv in H7 as [-> ?]. by eapply wb_munload.
  - (* PCapture *) intros isvoid p IH caught s o s' H. cbn [eval] in H. destruct (negb (g_capture G)); [done|].
    destruct (m_new MS [SDA] (fst s)) as [c m1] eqn:Hnew. ok_inv H. apply on_mem_inv in E as [Eact Eg]. simpl in Eact, Eg.
    ok_inv H. destruct a0 as [o2 s2]. pose proof (IH _ _ _ _ E) as Hbody.
    assert (forall id l b ex g (s3 : st MS), on_mem MS (m_deact MS c) s2 = Ok s3 -> m_extract MS c id b (fst s3) = Ok l ->
      leave MS c ex (snd l, g) = Ok (o, s') -> wb (fst s) (fst s')) as Hfin.
    { intros id [l m5] b ex g s3 Hd He Hl. apply on_mem_inv in Hd as [Hd Hg]. apply leave_inv in Hl as (-> & Hl & Hg'). simpl in Hl, Hg'.
      eapply (wb_scope' [SDA]); eauto; [apply NoDup_singleton|].
      eapply wb_trans; [by eapply wb_act|]. apply wb_atom. eapply sextract_atom. exact He. }
    destruct o2 as [r|x].
    + destruct isvoid.
      * destruct (is_val r); [|done]. ok_inv H. simplify_eq. apply on_mem_inv in E0 as [E0 _]. exfalso.
        apply wb_stack in Hbody. apply sact_stack in Eact as [Eact _]. apply sdestroy_inv in E0 as [E0 _].
        apply E0. rewrite (eq_trans Hbody Eact). constructor.
      * destruct r as [z|id|id l x|cat v]; [|ok_inv H; ok_inv H; eauto|ok_inv H; ok_inv H; eauto|done].
        apply deact_leave_inv in H as (-> & s3 & Hd & Hl & Hg).
        eapply (wb_scope' [SDA]); eauto; [apply NoDup_singleton|]. by eapply wb_act.
    + ok_inv H. match type of H with context [catch_info ?a ?b] => destruct (catch_info a b) as [[id ex] g] end. ok_inv H. eauto.
  - intros r k IH caught s o s' H. cbn [eval] in H. ok_inv H. destruct a as [[r1|x] s1].
    + eapply wb_trans; [by eapply wb_unload_ret|]. eauto.
    + simplify_eq. by eapply wb_unload_ret.
  - intros r k IH caught s o s' H. cbn [eval] in H. destruct r as [z|id|id l x|cat v]; [eauto|ok_inv H|ok_inv H|done];
      destruct a as [[r1|y] s1]; apply wb_unload_ret in E; unfold throw_leaf in H; simplify_eq; exact E.
  - intros r k IH caught s o s' H. cbn [eval] in H. ok_inv H. destruct a as [i s1]. eapply wb_trans; [by eapply wb_err_id|]. eauto.
  - intros cls p IH caught s o s' H. cbn [eval] in H. ok_inv H. destruct a as [[r1|x] s1].
    + simplify_eq. eauto.
    + eapply wb_trans; [eauto|]. by eapply wb_e2r.
  - intros cat v k IH caught s o s' H. cbn [eval] in H. ok_inv H. destruct a as [i s1]. eapply wb_trans; [by eapply wb_import|]. eauto.
  - intros tup k IH caught s o s' H. cbn [eval] in H. destruct (m_new MS (deduce_list G tup) (fst s)) as [c m1] eqn:Hnew.
    ok_inv H. destruct a as [o1 s1]. apply leave_inv in H as (-> & Hl & Hg).
    eapply (wb_scope' (deduce_list G tup)); eauto; [apply deduce_list_nodup|]. apply IH in E. exact E.
  - intros c p IH caught s o s' H. cbn [eval] in H. ok_inv H. destruct a; [eauto|]. ok_inv H. ok_inv H. ok_inv H. destruct a0 as [o1 s1].
    apply on_mem_inv in E0 as [E0 _]. pose proof (IH _ _ _ _ E1) as Hb. simpl in H, E2. pose proof (wb_stack _ _ Hb) as Hst. 
    assert (a1 = true) as ->.
    { apply sact_stack in E0 as [E0 _]. apply sisact_inv in E2. subst a1. apply bool_decide_eq_true. 
      assert (forall l, l = c :: stack (fst s) -> c ∈ l) as Hx by (intros ? ->; constructor). apply Hx. exact (eq_trans Hst E0). }
    ok_inv H. simplify_eq. apply on_mem_inv in E3 as [E3 _]. by eapply wb_act.
  - intros c id k IH caught s o s' H. cbn [eval] in H. ok_inv H. eapply wb_trans; [by eapply wb_munload|]. eauto.
  - intros c id hs IH caught s o s' H. cbn [eval] in H. ok_inv H. ok_inv H. ok_inv H. eapply IH; [|exact H]. done.
  - intros caught c ei d s o s' Hd H. cbn [evalH] in H. eauto.
  - intros args w b IHb rest IH caught c ei d s o s' Hd H. cbn [evalH] in H. ok_inv H. destruct a; [|eauto]. ok_inv H.
    apply IHb in H. eapply wb_trans; [|exact H]. apply wb_atoms. eapply set_all_atom. exact E0.
  - intros hs IH rest IHr caught c ei d s o s' Hd H. cbn [evalH] in H. eapply IH; [|exact H]. intros. eapply IHr; eauto.
Qed.
End wb.
