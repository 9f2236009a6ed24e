(** Contexts: construction, activation, deactivation, destruction, looking into them. *)
From Verif Require Export SimLoad.
Open Scope Z_scope.

Section sim.
Context (G : cfg).

(** ** Construction *)
Lemma new_slots_spec c tup m :
  let m' := new_slots G c tup m in
  (forall ad, hp m' !! ad = match ad with
     | inl (c', T) => if decide (c' = c /\ SE T ∈ tup) then Some (ESlot 0 (g_def G T) None) else hp m !! ad
     | inr _ => hp m !! ad end) /\
  (forall c', dhp m' !! c' = if decide (c' = c /\ SDA ∈ tup) then Some (DSlot 0 [] true None) else dhp m !! c') /\
  tls m' = tls m /\ tlsd m' = tlsd m /\ ctxs m' = ctxs m /\ nc m' = nc m /\ na m' = na m.
Proof.
  revert m. induction tup as [|t tup IH]; intros m; simpl.
  - repeat split; auto.
    + intros [[c' T]|n]; auto. rewrite decide_False; auto. intros [_ H]. inversion H.
    + intros c'. rewrite decide_False; auto. intros [_ H]. inversion H.
  - destruct t as [T|].
    + destruct (IH (set_hp (<[inl (c, T):=ESlot 0 (g_def G T) None]> (hp m)) m)) as (H1 & H2 & H3).
      split; [|split; [|exact H3]].
      * intros [[c' T']|n]; rewrite H1; simpl.
        -- destruct (decide (c' = c /\ SE T' ∈ tup)) as [[-> Hin]|Hno].
           ++ rewrite decide_True; auto. split; auto. by constructor.
           ++ destruct (decide (c' = c /\ T' = T)) as [[-> ->]|Hne].
              ** rewrite lookup_insert. rewrite decide_True; auto. split; auto. constructor.
              ** rewrite lookup_insert_ne by naive_solver. rewrite decide_False; auto.
                 intros [-> Hin]. apply elem_of_cons in Hin as [?|?]; naive_solver.
        -- by rewrite lookup_insert_ne.
      * intros c'. rewrite H2. simpl. destruct (decide (c' = c /\ SDA ∈ tup)) as [[-> Hin]|Hno].
        -- rewrite decide_True; auto. split; auto. by constructor.
        -- rewrite decide_False; auto. intros [-> Hin]. apply elem_of_cons in Hin as [?|?]; naive_solver.
    + destruct (IH (set_dhp (<[c:=DSlot 0 [] true None]> (dhp m)) m)) as (H1 & H2 & H3).
      split; [|split; [|exact H3]].
      * intros [[c' T']|n]; rewrite H1; simpl; auto.
        destruct (decide (c' = c /\ SE T' ∈ tup)) as [[-> Hin]|Hno].
        -- rewrite decide_True; auto. split; auto. by constructor.
        -- rewrite decide_False; auto. intros [-> Hin]. apply elem_of_cons in Hin as [?|?]; naive_solver.
      * intros c'. rewrite H2. simpl. destruct (decide (c' = c /\ SDA ∈ tup)) as [[-> Hin]|Hno].
        -- rewrite decide_True; auto. split; auto. by constructor.
        -- destruct (decide (c' = c)) as [->|Hne].
           ++ rewrite lookup_insert. rewrite decide_True; auto. split; auto. constructor.
           ++ rewrite lookup_insert_ne by done. rewrite decide_False; auto. naive_solver.
Qed.

Lemma new_R tup m s : NoDup tup -> R m s ->
  fst (mnew G tup m) = fst (snew tup s) /\ R (snd (mnew G tup m)) (snd (snew tup s)).
Proof.
  intros Hnd HR. unfold mnew, snew. simpl. rewrite (R_nc _ _ HR). split; [done|].
  set (c := snc s). pose proof (new_slots_spec c tup m) as (H1 & H2 & H3 & H4 & H5 & H6 & H7).
  set (m1 := new_slots G c tup m) in *.
  assert (actxs s !! c = None) as Hnew.
  { destruct (actxs s !! c) eqn:E; auto. apply (R_lt _ _ HR) in E. unfold c in E. lia. }
  pose proof (R_look_none _ _ _ HR Hnew) as HnewC.
  assert (dhp m !! c = None) as HnewD.
  { destruct (dhp m !! c) eqn:E; auto. apply (R_dom _ _ HR) in E. destruct E. congruence. }
  assert (c ∉ stack s) as Hni.
  { intros H. apply (R_in _ _ HR) in H as [? ?]. congruence. }
  match goal with |- R ?x _ => set (m' := x) end.
  assert (forall c', c' <> c -> dhp m' !! c' = dhp m !! c') as Hdhp.
  { intros c' Hne. simpl. rewrite H2. rewrite decide_False; auto. naive_solver. }
  assert (forall c' T, c' <> c -> caddr m' c' T = caddr m c' T) as Hca.
  { intros c' T Hne. unfold caddr. rewrite (Hdhp c' Hne). simpl. by rewrite lookup_insert_ne. }
  assert (forall c', c' <> c -> hasd m' c' = hasd m c') as Hhd.
  { intros c' Hne. unfold hasd. simpl. by rewrite lookup_insert_ne by done. }
  assert (forall ad, (forall T, ad <> inl (c, T)) -> hp m' !! ad = hp m !! ad) as Hhp.
  { intros ad Hne. simpl. rewrite H1. destruct ad as [[c' T]|]; auto. rewrite decide_False; auto. naive_solver. }
  assert (forall c' d, dhp m' !! c' = Some d -> (c' <> c /\ dhp m !! c' = Some d) \/ (c' = c /\ d_nodes d = [])) as Hback.
  { intros c' d Hd. destruct (decide (c' = c)) as [->|Hne].
    - right. simpl in Hd. rewrite H2 in Hd. destruct (decide _); [by simplify_eq|congruence].
    - left. by rewrite Hdhp in Hd. }
  pose proof HR as HR'. destruct HR'. constructor; simpl.
  - done.
  - intros c'. destruct (decide (c' = c)) as [->|Hne].
    + rewrite !lookup_insert. constructor; simpl; auto.
      * by rewrite bool_decide_false.
      * intros T HT. rewrite H1. rewrite decide_True by auto. eexists. split; [done|]. done.
      * intros HT. rewrite H2. rewrite decide_True by auto. eexists. split; [done|]. done.
      * intros HT. rewrite H2. rewrite decide_False by naive_solver. auto.
      * intros T HT. done.
    + rewrite !lookup_insert_ne by done. specialize (R_ctx c').
      destruct (ctxs m !! c') as [k'|], (actxs s !! c') as [a0|]; simpl in *; auto.
      eapply ctxR_ext; [..|exact R_ctx]; auto; simpl.
      * intros T sl _ Hsl. exists sl. rewrite Hhp by congruence. auto.
      * intros d Hd. exists d. rewrite (Hdhp c' Hne). repeat split; auto.
        intros n _ sl Hsl. rewrite Hhp by done. eauto.
      * intros. by rewrite (Hdhp c' Hne).
  - intros c' d Hd. destruct (Hback _ _ Hd) as [[Hne Hd']|[-> _]].
    + rewrite lookup_insert_ne by done. eauto.
    + rewrite lookup_insert. eauto.
  - intros c' a0. destruct (decide (c' = c)) as [->|Hne]; [lia|]. rewrite lookup_insert_ne by done.
    intros H. apply R_lt in H. lia.
  - done.
  - intros c' Hc'. destruct (decide (c' = c)) as [->|Hne]; [done|]. rewrite lookup_insert_ne by done. eauto.
  - intros T. rewrite H3, R_tls. apply chead_ext. intros c' Hc'. symmetry. apply Hca. intros ->. done.
  - intros T. eapply linked_ext; [..|apply R_lnk].
    + intros c' Hc'. symmetry. apply Hca. intros ->. done.
    + intros c' ad sl Hc' Had Hsl. exists sl. split; auto. rewrite Hhp; auto. intros T' ->.
      destruct (R_in c' Hc') as [a0 Ha0]. destruct (R_look _ _ _ _ HR Ha0) as (k' & Hk' & _).
      destruct (caddr_cases _ _ _ _ _ Hk' Had) as [[_ [= -> ->]]|[_ (d' & n' & Hd' & Hn' & ?)]]; [|done]. congruence.
  - rewrite H4, R_tlsd. apply dhead_ext. intros c' Hc'. symmetry. apply Hhd. intros ->. done.
  - eapply dlinked_ext; [..|exact R_dlnk].
    + intros c' Hc'. symmetry. apply Hhd. intros ->. done.
    + intros c' d Hc' Hd. exists d. rewrite Hdhp; auto. intros ->. done.
  - intros c1 c2 d1 d2 n Hd1 Hd2 Hn1 Hn2.
    destruct (Hback _ _ Hd1) as [[N1 Hd1']|[-> E]]; [|rewrite E in Hn1; inversion Hn1].
    destruct (Hback _ _ Hd2) as [[N2 Hd2']|[-> E]]; [|rewrite E in Hn2; inversion Hn2]. eauto.
  - intros c1 d1 n Hd1 Hn1. destruct (Hback _ _ Hd1) as [[N1 Hd1']|[-> E]]; [|rewrite E in Hn1; inversion Hn1].
    rewrite H7. eauto.
Qed.

(** ** Activation *)
Lemma activate_spec c tup m : NoDup tup ->
  (forall T, SE T ∈ tup -> is_Some (hp m !! inl (c, T))) -> (SDA ∈ tup -> is_Some (dhp m !! c)) ->
  exists m', for_tup (sty_activate c) tup m = Ok m' /\
  (forall ad, hp m' !! ad = match ad with
     | inl (c', T) => if decide (c' = c /\ SE T ∈ tup)
                      then (fun sl => ESlot (e_key sl) (e_val sl) (tls m !! T)) <$> hp m !! ad else hp m !! ad
     | inr _ => hp m !! ad end) /\
  (forall c', dhp m' !! c' = if decide (c' = c /\ SDA ∈ tup)
     then (fun d => DSlot (d_key d) (d_nodes d) (d_last d) (tlsd m)) <$> dhp m !! c' else dhp m !! c') /\
  (forall T, tls m' !! T = if decide (SE T ∈ tup) then Some (inl (c, T)) else tls m !! T) /\
  tlsd m' = (if decide (SDA ∈ tup) then Some c else tlsd m) /\ ctxs m' = ctxs m /\ nc m' = nc m /\ na m' = na m.
Proof.
  revert m. induction tup as [|t tup IH]; intros m Hnd He Hd; simpl.
  - exists m. repeat split; auto.
    + intros [[c' T]|n]; auto. rewrite decide_False; auto. intros [_ H]. inversion H.
    + intros c'. rewrite decide_False; auto. intros [_ H]. inversion H.
  - apply NoDup_cons in Hnd as [Hni Hnd]. destruct t as [T|]; simpl.
    + destruct (He T ltac:(constructor)) as [sl Hsl]. unfold slot_activate. rewrite Hsl. simpl.
      match goal with |- context [for_tup _ _ ?x] => set (m1 := x) end.
      destruct (IH m1 Hnd) as (m' & Hm' & H1 & H2 & H3 & H4 & H5 & H6 & H7).
      { intros T' HT'. simpl. destruct (decide (T' = T)) as [->|]; [done|]. rewrite lookup_insert_ne by congruence.
        apply He. by constructor. }
      { intros HD. apply Hd. by constructor. }
      exists m'. split; [done|]. split; [|split; [|split; [|split; [|auto]]]].
      * intros [[c' T']|n]; rewrite H1; simpl; [|by rewrite lookup_insert_ne].
        destruct (decide (c' = c /\ SE T' ∈ tup)) as [[-> Hin]|Hno].
        -- rewrite (decide_True (P := c = c /\ SE T' ∈ SE T :: tup)) by (split; auto; by constructor).
           rewrite lookup_insert_ne by congruence. rewrite lookup_partial_alter_ne by congruence. done.
        -- destruct (decide (c' = c /\ T' = T)) as [[-> ->]|Hne].
           ++ rewrite lookup_insert. rewrite decide_True by (split; auto; constructor). by rewrite Hsl.
           ++ rewrite lookup_insert_ne by naive_solver. rewrite decide_False; auto.
              intros [-> Hin]. apply elem_of_cons in Hin as [?|?]; naive_solver.
      * intros c'. rewrite H2. simpl. destruct (decide (c' = c /\ SDA ∈ tup)) as [[-> Hin]|Hno].
        -- rewrite decide_True; auto. split; auto. by constructor.
        -- rewrite decide_False; auto. intros [-> Hin]. apply elem_of_cons in Hin as [?|?]; naive_solver.
      * intros T'. rewrite H3. simpl. destruct (decide (SE T' ∈ tup)) as [Hin|Hno].
        -- rewrite decide_True; auto. by constructor.
        -- destruct (decide (T' = T)) as [->|].
           ++ rewrite lookup_partial_alter. rewrite decide_True; auto. constructor.
           ++ rewrite lookup_partial_alter_ne by done. rewrite decide_False; auto.
              intros Hin. apply elem_of_cons in Hin as [?|?]; naive_solver.
      * rewrite H4. simpl. destruct (decide (SDA ∈ tup)) as [Hin|Hno].
        -- rewrite decide_True; auto. by constructor.
        -- rewrite decide_False; auto. intros Hin. apply elem_of_cons in Hin as [?|?]; naive_solver.
    + destruct (Hd ltac:(constructor)) as [d Hdd]. unfold dslot_activate. rewrite Hdd. simpl.
      match goal with |- context [for_tup _ _ ?x] => set (m1 := x) end.
      destruct (IH m1 Hnd) as (m' & Hm' & H1 & H2 & H3 & H4 & H5 & H6 & H7).
      { intros T' HT'. simpl. apply He. by constructor. }
      { done. }
      exists m'. split; [done|]. split; [|split; [|split; [|split; [|auto]]]].
      * intros [[c' T']|n]; rewrite H1; simpl; auto.
        destruct (decide (c' = c /\ SE T' ∈ tup)) as [[-> Hin]|Hno].
        -- rewrite (decide_True (P := c = c /\ SE T' ∈ SDA :: tup)) by (split; auto; by constructor). done.
        -- rewrite decide_False; auto. intros [-> Hin]. apply elem_of_cons in Hin as [?|?]; naive_solver.
      * intros c'. rewrite H2. simpl. rewrite decide_False by naive_solver.
        destruct (decide (c' = c)) as [->|Hne].
        -- rewrite lookup_insert. rewrite decide_True by (split; auto; constructor). by rewrite Hdd.
        -- rewrite lookup_insert_ne by done. rewrite decide_False; auto. naive_solver.
      * intros T'. rewrite H3. simpl. destruct (decide (SE T' ∈ tup)) as [Hin|Hno].
        -- rewrite decide_True; auto. by constructor.
        -- rewrite decide_False; auto. intros Hin. apply elem_of_cons in Hin as [?|?]; naive_solver.
      * rewrite H4. rewrite (decide_False (P := SDA ∈ tup)) by done. done.
Qed.

Lemma act_R c m s s' : R m s -> sact c s = Ok s' -> exists m', mact G c m = Ok m' /\ R m' s'.
Proof.
  intros HR H. unfold sact in H. destruct (actxs s !! c) as [a|] eqn:Ha; [|done].
  case_bool_decide as Hni; [done|]. destruct (nodes a) eqn:Hnodes; [|done]. simplify_eq.
  destruct (R_look _ _ _ _ HR Ha) as (k & Hk & HcR). pose proof HcR as HcR'. destruct HcR'.
  unfold mact. rewrite Hk. simpl. rewrite assert_ok by (rewrite cr_act; by rewrite bool_decide_false). simpl.
  destruct (activate_spec c (k_tup k) m) as (m1 & -> & H1 & H2 & H3 & H4 & H5 & H6 & H7).
  { by rewrite cr_tup. }
  { intros T HT. rewrite cr_tup in HT. destruct (cr_cell T HT) as (sl & ? & _). eauto. }
  { intros HT. rewrite cr_tup in HT. destruct (cr_coll HT) as (sl & ? & _). eauto. }
  simpl. eexists. split; [done|]. rewrite cr_tup in *.
  match goal with |- R ?x _ => set (m' := x) end.
  assert (forall d, dhp m !! c = Some d -> d_nodes d = []) as Hdn.
  { intros d Hd. destruct (decide (SDA ∈ ac_tup a)) as [HD|HD].
    - destruct (cr_coll HD) as (d' & Hd' & Hcoll). rewrite Hd in Hd'. injection Hd' as <-. unfold nodes in Hnodes.
      destruct (ac_coll a) as [q|]; [|by destruct Hcoll]. destruct Hcoll as (_ & _ & _ & _ & _ & HF).
      rewrite Hnodes in HF. by inversion HF.
    - destruct (cr_nocoll HD). congruence. }
  assert (forall c', d_nodes <$> dhp m' !! c' = d_nodes <$> dhp m !! c') as Hdno.
  { intros c'. simpl. rewrite H2. destruct (decide (c' = c /\ SDA ∈ ac_tup a)) as [[-> _]|]; auto. by destruct (dhp m !! c). }
  assert (shape m m') as Hsh.
  { split; [|intros; by rewrite Hdno]. intros c'. simpl. rewrite H5. destruct (decide (c' = c)) as [->|].
    - by rewrite lookup_insert, Hk, <- cr_tup.
    - by rewrite lookup_insert_ne. }
  assert (forall T, caddr m' c T = if decide (SE T ∈ ac_tup a) then Some (inl (c, T)) else None) as HcaC.
  { intros T. rewrite <- (caddr_shape m m' c T Hsh). unfold caddr. rewrite Hk, cr_tup.
    destruct (decide (SE T ∈ ac_tup a)); [by rewrite bool_decide_true|]. rewrite bool_decide_false by done.
    destruct (dhp m !! c) eqn:E; auto. by rewrite (Hdn _ eq_refl). }
  assert (forall ad sl, hp m !! ad = Some sl -> exists sl', hp m' !! ad = Some sl' /\ e_key sl' = e_key sl /\ e_val sl' = e_val sl /\
     ((forall T, ad <> inl (c, T)) -> e_prev sl' = e_prev sl)) as Hhp.
  { intros ad sl Hsl. simpl. rewrite H1. destruct ad as [[c' T]|]; [|eauto].
    destruct (decide (c' = c /\ SE T ∈ ac_tup a)) as [[-> _]|]; [|eauto]. rewrite Hsl. simpl. eexists. split; [done|].
    repeat split; auto. naive_solver. }
  assert (forall c' d, dhp m !! c' = Some d -> exists d', dhp m' !! c' = Some d' /\ d_key d' = d_key d /\ d_last d' = d_last d /\
     d_nodes d' = d_nodes d /\ (c' <> c -> d_prev d' = d_prev d)) as Hdhp.
  { intros c' d Hd. simpl. rewrite H2. destruct (decide (c' = c /\ SDA ∈ ac_tup a)) as [[-> _]|]; [|eauto 10].
    rewrite Hd. simpl. eexists. split; [done|]. naive_solver. }
  assert (forall c' d', dhp m' !! c' = Some d' -> exists d, dhp m !! c' = Some d /\ d_nodes d' = d_nodes d) as Hback.
  { intros c' d' Hd'. specialize (Hdno c'). rewrite Hd' in Hdno. destruct (dhp m !! c') as [d|]; [|done].
    simpl in Hdno. simplify_eq. eauto. }
  pose proof HR as HR'. destruct HR'. constructor; simpl.
  - congruence.
  - intros c'. rewrite H5. specialize (R_ctx c'). destruct (decide (c' = c)) as [->|Hne].
    + rewrite lookup_insert, Ha. rewrite bool_decide_true by constructor.
      eapply ctxR_ext; [..|exact HcR]; auto; simpl.
      * intros T sl _ Hsl. destruct (Hhp _ _ Hsl) as (sl' & ? & ? & ? & _). eauto.
      * intros d Hd. destruct (Hdhp _ _ Hd) as (d' & ? & ? & ? & ? & _). exists d'. repeat split; auto.
        intros n _ sl Hsl. destruct (Hhp _ _ Hsl) as (sl' & ? & ? & ? & _). eauto.
      * intros Hd. rewrite H2. destruct (decide (c = c /\ SDA ∈ ac_tup a)); rewrite Hd; auto.
    + rewrite lookup_insert_ne by done. destruct (ctxs m !! c') as [k'|], (actxs s !! c') as [a0|]; simpl in *; auto.
      eapply ctxR_ext; [..|exact R_ctx]; auto; simpl.
      * intros ->. apply bool_decide_ext. rewrite elem_of_cons. naive_solver.
      * intros T sl _ Hsl. destruct (Hhp _ _ Hsl) as (sl' & ? & ? & ? & _). eauto.
      * intros d Hd. destruct (Hdhp _ _ Hd) as (d' & ? & ? & ? & ? & _). exists d'. repeat split; auto.
        intros n _ sl Hsl. destruct (Hhp _ _ Hsl) as (sl' & ? & ? & ? & _). eauto.
      * intros Hd. rewrite H2. destruct (decide (c' = c /\ SDA ∈ ac_tup a)); rewrite Hd; auto.
  - intros c' d' Hd'. rewrite H5. destruct (Hback _ _ Hd') as (d & Hd & _). destruct (decide (c' = c)) as [->|].
    + rewrite lookup_insert. eauto.
    + rewrite lookup_insert_ne by done. eauto.
  - done.
  - by constructor.
  - intros c' Hc'. apply elem_of_cons in Hc' as [->|]; eauto.
  - intros T. rewrite HcaC, H3. destruct (decide (SE T ∈ ac_tup a)); auto. rewrite R_tls. by apply chead_shape.
  - intros T. split.
    + intros ad. rewrite HcaC. destruct (decide (SE T ∈ ac_tup a)) as [HT|]; [|done]. intros [= <-].
      destruct (cr_cell T HT) as (sl & Hsl & _). rewrite H1. rewrite decide_True by auto. rewrite Hsl. simpl.
      eexists. split; [done|]. simpl. rewrite R_tls. by apply chead_shape.
    + eapply linked_ext; [..|apply R_lnk].
      * intros. by apply caddr_shape.
      * intros c' ad sl Hc' Had Hsl. destruct (Hhp _ _ Hsl) as (sl' & ? & _ & _ & Hp). exists sl'. split; auto.
        apply Hp. intros T' ->. destruct (R_in c' Hc') as [a0 Ha0]. destruct (R_look _ _ _ _ HR Ha0) as (k' & Hk' & _).
        destruct (caddr_cases _ _ _ _ _ Hk' Had) as [[_ [= -> ->]]|[_ (d' & n' & Hd' & Hn' & ?)]]; [|done]. done.
  - rewrite H4. assert (hasd m' c = bool_decide (SDA ∈ ac_tup a)) as ->.
    { unfold hasd. simpl. by rewrite H5, lookup_insert. }
    destruct (decide (SDA ∈ ac_tup a)); [by rewrite bool_decide_true|]. rewrite bool_decide_false by done.
    rewrite R_tlsd. by apply dhead_shape.
  - split.
    + unfold hasd. simpl. rewrite H5, lookup_insert. simpl. rewrite bool_decide_eq_true. intros HD.
      rewrite H2, decide_True by auto. destruct (cr_coll HD) as (d & Hd & _). rewrite Hd. simpl. eexists. split; [done|].
      simpl. rewrite R_tlsd. by apply dhead_shape.
    + eapply dlinked_ext; [..|exact R_dlnk].
      * intros. by apply hasd_shape.
      * intros c' d Hc' Hd. destruct (Hdhp _ _ Hd) as (d' & ? & _ & _ & _ & Hp). exists d'. split; auto.
        apply Hp. intros ->. done.
  - intros c1 c2 d1 d2 n Hd1 Hd2 Hn1 Hn2.
    destruct (Hback _ _ Hd1) as (d1' & ? & E1). destruct (Hback _ _ Hd2) as (d2' & ? & E2).
    rewrite E1 in Hn1. rewrite E2 in Hn2. eauto.
  - intros c1 d1 n Hd1 Hn1. destruct (Hback _ _ Hd1) as (d1' & ? & E1). rewrite H7. rewrite E1 in Hn1. eauto.
Qed.

(** ** Deactivation *)
Lemma nodes_deactivate_spec l m : (forall n, n ∈ l.*2 -> is_Some (hp m !! inr n)) -> NoDup l.*1 ->
  exists t, for_nodes (fun T n => slot_deactivate (inr n) T) l m = Ok (set_tls t m) /\
  forall T, t !! T = match node_at T l with Some n => hp m !! inr n ≫= e_prev | None => tls m !! T end.
Proof.
  revert m. induction l as [|[T n] l IH]; intros m Hs Hnd; simpl.
  - exists (tls m). split; [by destruct m|]. done.
  - csimpl in Hnd. apply NoDup_cons in Hnd as [Hni Hnd].
    destruct (Hs n ltac:(csimpl; constructor)) as [sl Hsl]. unfold slot_deactivate at 1. rewrite Hsl. simpl.
    destruct (IH (tls_write T (e_prev sl) m)) as (t & Ht & Ht'); auto.
    { intros n' Hn'. simpl. apply Hs. csimpl. by constructor. }
    exists t. split; [exact Ht|]. intros T'. rewrite Ht'. simpl. destruct (decide (T' = T)) as [->|].
    + apply node_at_None in Hni. rewrite Hni. rewrite lookup_partial_alter. by rewrite Hsl.
    + by rewrite lookup_partial_alter_ne.
Qed.

Definition addr_l (m : mem) (c : cid) (l : list sty) (T : ety) : option addr :=
  if decide (SE T ∈ l) then Some (inl (c, T))
  else if decide (SDA ∈ l) then match dhp m !! c with Some d => inr <$> node_at T (d_nodes d) | None => None end
  else None.

Lemma deactivate_spec c l m : NoDup l ->
  (forall T, SE T ∈ l -> is_Some (hp m !! inl (c, T))) ->
  (SDA ∈ l -> exists d, dhp m !! c = Some d /\ (forall n, n ∈ (d_nodes d).*2 -> is_Some (hp m !! inr n)) /\ NoDup (d_nodes d).*1 /\
     (d_key d = 0 -> d_nodes d = []) /\ forall T, T ∈ (d_nodes d).*1 -> SE T ∉ l) ->
  exists t td, for_tup (sty_deactivate c) l m = Ok (set_tlsd td (set_tls t m)) /\
  (forall T, t !! T = match addr_l m c l T with Some ad => hp m !! ad ≫= e_prev | None => tls m !! T end) /\
  td = if decide (SDA ∈ l) then dhp m !! c ≫= d_prev else tlsd m.
Proof.
  revert m. induction l as [|t l IH]; intros m Hnd He Hd; simpl.
  - exists (tls m), (tlsd m). split; [by destruct m|]. split; [|done]. intros T. unfold addr_l. done.
  - apply NoDup_cons in Hnd as [Hni Hnd]. destruct t as [T|]; simpl.
    + destruct (He T ltac:(constructor)) as [sl Hsl]. unfold slot_deactivate. rewrite Hsl. simpl.
      destruct (IH (tls_write T (e_prev sl) m) Hnd) as (t & td & H1 & H2 & H3).
      { intros T' HT'. simpl. apply He. by constructor. }
      { intros HD. destruct Hd as (d & ? & ? & ? & ? & H0); [by constructor|]. exists d. repeat split; auto.
        intros T' HT' HH. apply (H0 T' HT'). by constructor. }
      exists t, td. split; [exact H1|]. split.
      * intros T'. rewrite H2. unfold addr_l. simpl. destruct (decide (T' = T)) as [->|Hne].
        -- rewrite (decide_True (P := SE T ∈ SE T :: l)) by constructor. rewrite decide_False by done.
           rewrite Hsl. destruct (decide (SDA ∈ l)) as [HD|HD].
           ++ destruct Hd as (d & Hdd & _ & _ & _ & Hdis); [by constructor|]. rewrite Hdd.
              destruct (node_at T (d_nodes d)) as [n|] eqn:E; simpl; [|by rewrite lookup_partial_alter].
              exfalso. apply node_at_in in E. apply (Hdis T); [|constructor]. apply elem_of_list_fmap. exists (T, n). auto.
           ++ by rewrite lookup_partial_alter.
        -- rewrite lookup_partial_alter_ne by done.
           rewrite (decide_ext (SE T' ∈ SE T :: l) (SE T' ∈ l)) by (rewrite elem_of_cons; naive_solver).
           rewrite (decide_ext (SDA ∈ SE T :: l) (SDA ∈ l)) by (rewrite elem_of_cons; naive_solver). done.
      * rewrite H3. simpl. by rewrite (decide_ext (SDA ∈ SE T :: l) (SDA ∈ l)) by (rewrite elem_of_cons; naive_solver).
    + destruct Hd as (d & Hdd & Hns & Hnd1 & Hk0 & Hdis); [constructor|].
      unfold dslot_deactivate. rewrite Hdd. simpl.
      destruct (nodes_deactivate_spec (d_nodes d) m Hns Hnd1) as (t0 & Ht0 & Ht0').
      assert ((if d_key d =? 0 then Ok m else for_nodes (fun T n => slot_deactivate (inr n) T) (d_nodes d) m) = Ok (set_tls t0 m)) as ->.
      { destruct (d_key d =? 0) eqn:E; auto. apply Z.eqb_eq in E. rewrite (Hk0 E) in Ht0. exact Ht0. }
      simpl. destruct (IH (set_tlsd (d_prev d) (set_tls t0 m)) Hnd) as (t & td & H1 & H2 & H3).
      { intros T' HT'. simpl. apply He. by constructor. }
      { done. }
      exists t, td. split; [exact H1|]. split.
      * intros T'. rewrite H2. unfold addr_l. simpl.
        rewrite (decide_ext (SE T' ∈ SDA :: l) (SE T' ∈ l)) by (rewrite elem_of_cons; naive_solver).
        destruct (decide (SE T' ∈ l)); auto. rewrite (decide_False (P := SDA ∈ l)) by done.
        rewrite Hdd. simpl. rewrite Ht0'.
        by destruct (node_at T' (d_nodes d)).
      * rewrite H3. rewrite (decide_False (P := SDA ∈ l)) by done. done.
Qed.

Lemma linked_tail m T c l : linked m T (c :: l) -> linked m T l.
Proof. by intros [_ ?]. Qed.

Lemma deact_R c m s s' : R m s -> sdeact c s = Ok s' -> exists m', mdeact G c m = Ok m' /\ R m' s'.
Proof.
  intros HR H. unfold sdeact in H. destruct (stack s) as [|c' l] eqn:Hst; [done|].
  case_bool_decide as Hc; [subst c'|done]. simplify_eq.
  destruct (R_in _ _ HR c) as [a Ha]; [rewrite Hst; constructor|].
  destruct (R_look _ _ _ _ HR Ha) as (k & Hk & HcR). pose proof HcR as HcR'. destruct HcR'.
  assert (NoDup (c :: l)) as Hnds by (rewrite <- Hst; apply HR). apply NoDup_cons in Hnds as [Hcl Hndl].
  unfold mdeact. rewrite Hk. simpl. rewrite assert_ok.
  2: { rewrite cr_act, Hst. apply bool_decide_eq_true. constructor. }
  simpl.
  assert (forall t, t ∈ rev (ac_tup a) <-> t ∈ ac_tup a) as Hrev.
  { intros t. rewrite !elem_of_list_In. symmetry. apply in_rev. }
  destruct (deactivate_spec c (rev (k_tup k)) m) as (t & td & -> & H2 & H3).
  { rewrite cr_tup. rewrite <- reverse_rev || idtac. apply NoDup_ListNoDup. apply NoDup_rev. by apply NoDup_ListNoDup. }
  { intros T HT. rewrite cr_tup in HT. apply Hrev in HT. destruct (cr_cell T HT) as (sl & ? & _). eauto. }
  { intros HT. rewrite cr_tup in *. apply Hrev in HT. destruct (cr_coll HT) as (d & Hd & Hcoll). exists d. split; [done|].
    destruct (ac_coll a) as [q|] eqn:Hq; simpl in Hcoll.
    - destruct Hcoll as (Hq0 & Hkey & _ & Hnd1 & _ & HF). repeat split; auto.
      + intros n Hn. clear -Hn HF. induction HF as [|[T1 n1] y l1 l2 [_ (sl & Hsl & _)] _ IH]; csimpl in Hn; [inversion Hn|].
        apply elem_of_cons in Hn as [->|?]; eauto.
      + intros. congruence.
      + intros T HT' HT''. apply Hrev in HT''. apply (cr_disj T); auto. unfold nodes, has_node. rewrite Hq.
        rewrite <- (nodes_types _ _ _ HF). by apply bool_decide_eq_true.
    - destruct Hcoll as [_ ->]. repeat split; auto; try constructor; intros ? HH; inversion HH. }
  simpl. eexists. split; [done|].
  match goal with |- R ?x _ => set (m' := x) end.
  assert (shape m m') as Hsh.
  { split; [|done]. intros c'. simpl. destruct (decide (c' = c)) as [->|].
    - by rewrite lookup_insert, Hk.
    - by rewrite lookup_insert_ne. }
  assert (forall T, addr_l m c (rev (k_tup k)) T = caddr m c T) as Hadl.
  { intros T. unfold addr_l, caddr. rewrite Hk. rewrite (decide_ext _ _ (Hrev (SE T))) || rewrite cr_tup.
    rewrite (decide_ext _ (SE T ∈ ac_tup a)) by apply Hrev.
    destruct (decide (SE T ∈ ac_tup a)) as [HT|HT]; [by rewrite bool_decide_true|]. rewrite bool_decide_false by done.
    rewrite (decide_ext _ (SDA ∈ ac_tup a)) by apply Hrev. destruct (decide (SDA ∈ ac_tup a)) as [HD|HD]; auto.
    destruct (cr_nocoll HD) as [-> _]. done. }
  pose proof HR as HR'. destruct HR'. rewrite Hst in *. constructor; simpl; auto.
  - intros c'. specialize (R_ctx c'). destruct (decide (c' = c)) as [->|Hne].
    + rewrite lookup_insert, Ha. rewrite bool_decide_false by done.
      eapply ctxR_ext; [..|exact HcR]; auto; simpl; eauto.
      intros d Hd. exists d. repeat split; auto. eauto.
    + rewrite lookup_insert_ne by done. destruct (ctxs m !! c') as [k'|], (actxs s !! c') as [a0|]; simpl in *; auto.
      eapply ctxR_ext; [..|exact R_ctx]; auto; simpl; eauto.
      * intros ->. apply bool_decide_ext. rewrite elem_of_cons. naive_solver.
      * intros d Hd. exists d. repeat split; auto. eauto.
  - intros c' d Hd. destruct (decide (c' = c)) as [->|]; [rewrite lookup_insert|rewrite lookup_insert_ne by done]; eauto.
  - intros c' Hc'. apply R_in. by constructor.
  - intros T. rewrite H2, Hadl. rewrite <- (chead_shape m m' T l Hsh). specialize (R_tls T). simpl in R_tls.
    destruct (R_lnk T) as [Hl _]. destruct (caddr m c T) as [ad|]; auto.
    destruct (Hl ad eq_refl) as (sl & Hsl & Hp). by rewrite Hsl.
  - intros T. apply (linked_ext m); [|eauto|by eapply linked_tail]. intros. by apply caddr_shape.
  - rewrite H3. rewrite <- (dhead_shape m m' l Hsh). simpl in R_tlsd, R_dlnk. destruct R_dlnk as [Hd _].
    unfold hasd at 1 in R_tlsd. unfold hasd at 1 in Hd. rewrite Hk in R_tlsd, Hd. rewrite cr_tup in *.
    rewrite (decide_ext _ (SDA ∈ ac_tup a)) by apply Hrev. destruct (decide (SDA ∈ ac_tup a)) as [HD|HD].
    + rewrite bool_decide_true in Hd by done. destruct (Hd eq_refl) as (d & Hdd & Hp). by rewrite Hdd.
    + by rewrite bool_decide_false in R_tlsd.
  - destruct R_dlnk as [_ ?]. apply (dlinked_ext m); auto. { intros. by apply hasd_shape. } eauto.
Qed.

Lemma isact_R c m s b : R m s -> sisact c s = Ok b -> misact c m = Ok b.
Proof.
  intros HR H. unfold sisact in H. destruct (actxs s !! c) as [a|] eqn:Ha; [|done]. simplify_eq.
  destruct (R_look _ _ _ _ HR Ha) as (k & Hk & HcR). unfold misact. rewrite Hk. simpl. by rewrite (cr_act _ _ _ _ _ HcR).
Qed.

(** ** Destruction *)
Lemma nodes_free_spec l m : (forall n, n ∈ l.*2 -> is_Some (hp m !! inr n)) -> NoDup l.*2 ->
  (forall T n, (T, n) ∈ l -> tls m !! T <> Some (inr n)) ->
  exists h, for_nodes (fun T n => slot_free G (inr n) T) l m = Ok (set_hp h m) /\
  (forall c T, h !! inl (c, T) = hp m !! inl (c, T)) /\ (forall n, n ∉ l.*2 -> h !! inr n = hp m !! inr n).
Proof.
  revert m. induction l as [|[T n] l IH]; intros m Hs Hnd Ht; simpl.
  - exists (hp m). split; [by destruct m|]. done.
  - csimpl in Hnd. apply NoDup_cons in Hnd as [Hni Hnd].
    destruct (Hs n ltac:(csimpl; constructor)) as [sl Hsl]. unfold slot_free at 1. rewrite Hsl. simpl.
    rewrite assert_ok by (apply bool_decide_eq_true; apply Ht; constructor). simpl.
    destruct (IH (set_hp (delete (inr n) (hp m)) m)) as (h & Hh & H1 & H2); auto.
    { intros n' Hn'. simpl. rewrite lookup_delete_ne by (intros [= ->]; done). apply Hs. csimpl. by constructor. }
    { intros T' n' HT'. simpl. apply Ht. by constructor. }
    exists h. split; [exact Hh|]. split.
    + intros c T'. rewrite H1. simpl. by rewrite lookup_delete_ne.
    + intros n' Hn'. csimpl in Hn'. apply not_elem_of_cons in Hn' as [? ?]. rewrite H2 by done. simpl.
      rewrite lookup_delete_ne by congruence. done.
Qed.

Lemma free_spec c l m : NoDup l ->
  (forall T, SE T ∈ l -> is_Some (hp m !! inl (c, T))) ->
  (forall T, tls m !! T <> Some (inl (c, T))) -> tlsd m <> Some c ->
  (SDA ∈ l -> exists d, dhp m !! c = Some d /\ (forall n, n ∈ (d_nodes d).*2 -> is_Some (hp m !! inr n)) /\ NoDup (d_nodes d).*2 /\
     (d_key d = 0 -> d_nodes d = []) /\ forall T n, (T, n) ∈ d_nodes d -> tls m !! T <> Some (inr n)) ->
  exists h, for_tup (sty_free G c) l m = Ok (set_dhp (if decide (SDA ∈ l) then delete c (dhp m) else dhp m) (set_hp h m)) /\
  (forall c' T, c' <> c -> h !! inl (c', T) = hp m !! inl (c', T)) /\
  (forall n, (forall d, dhp m !! c = Some d -> n ∉ (d_nodes d).*2) -> h !! inr n = hp m !! inr n).
Proof.
  revert m. induction l as [|t l IH]; intros m Hnd He Ht Htd Hd; simpl.
  - exists (hp m). split; [by destruct m|]. done.
  - apply NoDup_cons in Hnd as [Hni Hnd]. destruct t as [T|]; simpl.
    + destruct (He T ltac:(constructor)) as [sl Hsl]. unfold slot_free. rewrite Hsl. simpl.
      rewrite assert_ok by (apply bool_decide_eq_true; apply Ht). simpl.
      destruct (IH (set_hp (delete (inl (c, T)) (hp m)) m)) as (h & Hh & H1 & H2); auto.
      { intros T' HT'. simpl. rewrite lookup_delete_ne by congruence. apply He. by constructor. }
      { intros HD. destruct Hd as (d & ? & Hns & ? & ? & ?); [by constructor|]. exists d. repeat split; auto.
        intros n Hn. simpl. rewrite lookup_delete_ne by done. auto. }
      exists h. split.
      { rewrite Hh. simpl. rewrite (decide_ext (SDA ∈ SE T :: l) (SDA ∈ l)) by (rewrite elem_of_cons; naive_solver). done. }
      split.
      * intros c' T' Hne. rewrite H1 by done. simpl. by rewrite lookup_delete_ne by congruence.
      * intros n Hn. rewrite H2 by done. simpl. by rewrite lookup_delete_ne.
    + destruct Hd as (d & Hdd & Hns & Hnd2 & Hk0 & Htn); [constructor|].
      unfold dslot_free. rewrite Hdd. simpl. rewrite assert_ok by (by apply bool_decide_eq_true). simpl.
      unfold dslot_reset. rewrite Hdd. simpl.
      destruct (nodes_free_spec (d_nodes d) m Hns Hnd2 Htn) as (h0 & Hh0 & H01 & H02).
      assert ((if d_key d =? 0 then Ok m else for_nodes (fun T n => slot_free G (inr n) T) (d_nodes d) m) = Ok (set_hp h0 m)) as ->.
      { destruct (d_key d =? 0) eqn:E; auto. apply Z.eqb_eq in E. rewrite (Hk0 E) in Hh0. exact Hh0. }
      simpl. rewrite delete_insert_delete.
      match goal with |- context [for_tup _ _ ?x] => destruct (IH x) as (h & Hh & H1 & H2); auto end.
      { intros T HT. simpl. rewrite H01. apply He. by constructor. }
      { done. }
      exists h. split.
      { rewrite Hh. rewrite (decide_False (P := SDA ∈ l)) by done. done. }
      split.
      * intros c' T' Hne. rewrite H1 by done. simpl. by rewrite H01.
      * intros n Hn. rewrite H2; simpl; [apply H02; by apply Hn|]. intros d'. rewrite lookup_delete. done.
Qed.

(** a context that is not active can be forgotten *)
Lemma forget_R m s c : R m s -> c ∉ stack s ->
  R (set_dhp (delete c (dhp m)) (set_ctxs (delete c (ctxs m)) m)) (SMem (stack s) (delete c (actxs s)) (snc s)).
Proof.
  intros HR Hni. match goal with |- R ?x _ => set (m' := x) end.
  assert (forall c' T, c' <> c -> caddr m' c' T = caddr m c' T) as Hca.
  { intros c' T Hne. unfold caddr. simpl. by rewrite !lookup_delete_ne. }
  assert (forall c', c' <> c -> hasd m' c' = hasd m c') as Hhd.
  { intros c' Hne. unfold hasd. simpl. by rewrite !lookup_delete_ne. }
  assert (forall c' d, dhp m' !! c' = Some d -> c' <> c /\ dhp m !! c' = Some d) as Hback.
  { intros c' d. simpl. intros H. destruct (decide (c' = c)) as [->|]; [by rewrite lookup_delete in H|].
    by rewrite lookup_delete_ne in H. }
  destruct HR. constructor; simpl; auto.
  - intros c'. destruct (decide (c' = c)) as [->|Hne]; [by rewrite !lookup_delete|]. rewrite !lookup_delete_ne by done.
    specialize (R_ctx c'). destruct (ctxs m !! c') as [k'|], (actxs s !! c') as [a0|]; simpl in *; auto.
    eapply ctxR_ext; [..|exact R_ctx]; auto; simpl; eauto.
    + intros d Hd. exists d. rewrite lookup_delete_ne by done. repeat split; auto. eauto.
    + intros. by rewrite lookup_delete_ne.
  - intros c' d Hd. destruct (Hback _ _ Hd). rewrite lookup_delete_ne by done. eauto.
  - intros c' a0. destruct (decide (c' = c)) as [->|Hne]; [by rewrite lookup_delete|]. rewrite lookup_delete_ne by done. eauto.
  - intros c' Hc'. rewrite lookup_delete_ne; eauto. intros ->. done.
  - intros T. rewrite R_tls. apply chead_ext. intros c' Hc'. symmetry. apply Hca. intros ->. done.
  - intros T. eapply linked_ext; [..|apply R_lnk]; eauto. intros c' Hc'. symmetry. apply Hca. intros ->. done.
  - rewrite R_tlsd. apply dhead_ext. intros c' Hc'. symmetry. apply Hhd. intros ->. done.
  - eapply dlinked_ext; [..|exact R_dlnk].
    + intros c' Hc'. symmetry. apply Hhd. intros ->. done.
    + intros c' d Hc' Hd. exists d. simpl. rewrite lookup_delete_ne; auto. intros ->. done.
  - intros c1 c2 d1 d2 n Hd1 Hd2. destruct (Hback _ _ Hd1). destruct (Hback _ _ Hd2). eauto.
  - intros c1 d1 n Hd1. destruct (Hback _ _ Hd1). eauto.
Qed.

Lemma tls_inactive m s c T : R m s -> c ∉ stack s -> tls m !! T <> Some (inl (c, T)).
Proof. intros HR Hni Ht. destruct (tls_owned _ _ _ _ HR Ht) as (c' & Hin & [[= ->]|(d & n & _ & _ & ?)]); done. Qed.

Lemma tls_inactive_node m s c d n T : R m s -> c ∉ stack s -> dhp m !! c = Some d -> n ∈ (d_nodes d).*2 -> tls m !! T <> Some (inr n).
Proof.
  intros HR Hni Hd Hn Ht. destruct (tls_owned _ _ _ _ HR Ht) as (c' & Hin & [?|(d' & n' & Hd' & Hn' & [= <-])]); [done|].
  assert (c = c') as -> by (eapply (R_own _ _ HR); eauto). done.
Qed.

Lemma tlsd_inactive m s c : R m s -> c ∉ stack s -> tlsd m <> Some c.
Proof.
  intros HR Hni Ht. pose proof (find_d_R _ _ HR) as Hf. destruct (find_d s) as [[c' a]|]; [|congruence].
  destruct Hf as (_ & Hin & _ & Htd & _). rewrite Htd in Ht. simplify_eq. done.
Qed.

Lemma coll_facts m act c k a d : ctxR m act c k a -> dhp m !! c = Some d ->
  (forall n, n ∈ (d_nodes d).*2 -> is_Some (hp m !! inr n)) /\ NoDup (d_nodes d).*2 /\ (d_key d = 0 -> d_nodes d = []).
Proof.
  intros HcR Hd. destruct HcR. destruct (decide (SDA ∈ ac_tup a)) as [HD|HD]; [|destruct (cr_nocoll HD); congruence].
  destruct (cr_coll HD) as (d' & Hd' & Hcoll). rewrite Hd in Hd'. injection Hd' as <-.
  destruct (ac_coll a) as [q|]; simpl in Hcoll.
  - destruct Hcoll as (Hq0 & Hkey & _ & _ & Hnd2 & HF). repeat split; auto; [|intros; congruence].
    intros n Hn. clear -Hn HF. induction HF as [|[T1 n1] y l1 l2 [_ (sl & Hsl & _)] _ IH]; csimpl in Hn; [inversion Hn|].
    apply elem_of_cons in Hn as [->|?]; eauto.
  - destruct Hcoll as [_ ->]. repeat split; auto; [intros n Hn; inversion Hn|constructor].
Qed.

Lemma free_R c m s a k : R m s -> actxs s !! c = Some a -> c ∉ stack s -> ctxs m !! c = Some k ->
  exists m1, for_tup (sty_free G c) (rev (k_tup k)) m = Ok m1 /\
    R (set_ctxs (delete c (ctxs m1)) m1) (SMem (stack s) (delete c (actxs s)) (snc s)).
Proof.
  intros HR Ha Hni Hk. destruct (R_look _ _ _ _ HR Ha) as (k' & Hk' & HcR). rewrite Hk in Hk'. injection Hk' as <-.
  pose proof HcR as HcR'. destruct HcR'.
  assert (forall t, t ∈ rev (ac_tup a) <-> t ∈ ac_tup a) as Hrev.
  { intros t. rewrite !elem_of_list_In. symmetry. apply in_rev. }
  rewrite cr_tup.
  destruct (free_spec c (rev (ac_tup a)) m) as (h & Hh & H1 & H2).
  { apply NoDup_ListNoDup. apply NoDup_rev. by apply NoDup_ListNoDup. }
  { intros T HT. apply Hrev in HT. destruct (cr_cell T HT) as (sl & ? & _). eauto. }
  { intros T. by eapply tls_inactive. }
  { by eapply tlsd_inactive. }
  { intros HT. apply Hrev in HT. destruct (cr_coll HT) as (d & Hd & _). exists d. split; [done|].
    destruct (coll_facts _ _ _ _ _ _ HcR Hd) as (? & ? & ?). repeat split; auto.
    intros T n Hn. eapply tls_inactive_node; eauto. apply elem_of_list_fmap. exists (T, n). auto. }
  rewrite Hh. eexists. split; [done|].
  assert ((if decide (SDA ∈ rev (ac_tup a)) then delete c (dhp m) else dhp m) = delete c (dhp m)) as ->.
  { destruct (decide _) as [|HD]; auto. rewrite delete_notin; auto. apply cr_nocoll. by rewrite <- Hrev. }
  pose proof (forget_R m s c HR Hni) as HF.
  apply (R_unowned _ _ h) in HF; simpl.
  - exact HF.
  - intros c' T [k0 Hc']. simpl in Hc'. apply H1. intros ->. by rewrite lookup_delete in Hc'.
  - intros c' d n Hd Hn. simpl in Hd. assert (c' <> c) as Hne by (intros ->; by rewrite lookup_delete in Hd).
    rewrite lookup_delete_ne in Hd by done. apply H2. intros d' Hd' Hn'. apply Hne. eapply (R_own _ _ HR); eauto.
Qed.

Lemma destroy_R c m s s' : R m s -> sdestroy c s = Ok s' -> exists m', mdestroy G c m = Ok m' /\ R m' s'.
Proof.
  intros HR H. unfold sdestroy in H. destruct (actxs s !! c) as [a|] eqn:Ha; [|done].
  case_bool_decide as Hni; [done|]. simplify_eq. destruct (R_look _ _ _ _ HR Ha) as (k & Hk & HcR).
  unfold mdestroy. rewrite Hk. simpl. rewrite assert_ok by (rewrite (cr_act _ _ _ _ _ HcR); by rewrite bool_decide_false). simpl.
  destruct (free_R c m s a k HR Ha Hni Hk) as (m1 & -> & HR1). simpl. eauto.
Qed.

Lemma drop_R c m s s' : R m s -> sdestroy c s = Ok s' -> exists m', mdrop G c m = Ok m' /\ R m' s'.
Proof.
  intros HR H. unfold sdestroy in H. destruct (actxs s !! c) as [a|] eqn:Ha; [|done].
  case_bool_decide as Hni; [done|]. simplify_eq. destruct (R_look _ _ _ _ HR Ha) as (k & Hk & HcR).
  unfold mdrop. rewrite Hk. simpl. destruct (free_R c m s a k HR Ha Hni Hk) as (m1 & -> & HR1). simpl. eauto.
Qed.

(** ** Looking *)
Lemma get_R c T id m s o : R m s -> sget c T id s = Ok o -> mget G c T id m = Ok o.
Proof.
  intros HR H. unfold sget in H. destruct (actxs s !! c) as [a|] eqn:Ha; [|done].
  destruct (R_look _ _ _ _ HR Ha) as (k & Hk & HcR). unfold mget. rewrite Hk. simpl. destruct HcR. rewrite cr_tup.
  destruct (decide (SE T ∈ ac_tup a)) as [HT|HT].
  - rewrite bool_decide_true in * by done. ok_inv H. apply sassert_ok in E. rewrite assert_ok by done.
    destruct (cr_cell T HT) as (sl & -> & Hc). simpl. apply nz_true in E.
    rewrite (proj2 (Z.eqb_neq _ _) E). simplify_eq. destruct (ac_cell a !! T) as [[k0 v]|]; simpl in Hc.
    + destruct Hc as (_ & -> & ->). by destruct (k0 =? id).
    + rewrite Hc. rewrite (proj2 (Z.eqb_neq 0 id)) by lia. done.
  - rewrite bool_decide_false in H by done. by rewrite bool_decide_false by done.
Qed.

Lemma show_R id T sl o : cellR sl o ->
  print_slot G id T (e_key sl) (e_val sl) = match o with Some x => sshow G id (T, x) | None => [] end.
Proof.
  unfold print_slot, sshow. destruct o as [[k v]|]; simpl.
  - intros (_ & -> & ->). done.
  - intros ->. done.
Qed.

Lemma print_R c id m s l : R m s -> sprint G c id s = Ok l -> mprint G c id m = Ok l.
Proof.
  intros HR H. unfold sprint in H. destruct (actxs s !! c) as [a|] eqn:Ha; [|done]. simplify_eq.
  destruct (R_look _ _ _ _ HR Ha) as (k & Hk & HcR). unfold mprint. rewrite Hk. simpl. destruct HcR. rewrite cr_tup.
  assert (forall T, SE T ∈ ac_tup a -> exists sl, hp m !! inl (c, T) = Some sl /\ cellR sl (ac_cell a !! T)) as Hc by auto.
  clear -Hc. revert Hc. generalize (ac_tup a) as tup. induction tup as [|t tup IH]; intros Hc; simpl; auto. destruct t as [T|].
  - destruct (Hc T ltac:(constructor)) as (sl & -> & Hcell). simpl.
    rewrite IH by (intros; apply Hc; by constructor). simpl. by rewrite (show_R _ _ _ _ Hcell).
  - apply IH. intros; apply Hc; by constructor.
Qed.

Lemma nodes_print_R h id l1 l2 m : hp m = h -> Forall2 (nodeR h) l1 l2 -> nodes_print G id l1 m = Ok (flat_map (sshow G id) l2).
Proof.
  intros <-. induction 1 as [|[T n] [T' kv] l1 l2 [E (sl & Hsl & Hc)] _ IH]; simpl in *; auto. subst T'.
  rewrite Hsl. simpl. rewrite IH. simpl. by rewrite (show_R id T sl (Some kv) Hc).
Qed.

Lemma details_R c id m s l : R m s -> sdetails G c id s = Ok l -> mdetails G c id m = Ok l.
Proof.
  intros HR H. unfold sdetails in H. destruct (actxs s !! c) as [a|] eqn:Ha; [|done]. simplify_eq.
  destruct (R_look _ _ _ _ HR Ha) as (k & Hk & HcR). unfold mdetails. rewrite Hk. simpl. destruct HcR. rewrite cr_tup.
  unfold nodes. destruct (decide (SDA ∈ ac_tup a)) as [HD|HD].
  - rewrite bool_decide_true by done. destruct (cr_coll HD) as (d & -> & Hcoll). simpl.
    destruct (ac_coll a) as [q|]; simpl in Hcoll.
    + destruct Hcoll as (Hq0 & -> & _ & _ & _ & HF). rewrite (proj2 (Z.eqb_neq _ _) Hq0). by apply (nodes_print_R (hp m)).
    + by destruct Hcoll as [-> _].
  - rewrite bool_decide_false by done. by destruct (cr_nocoll HD) as [_ ->].
Qed.

(** ** Extracting *)
Lemma take_nodes_R l1 : forall l2 m, NoDup l1.*2 -> Forall2 (nodeR (hp m)) l1 l2 ->
  exists h, take_nodes l1 m = Ok (l2, set_hp h m) /\
  (forall c T, h !! inl (c, T) = hp m !! inl (c, T)) /\ (forall n, n ∉ l1.*2 -> h !! inr n = hp m !! inr n).
Proof.
  induction l1 as [|[T n] l1 IH]; intros l2 m Hnd HF; inversion HF as [|? [T' [k v]] ? l2' [E (sl & Hsl & Hc)] HF']; subst; simpl.
  - exists (hp m). split; [by destruct m|]. done.
  - simpl in *. subst T'. destruct Hc as (_ & <- & <-). rewrite Hsl. simpl. csimpl in Hnd. apply NoDup_cons in Hnd as [Hni Hnd].
    destruct (IH l2' (set_hp (delete (inr n) (hp m)) m)) as (h & Hh & H1 & H2); auto.
    { eapply Forall2_nodeR_ext; [|exact HF']. intros n' Hn' sl' Hsl'. exists sl'. simpl.
      rewrite lookup_delete_ne by (intros [= ->]; done). auto. }
    rewrite Hh. simpl. exists h. split; [done|]. split.
    + intros c T'. rewrite H1. simpl. by rewrite lookup_delete_ne.
    + intros n' Hn'. csimpl in Hn'. apply not_elem_of_cons in Hn' as [? ?]. rewrite H2 by done. simpl.
      rewrite lookup_delete_ne by congruence. done.
Qed.

Lemma extract_R c id hasex m s l s' : R m s -> sextract c id hasex s = Ok (l, s') ->
  exists m', mextract G c id hasex m = Ok (l, m') /\ R m' s'.
Proof.
  intros HR H. unfold sextract in H. destruct (actxs s !! c) as [a|] eqn:Ha; [|done].
  destruct (has_d a) eqn:HD; [|done]. apply bool_decide_eq_true in HD. simpl in H. case_bool_decide as Hni; [done|].
  ok_inv H. apply sassert_ok in E.
  destruct (R_look _ _ _ _ HR Ha) as (k & Hk & HcR). pose proof HcR as HcR'. destruct HcR'.
  destruct (cr_coll HD) as (d & Hd & Hcoll). unfold mextract. rewrite Hd. simpl. rewrite assert_ok by done. simpl.
  apply nz_true in E.
  (* the state afterwards, whatever happened to the nodes *)
  assert (forall h, (forall c T, h !! inl (c, T) = hp m !! inl (c, T)) -> (forall n, n ∉ (d_nodes d).*2 -> h !! inr n = hp m !! inr n) ->
    R (set_hp h (set_dhp (<[c:=DSlot id [] true (d_prev d)]> (dhp m)) m)) (put c (set_coll (Some (Coll id [] true)) a) s)) as Hend.
  { intros h Hh1 Hh2. apply R_unowned.
    - by apply empty_R.
    - simpl. intros. apply Hh1.
    - simpl. intros c' d' n Hd' Hn. apply Hh2. intros Hn'. destruct (decide (c' = c)) as [->|Hne].
      + rewrite lookup_insert in Hd'. simplify_eq. inversion Hn.
      + rewrite lookup_insert_ne in Hd' by done. apply Hne. eapply (R_own _ _ HR); eauto. }
  (* a different key: the nodes are destroyed *)
  assert (d_key d <> id -> exists m', (let! m1 := dslot_load G c id m in
      let! d1 := deref (dhp m1 !! c) in
      let! _ := (if hasex && negb (d_last d1) then Fail UAF else Ok tt) in
      let! rm := take_nodes (d_nodes d1) m1 in
      Ok (fst rm, set_dhp (<[c := DSlot (d_key d1) [] true (d_prev d1)]> (dhp (snd rm))) (snd rm))) = Ok ([], m') /\
      R m' (put c (set_coll (Some (Coll id [] true)) a) s)) as Hdiff.
  { intros Hne. unfold dslot_load. rewrite assert_ok by (by apply nz_true). simpl. unfold dslot_reset. rewrite Hd. simpl.
    destruct (coll_facts _ _ _ _ _ _ HcR Hd) as (Hns & Hnd2 & Hk0).
    destruct (nodes_free_spec (d_nodes d) m Hns Hnd2) as (h0 & Hh0 & H01 & H02).
    { intros T n Hn. eapply tls_inactive_node; eauto. apply elem_of_list_fmap. exists (T, n). auto. }
    assert ((if d_key d =? 0 then Ok m else for_nodes (fun T n => slot_free G (inr n) T) (d_nodes d) m) = Ok (set_hp h0 m)) as ->.
    { destruct (d_key d =? 0) eqn:E1; auto. apply Z.eqb_eq in E1. rewrite (Hk0 E1) in Hh0. exact Hh0. }
    simpl. rewrite lookup_insert. simpl. rewrite lookup_insert. simpl. rewrite andb_false_r. simpl.
    eexists. split; [done|]. rewrite !insert_insert. by apply (Hend h0). }
  destruct (ac_coll a) as [q|] eqn:Hq; simpl in Hcoll.
  - destruct Hcoll as (Hq0 & Hkey & Hlast & _ & Hnd2 & HF). rewrite <- Hkey in H. destruct (d_key d =? id) eqn:Ek.
    + simpl. rewrite Hd. simpl. rewrite Hlast. destruct (hasex && negb (q_ok q)); [done|]. simplify_eq. simpl.
      destruct (take_nodes_R (d_nodes d) (q_nodes q) m Hnd2 HF) as (h & -> & H1 & H2). simpl.
      eexists. split; [done|]. apply Z.eqb_eq in Ek. rewrite Ek in *. by apply (Hend h).
    + simplify_eq. apply Hdiff. by apply Z.eqb_neq.
  - destruct Hcoll as [Hkey _]. simplify_eq. rewrite Hkey in *. rewrite (proj2 (Z.eqb_neq 0 id)) by lia.
    apply Hdiff. auto.
Qed.

End sim.
