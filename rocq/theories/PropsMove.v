(** C51, one more part: what a moved context has, also if it collects objects for diagnostic_details. *)
From Verif Require Export PropsShare PropsHandle.
Open Scope Z_scope.

(** ** Specification *)
(** In builds with assertions a context can be moved only if the slots were not left behind with a pointer to an outer one, and the list of
    collected objects was not left behind with a dangling pointer. *)
Definition movable (G : cfg) (m : mem) (c : cid) : Prop :=
  g_asserts G = true ->
    (forall T sl, T ∈ members m c -> hp m !! inl (c, T) = Some sl -> e_prev sl = None) /\
    (forall d, dhp m !! c = Some d -> d_prev d = None /\ (d_key d <> 0 -> d_last d = true)).

(** ** Proof *)
Lemma deref_some {A} (o : option A) x : deref o = Ok x -> o = Some x.
Proof. destruct o; [|done]. by intros [= ->]. Qed.
Section move.
Context (G : cfg).

Lemma assert_imp (b : bool) : (g_asserts G = true -> b = true) -> assert G b = Ok tt.
Proof. intros H. unfold assert. destruct (g_asserts G); [by rewrite H|done]. Qed.

Lemma move_all c c' l : c <> c' -> NoDup l -> forall m,
  (forall T, SE T ∈ l -> exists sl, hp m !! inl (c, T) = Some sl /\ (g_asserts G = true -> e_prev sl = None)) ->
  (SDA ∈ l -> exists d, dhp m !! c = Some d /\ (g_asserts G = true -> d_prev d = None /\ (d_key d <> 0 -> d_last d = true))) ->
  exists m', for_tup (sty_move G c c') l m = Ok m' /\
    tls m' = tls m /\ tlsd m' = tlsd m /\ ctxs m' = ctxs m /\ nc m' = nc m /\ na m' = na m /\
    (forall T sl, SE T ∈ l -> hp m !! inl (c, T) = Some sl ->
       hp m' !! inl (c, T) = Some (ESlot 0 (e_val sl) (e_prev sl)) /\ hp m' !! inl (c', T) = Some (ESlot (e_key sl) (e_val sl) None)) /\
    (forall ad, (forall T, SE T ∈ l -> ad <> inl (c, T) /\ ad <> inl (c', T)) -> hp m' !! ad = hp m !! ad) /\
    (forall d, SDA ∈ l -> dhp m !! c = Some d -> dhp m' !! c = Some (DSlot 0 [] true (d_prev d)) /\ dhp m' !! c' = Some (DSlot (d_key d) (d_nodes d) (d_last d) None)) /\
    (forall x, (SDA ∈ l -> x <> c /\ x <> c') -> dhp m' !! x = dhp m !! x).
Proof.
  intros Hc. induction l as [|t l IH]; intros Hnd m HE HD; cbn [for_tup].
  - exists m. split_and!; try done; [intros T sl H|intros d H]; by apply elem_of_nil in H.
  - apply NoDup_cons in Hnd as [Hnin Hnd]. destruct t as [T|]; cbn [sty_move].
    + destruct (HE T ltac:(by constructor)) as (sl & Hsl & Hp). rewrite Hsl. cbn [deref rbind]. rewrite assert_imp by (intros; apply bool_decide_eq_true; auto). cbn [rbind].
      destruct (IH Hnd (set_hp (<[inl (c, T) := ESlot 0 (e_val sl) (e_prev sl)]> (<[inl (c', T) := ESlot (e_key sl) (e_val sl) None]> (hp m))) m)) as (m' & E & A1 & A2 & A3 & A4 & A5 & A6 & A7 & A8 & A9).
      { intros T' HT'. assert (T' <> T) by (by intros ->). simpl. rewrite !lookup_insert_ne by congruence. apply HE. by constructor. }
      { intros H. simpl. apply HD. by constructor. }
      exists m'. split; [done|]. split_and!; try done.
      * intros T' sl' HT' Hsl'. destruct (decide (T' = T)) as [->|Hne].
        -- rewrite Hsl in Hsl'. injection Hsl' as <-. rewrite !A7 by (intros T2 HT2; assert (T2 <> T) by (by intros ->); split; congruence).
           simpl. rewrite lookup_insert, lookup_insert_ne by congruence. by rewrite lookup_insert.
        -- apply elem_of_cons in HT' as [[= ->]|HT']; [done|]. apply A6; [done|]. simpl. by rewrite !lookup_insert_ne by congruence.
      * intros ad Had. rewrite A7 by (intros T' HT'; apply Had; by constructor). simpl. destruct (Had T ltac:(by constructor)). by rewrite !lookup_insert_ne.
      * intros d Hd Hd2. apply elem_of_cons in Hd as [?|Hd]; [done|]. by apply A8.
      * intros x Hx. apply A9. intros H. apply Hx. by constructor.
    + destruct (HD ltac:(by constructor)) as (d & Hd & Hp). rewrite Hd. cbn [deref rbind].
      replace (if g_asserts G && negb (d_key d =? 0) && negb (d_last d) then Fail UAF else Ok tt) with (Ok tt : res unit).
      2: { destruct (g_asserts G); [|done]. destruct (Z.eqb_spec (d_key d) 0); [done|]. by rewrite (proj2 (Hp eq_refl)). }
      cbn [rbind]. rewrite assert_imp by (intros H; apply bool_decide_eq_true; by apply Hp). cbn [rbind].
      destruct (IH Hnd (set_dhp (<[c := DSlot 0 [] true (d_prev d)]> (<[c' := DSlot (d_key d) (d_nodes d) (d_last d) None]> (dhp m))) m)) as (m' & E & A1 & A2 & A3 & A4 & A5 & A6 & A7 & A8 & A9).
      { intros T' HT'. simpl. apply HE. by constructor. }
      { done. }
      exists m'. split; [done|]. split_and!; try done.
      * intros T sl HT Hsl. apply elem_of_cons in HT as [?|HT]; [done|]. by apply A6.
      * intros ad Had. apply A7. intros T HT. apply Had. by constructor.
      * intros d1 _ Hd1. assert (d1 = d) as -> by congruence. rewrite !A9 by done. simpl. rewrite lookup_insert, lookup_insert_ne by done. by rewrite lookup_insert.
      * intros x Hx. rewrite A9 by done. simpl. destruct (Hx ltac:(by constructor)). by rewrite !lookup_insert_ne.
Qed.

Definition moved_s (c : cid) (a : actx) (s : smem) : smem :=
  SMem (stack s) (<[c := ACtx (ac_tup a) ∅ None]> (<[snc s := a]> (actxs s))) (S (snc s)).
Lemma mmove_R m s c a : R m s -> actxs s !! c = Some a -> c ∉ stack s -> movable G m c ->
  exists m', mmove G c m = Ok (nc m, m') /\ R m' (moved_s c a s) /\ tls m' = tls m /\ tlsd m' = tlsd m /\ na m' = na m /\
    ctxs m' = <[nc m := CCtx (ac_tup a) false]> (ctxs m).
Proof.
  intros HR Ha Hst Hmv. destruct (R_look _ _ _ _ HR Ha) as (k & Hk & HcR). pose proof HcR as HcR'. destruct HcR'.
  pose proof (R_lt _ _ HR c a Ha) as Hlt. rewrite (R_nc _ _ HR). assert (c <> snc s) as Hne by lia. set (c' := snc s) in *.
  assert (forall d, dhp m !! c' = Some d -> False) as Hd'.
  { intros d Hd. destruct (R_dom _ _ HR c' d Hd) as [k' Hk']. pose proof (R_ctx _ _ HR c') as H. rewrite Hk' in H. destruct (actxs s !! c') as [a'|] eqn:Ea; [|done]. apply (R_lt _ _ HR) in Ea. unfold c' in Ea. lia. }
  assert (forall x, x ∈ stack s -> x <> c /\ x <> c') as Hin.
  { intros x Hx. split; [congruence|]. intros ->. destruct (R_in _ _ HR _ Hx) as [ax Hax]. apply (R_lt _ _ HR) in Hax. unfold c' in Hax. lia. }
  destruct (move_all c c' (ac_tup a) Hne cr_nodup m) as (m1 & E & A1 & A2 & A3 & A4 & A5 & A6 & A7 & A8 & A9).
  { intros T HT. destruct (cr_cell T HT) as (sl & Hsl & _). exists sl. split; [done|]. intros Has. apply (proj1 (Hmv Has) T); [|done].
    apply (elem_members _ _ _ _ Hk). by rewrite cr_tup. }
  { intros HT. destruct (cr_coll HT) as (d & Hd & _). exists d. split; [done|]. intros Has. by apply (proj2 (Hmv Has)). }
  unfold mmove. rewrite Hk. cbn [deref rbind]. rewrite (R_nc _ _ HR). fold c'. rewrite cr_tup, E. cbn [rbind]. rewrite cr_act, bool_decide_false by done. cbn [negb assert andb].
  eexists. split; [unfold assert; rewrite andb_false_r; reflexivity|]. split; [|simpl; by rewrite A3].
  assert (forall x, x <> c -> x <> c' -> forall T, hp m1 !! inl (x, T) = hp m !! inl (x, T)) as Bh by (intros x H1 H2 T; apply A7; intros; split; congruence).
  assert (forall n, hp m1 !! inr n = hp m !! inr n) as Bn by (intros n; by apply A7).
  assert (forall x, x <> c -> x <> c' -> dhp m1 !! x = dhp m !! x) as Bd by (intros x H1 H2; by apply A9).
  assert (forall x d, dhp m1 !! x = Some d -> (x = c /\ d_nodes d = []) \/ (x = c' /\ exists d0, dhp m !! c = Some d0 /\ d_nodes d = d_nodes d0) \/ (x <> c /\ x <> c' /\ dhp m !! x = Some d)) as Bback.
  { intros x d Hd. destruct (decide (x = c)) as [->|]; [|destruct (decide (x = c')) as [->|]; [|right; right; rewrite Bd in Hd by done; done]].
    - left. split; [done|]. destruct (decide (SDA ∈ ac_tup a)) as [HS|HS].
      + destruct (cr_coll HS) as (d0 & Hd0 & _). rewrite (proj1 (A8 d0 HS Hd0)) in Hd. by injection Hd as <-.
      + rewrite A9 in Hd by done. destruct (cr_nocoll HS). congruence.
    - right. left. split; [done|]. destruct (decide (SDA ∈ ac_tup a)) as [HS|HS].
      + destruct (cr_coll HS) as (d0 & Hd0 & _). rewrite (proj2 (A8 d0 HS Hd0)) in Hd. injection Hd as <-. eauto.
      + rewrite A9 in Hd by done. by destruct (Hd' d). }
  match goal with |- R ?x _ => set (m' := x) end.
  assert (forall x, x <> c' -> ctxs m' !! x = ctxs m !! x) as Cc by (intros x Hx; unfold m'; simpl; rewrite A3; by rewrite lookup_insert_ne).
  assert (forall x T, x ∈ stack s -> caddr m x T = caddr m' x T) as Cad.
  { intros x T Hx. destruct (Hin _ Hx). unfold caddr. rewrite Cc by done. change (dhp m') with (dhp m1). by rewrite Bd. }
  assert (forall x, x ∈ stack s -> hasd m x = hasd m' x) as Chd.
  { intros x Hx. destruct (Hin _ Hx). unfold hasd. by rewrite Cc. }
  destruct HR. constructor.
  - reflexivity.
  - intros x. cbn [moved_s actxs stack]. destruct (decide (x = c)) as [->|Hxc]; [|destruct (decide (x = c')) as [->|Hxc']].
    + rewrite lookup_insert. rewrite Cc, Hk by done. simpl. constructor; simpl; auto.
      * intros T HT. destruct (cr_cell T HT) as (sl & Hsl & _). destruct (A6 T sl HT Hsl) as [H _]. rewrite H. eexists. split; [done|]. by rewrite lookup_empty.
      * intros HT. destruct (cr_coll HT) as (d & Hd & _). destruct (A8 d HT Hd) as [H _]. rewrite H. by eexists.
      * intros HT. rewrite A9 by done. destruct (cr_nocoll HT). done.
      * done.
    + rewrite lookup_insert_ne by done. fold c'. rewrite lookup_insert. unfold m'. simpl. rewrite lookup_insert. simpl. constructor; simpl; auto.
      * rewrite bool_decide_false; [done|]. intros Hx. by destruct (Hin _ Hx).
      * intros T HT. destruct (cr_cell T HT) as (sl & Hsl & HcR1). destruct (A6 T sl HT Hsl) as [_ H]. rewrite H. eexists. split; [done|].
        destruct (ac_cell a !! T) as [[? ?]|]; simpl in *; done.
      * intros HT. destruct (cr_coll HT) as (d & Hd & HcR1). destruct (A8 d HT Hd) as [_ H]. rewrite H. eexists. split; [done|].
        destruct (ac_coll a) as [q|]; simpl in *; [|done]. destruct HcR1 as (? & ? & ? & ? & ? & HF). split_and!; try done.
        eapply Forall2_impl; [exact HF|]. intros [T n] [T' kv] (? & sl & ? & ?). split; [done|]. exists sl. simpl in *. by rewrite Bn.
      * intros HT. rewrite A9 by done. destruct (cr_nocoll HT). split; [|done]. destruct (dhp m !! c') eqn:Ed; [by destruct (Hd' _ eq_refl)|done].
    + rewrite !lookup_insert_ne by done. rewrite Cc by done. specialize (R_ctx x). destruct (ctxs m !! x) as [kx|], (actxs s !! x) as [ax|]; simpl in *; try done.
      eapply ctxR_ext; [..|exact R_ctx]; try done.
      * intros T sl HT Hsl. exists sl. simpl. by rewrite Bh.
      * intros d Hd. exists d. simpl. rewrite Bd by done. split_and!; try done. intros n Hn sl Hsl. exists sl. by rewrite Bn.
      * intros Hd. simpl. by rewrite Bd.
  - intros x d Hd. destruct (decide (x = c')) as [->|Hx]; [unfold m'; simpl; rewrite lookup_insert; eauto|]. rewrite Cc by done.
    destruct (Bback x d Hd) as [[-> _]|[[? _]|(_ & _ & ?)]]; eauto. done.
  - intros x ax. cbn [moved_s actxs snc]. destruct (decide (x = c)) as [->|]; [rewrite lookup_insert; lia|]. rewrite lookup_insert_ne by done. fold c'.
    destruct (decide (x = c')) as [->|]; [unfold c'; lia|]. rewrite lookup_insert_ne by done. intros Hax%R_lt. unfold c' in *. lia.
  - done.
  - intros x Hx. destruct (Hin x Hx). cbn [moved_s actxs]. rewrite !lookup_insert_ne by done. by apply R_in.
  - intros T. transitivity (tls m !! T); [unfold m'; simpl; by rewrite A1|]. rewrite R_tls. apply chead_ext. auto.
  - intros T. eapply linked_ext; [intros; by apply Cad| |apply R_lnk]. intros x ad sl Hx Had Hsl. exists sl. split; [|done]. destruct (Hin x Hx).
    change (hp m1 !! ad = Some sl). assert (ad = inl (x, T) \/ exists n, ad = inr n) as [->|[n ->]]; [|by rewrite Bh|by rewrite Bn].
    unfold caddr in Had. destruct (ctxs m !! x); [|done]. case_bool_decide; [injection Had as <-; by left|]. destruct (dhp m !! x) as [dx|]; [|done]. destruct (node_at T (d_nodes dx)); [|done]. injection Had as <-. eauto.
  - transitivity (tlsd m); [unfold m'; simpl; by rewrite A2|]. rewrite R_tlsd. apply dhead_ext. auto.
  - eapply dlinked_ext; [intros; by apply Chd| |exact R_dlnk]. intros x d Hx Hd. destruct (Hin x Hx). exists d. split; [|done]. change (dhp m1 !! x = Some d). by rewrite Bd.
  - intros x1 x2 d1 d2 n H1 H2 N1 N2.
    destruct (Bback x1 d1 H1) as [[_ E1]|[(-> & e1 & F1 & E1)|(P1 & Q1 & F1)]]; [rewrite E1 in N1; by apply elem_of_nil in N1|..];
    (destruct (Bback x2 d2 H2) as [[_ E2]|[(-> & e2 & F2 & E2)|(P2 & Q2 & F2)]]; [rewrite E2 in N2; by apply elem_of_nil in N2|..]); try done.
    + rewrite E1 in N1. destruct P2. symmetry. exact (R_own c x2 e1 d2 n F1 F2 N1 N2).
    + rewrite E2 in N2. destruct P1. exact (R_own x1 c d1 e2 n F1 F2 N1 N2).
    + exact (R_own x1 x2 d1 d2 n F1 F2 N1 N2).
  - intros x d n Hd Hn. change (na m') with (na m1). rewrite A5.
    destruct (Bback x d Hd) as [[_ E1]|[(-> & e1 & F1 & E1)|(P1 & Q1 & F1)]]; [rewrite E1 in Hn; by apply elem_of_nil in Hn|rewrite E1 in Hn|]; by eapply R_na.
Qed.
Lemma move_all_inv c c' l : c <> c' -> NoDup l -> g_asserts G = true -> forall m m', for_tup (sty_move G c c') l m = Ok m' ->
  (forall T sl, SE T ∈ l -> hp m !! inl (c, T) = Some sl -> e_prev sl = None) /\
  (forall d, SDA ∈ l -> dhp m !! c = Some d -> d_prev d = None /\ (d_key d <> 0 -> d_last d = true)).
Proof.
  intros Hc Hnd Has. assert (forall b u, assert G b = Ok u -> b = true) as Hb by (intros b u; unfold assert; rewrite Has; by destruct b).
  induction l as [|t l IH]; intros m m' H; cbn [for_tup] in H; [split; intros * Hx; by apply elem_of_nil in Hx|].
  apply NoDup_cons in Hnd as [Hnin Hnd]. ok_inv H. destruct (IH Hnd _ _ H) as [H1 H2]. destruct t as [T|]; cbn [sty_move] in E.
  - ok_inv E. apply deref_some in E0. ok_inv E. apply Hb, bool_decide_eq_true in E1. injection E as <-. split.
    + intros T' sl HT' Hsl. destruct (decide (T' = T)) as [->|Hne]; [congruence|]. apply elem_of_cons in HT' as [[= ->]|HT']; [done|]. eapply (H1 T'); [done|]. simpl. by rewrite !lookup_insert_ne by congruence.
    + intros d Hd Hd2. apply elem_of_cons in Hd as [?|Hd]; [done|]. by apply H2.
  - ok_inv E. apply deref_some in E0. ok_inv E. ok_inv E. apply Hb, bool_decide_eq_true in E2. injection E as <-. split.
    + intros T' sl HT' Hsl. apply elem_of_cons in HT' as [?|HT']; [done|]. by eapply H1.
    + intros d _ Hd. rewrite E0 in Hd. injection Hd as <-. split; [done|]. intros Hk. rewrite Has in E1. simpl in E1. rewrite (proj2 (Z.eqb_neq _ _) Hk) in E1. simpl in E1. by destruct (d_last a0).
Qed.
End move.

(** ** Theorems *)
(** The new context has all objects the old one had, also collected ones, the old one has none; no other context changes, nor where new objects go;
    nothing is allocated. And the storage is in order (R), so that everything that is proved about contexts applies to both. *)
Theorem C51_moved_context :
  forall G m s c k, R m s -> ctxs m !! c = Some k -> k_act k = false -> movable G m c ->
    exists m' s', mmove G c m = Ok (nc m, m') /\ R m' s' /\ stack s' = stack s /\
      ctxs m' = <[nc m := k]> (ctxs m) /\ tls m' = tls m /\ tlsd m' = tlsd m /\ na m' = na m /\
      (forall T, held m' (nc m) T = held m c T) /\ (forall T, held m' c T = None) /\
      (forall d T, d <> c -> d <> nc m -> held m' d T = held m d T) /\
      (collected m' (nc m) = collected m c /\ collected m' c = []).
Proof.
  intros G m s c k HR Hk Hact Hmv. pose proof (R_ctx _ _ HR c) as Hc. rewrite Hk in Hc. destruct (actxs s !! c) as [a|] eqn:Ha; [|done]. simpl in Hc.
  assert (c ∉ stack s) as Hst. { intros Hx. pose proof (cr_act _ _ _ _ _ Hc) as E. rewrite bool_decide_true in E by done. congruence. }
  destruct (mmove_R G m s c a HR Ha Hst Hmv) as (m' & E & HR' & A1 & A2 & A3 & A4). exists m', (moved_s c a s). split; [done|]. split; [done|]. split; [done|].
  assert (CCtx (ac_tup a) false = k) as Ek by (rewrite <- (cr_tup _ _ _ _ _ Hc); destruct k; simpl in *; by subst).
  rewrite Ek in A4. split; [done|]. split; [done|]. split; [done|]. split; [done|].
  pose proof (R_lt _ _ HR c a Ha) as Hlt. rewrite (R_nc _ _ HR). assert (c <> snc s) as Hne by lia.
  assert (actxs (moved_s c a s) !! c = Some (ACtx (ac_tup a) ∅ None)) as Hc1 by (simpl; by rewrite lookup_insert).
  assert (actxs (moved_s c a s) !! snc s = Some a) as Hc2 by (simpl; by rewrite lookup_insert_ne, lookup_insert).
  split; [|split; [|split]].
  - intros T. by rewrite (R_held _ _ _ _ T HR' Hc2), (R_held _ _ _ _ T HR Ha).
  - intros T. rewrite (R_held _ _ _ _ T HR' Hc1). unfold get_e. simpl. destruct (bool_decide (SE T ∈ ac_tup a)); [apply lookup_empty|done].
  - intros d T H1 H2. destruct (actxs s !! d) as [ad|] eqn:Ed.
    + assert (actxs (moved_s c a s) !! d = Some ad) as Hd by (simpl; by rewrite !lookup_insert_ne by done). by rewrite (R_held _ _ _ _ T HR' Hd), (R_held _ _ _ _ T HR Ed).
    + assert (actxs (moved_s c a s) !! d = None) as Hd by (simpl; by rewrite !lookup_insert_ne by done).
      unfold held, caddr. by rewrite (R_look_none _ _ _ HR' Hd), (R_look_none _ _ _ HR Ed).
  - assert (forall m s x ax, R m s -> actxs s !! x = Some ax -> collected m x = (nodes ax).*1) as Hcol.
    { clear. intros m s x ax HR Hx. destruct (R_look _ _ _ _ HR Hx) as (k & _ & HcR). destruct HcR. unfold collected, nodes. destruct (decide (SDA ∈ ac_tup ax)) as [HS|HS].
      - destruct (cr_coll HS) as (d & -> & Hcoll). destruct (ac_coll ax) as [q|]; simpl in *; [|by destruct Hcoll as [_ ->]].
        destruct Hcoll as (_ & _ & _ & _ & _ & HF). clear - HF. induction HF as [|x0 y l l' [H1 _] HF IH]; [done|]. rewrite !fmap_cons. by rewrite H1, IH.
      - destruct (cr_nocoll HS) as [-> ->]. done. }
    rewrite (Hcol _ _ _ _ HR' Hc2), (Hcol _ _ _ _ HR Ha), (Hcol _ _ _ _ HR' Hc1). done.
Qed.
Print Assumptions C51_moved_context.
(** In builds with assertions no other context can be moved. *)
Theorem C51_movable_needed :
  forall G m s c x, R m s -> mmove G c m = Ok x -> movable G m c /\ (g_asserts G = true -> exists k, ctxs m !! c = Some k /\ k_act k = false).
Proof.
  intros G m s c x HR H. unfold mmove in H. ok_inv H. apply deref_some in E. ok_inv H. ok_inv H.
  pose proof (R_ctx _ _ HR c) as Hc. rewrite E in Hc. destruct (actxs s !! c) as [ac|] eqn:Ha; [|done]. simpl in Hc.
  split.
  - intros Has. pose proof (R_lt _ _ HR c ac Ha) as Hlt.
    destruct (move_all_inv G c (nc m) (k_tup a) ltac:(rewrite (R_nc _ _ HR); lia) ltac:(rewrite (cr_tup _ _ _ _ _ Hc); apply (cr_nodup _ _ _ _ _ Hc)) Has _ _ E0) as [H1 H2]. split.
    + intros T sl HT. apply H1. by apply (elem_members _ _ _ _ E).
    + intros d Hd. apply H2; [|done]. rewrite (cr_tup _ _ _ _ _ Hc). destruct (decide (SDA ∈ ac_tup ac)) as [|HS]; [done|]. destruct (cr_nocoll _ _ _ _ _ Hc HS). congruence.
  - intros Has. exists a. split; [done|]. unfold assert in E1. rewrite Has in E1. by destruct (k_act a).
Qed.
Print Assumptions C51_movable_needed.

(** A context with a place for TA, collecting: TA and TC were loaded while it was active *)
Definition ex51_m : mem :=
  match (let! m1 := mact GX 0%nat (snd (mnew GX [SE TA; SDA] mem0)) in let! mg := mload GX false 9 (IVal TC (VZ 1)) m1 glob0 in
         let! mg2 := mload GX false 9 (IVal TA (VZ 2)) (fst mg) (snd mg) in mdeact GX 0%nat (fst mg2)) with Ok m => m | _ => mem0 end.
Example ex51_moved : (exists s, R ex51_m s) /\ ctxs ex51_m !! 0%nat = Some (CCtx [SE TA; SDA] false) /\ movable GX ex51_m 0%nat /\
  match mmove GX 0%nat ex51_m with
  | Ok (c, m') => (c, held m' c TA, held m' c TC, held m' 0%nat TA, held m' 0%nat TC) = (1%nat, Some (9, VZ 2), Some (9, VZ 1), None, None)
  | _ => False end.
Proof.
  split.
  { destruct (new_R GX [SE TA; SDA] mem0 smem0 ltac:(apply (bool_decide_unpack _); by vm_compute) R0) as [_ H0].
    destruct (act_R GX 0%nat _ _ _ H0 eq_refl) as (m1 & E1 & H1).
    destruct (load_R GX false 9 (IVal TC (VZ 1)) m1 _ glob0 _ _ H1 eq_refl) as (m2 & E2 & H2).
    destruct (load_R GX false 9 (IVal TA (VZ 2)) m2 _ glob0 _ _ H2 eq_refl) as (m3 & E3 & H3).
    destruct (deact_R GX 0%nat _ _ _ H3 eq_refl) as (m4 & E4 & H4).
    eexists. unfold ex51_m. rewrite E1. cbn [rbind]. rewrite E2. cbn [rbind fst snd]. rewrite E3. cbn [rbind fst snd]. rewrite E4. exact H4. }
  split; [reflexivity|]. split; [|vm_compute; reflexivity]. intros _. split.
  - intros T sl HT. assert (members ex51_m 0%nat = [TA]) as E by reflexivity. rewrite E in HT. apply elem_of_list_singleton in HT as ->. intros H. vm_compute in H. by injection H as <-.
  - intros d Hd. vm_compute in Hd. by injection Hd as <-.
Qed.
