(** C06, C07, C17, C18: loading error objects. *)
From Verif Require Export PropsTryEx Load.
Open Scope Z_scope.

(** The program that loads the given items, each for the given error, and goes on with k. *)
Definition loads (l : list (Z * item)) (k : prog) : prog := foldr (fun x k => PLoad (fst x) [snd x] k) k l.

(** Valid: the id is not 0. Accumulating functions for types no scope handles are excluded where a scope collects: see C15. *)
Definition fine (G : cfg) (m : mem) (x : Z * item) : Prop :=
  fst x <> 0 /\ match snd x with IAcc T _ _ => unserved m T -> g_capture G = true -> tlsd m = None | _ => True end.

Lemma fine_acc G m x : fine G m x -> acc_ok G (fst x) (snd x) m.
Proof. intros [_ H]. destruct (snd x); simpl in *; auto. intros Hu HG c d Hc. rewrite (H Hu HG) in Hc. done. Qed.

Lemma eval_load1 G M caught id it k (s : st M) : id <> 0 -> eval G M caught (PLoad id [it] k) s =
  (let! s1 := m_load M false id it (fst s) (snd s) in eval G M caught k s1).
Proof.
  intros Hid. cbn [eval]. unfold id_load. rewrite (proj2 (Z.eqb_neq id 0)) by done. cbn [load_items].
  by destruct (m_load M false id it (fst s) (snd s)).
Qed.

(** Several items at once are loaded one by one, in order. *)
Lemma eval_loads G M caught id its k (s : st M) : id <> 0 -> eval G M caught (PLoad id its k) s = eval G M caught (loads (map (pair id) its) k) s.
Proof.
  intros Hid. cbn [eval]. unfold id_load. rewrite (proj2 (Z.eqb_neq id 0)) by done. revert s. induction its as [|it its IH]; intros s; [done|].
  cbn [load_items map loads foldr fst snd]. rewrite eval_load1 by done. destruct (m_load M false id it (fst s) (snd s)) as [s1|]; [|done].
  apply IH.
Qed.
Lemma eval_new_error G M caught its k (s : st M) : let id := mk (g_sup G (ngen (snd s))) in
  eval G M caught (PNewError its k) s = eval G M caught (loads (map (pair id) its) (k id)) (fst s, snd (gnew G (snd s))).
Proof.
  intros id. rewrite <- eval_loads. done. unfold id, mk. intros E. apply Z.lor_eq_0_iff in E. lia.
Qed.

Lemma serves_not_unserved m T c : serves m T c -> ~ unserved m T.
Proof. intros (ad & H & _). unfold unserved. congruence. Qed.
Lemma not_unserved m s T : R m s -> ~ unserved m T -> exists c, serves m T c.
Proof.
  intros HR Hn. rewrite (R_unserved _ _ _ HR) in Hn. destruct (find_e T s) as [[c a]|] eqn:E; [|done]. exists c.
  apply (R_serves _ _ _ _ HR). by rewrite E.
Qed.

Section seq.
Context (G : cfg).

Lemma loaded_unserved onerr id it m s g m' s' g' T : R m s -> R m' s' -> loaded G onerr id it m g m' g' -> unserved m' T -> unserved m T.
Proof.
  intros HR HR' L H. destruct (decide (tls m !! T = None)) as [|Hn]; [done|]. destruct (not_unserved _ _ _ HR Hn) as [c Hc].
  exfalso. eapply serves_not_unserved; [|exact H]. apply (ld_serves _ _ _ _ _ _ _ _ L). by left.
Qed.
Lemma loaded_fine onerr id it m s g m' s' g' x : R m s -> R m' s' -> loaded G onerr id it m g m' g' -> fine G m x -> fine G m' x.
Proof.
  intros HR HR' L [H1 H2]. split; [done|]. destruct (snd x); auto. intros Hu HG. rewrite (ld_tlsd _ _ _ _ _ _ _ _ L). apply H2; auto.
  exact (loaded_unserved _ _ _ _ _ _ _ _ _ _ HR HR' L Hu).
Qed.

(** What a sequence of loads does to a type which some scope handles. *)
Lemma loads_run caught l : forall m s g, R m s -> usable m -> Forall (fine G m) l ->
  exists m' s' g', (forall k, eval G (pmach G) caught (loads l k) (m, g) = eval G (pmach G) caught k (m', g')) /\
    R m' s' /\ usable m' /\ ctxs m' = ctxs m /\ tlsd m' = tlsd m /\ quiet_glob g g' /\
    (forall T c, serves m T c -> serves m' T c) /\
    (forall T c, ~ unserved m T -> serves m' T c -> serves m T c) /\
    (forall x, fine G m x -> fine G m' x) /\
    (forall T c, ~ unserved m T -> ~ serves m T c \/ Forall (fun x => ity (snd x) <> Some T) l -> held m' c T = held m c T).
Proof.
  induction l as [|[id it] l IH]; intros m s g HR Hu HF.
  - exists m, s, g. split; [done|]. split; [done|]. split; [done|]. repeat (split; [done|]). done.
  - apply Forall_cons in HF as [Hx HF]. pose proof (proj1 Hx) as Hid. simpl in Hid.
    destruct (load_one G false id it m s g HR Hid Hu (fine_acc _ _ _ Hx)) as (m1 & g1 & s1 & E & HR1 & Hu1 & L).
    destruct (IH m1 s1 g1 HR1 Hu1) as (m' & s' & g' & E' & HR' & Hu' & A1 & A2 & A3 & A4 & A5 & A6 & A7).
    { eapply Forall_impl; [exact HF|]. intros x Hf. exact (loaded_fine _ _ _ _ _ _ _ _ _ _ HR HR1 L Hf). }
    exists m', s', g'. split; [|split; [done|split; [done|split; [|split; [|split; [|split; [|split; [|split]]]]]]]].
    + intros k. cbn [loads foldr fst snd]. rewrite eval_load1 by done. cbn [fst snd].
      change (m_load (pmach G) false id it m g) with (mload G false id it m g). rewrite E. apply E'.
    + exact (eq_trans A1 (ld_ctxs _ _ _ _ _ _ _ _ L)).
    + exact (eq_trans A2 (ld_tlsd _ _ _ _ _ _ _ _ L)).
    + destruct (ld_quiet _ _ _ _ _ _ _ _ L) as (? & ? & ? & ?), A3 as (? & ? & ? & ?). repeat split; congruence.
    + intros T c Hs. apply A4, (ld_serves _ _ _ _ _ _ _ _ L). by left.
    + intros T c Hn Hs. apply A5 in Hs.
      * apply (ld_serves _ _ _ _ _ _ _ _ L) in Hs as [|[_ [? _]]]; [assumption|contradiction].
      * intros Hn'. apply Hn. exact (loaded_unserved _ _ _ _ _ _ _ _ _ _ HR HR1 L Hn').
    + intros x Hx'. apply A6. exact (loaded_fine _ _ _ _ _ _ _ _ _ _ HR HR1 L Hx').
    + intros T c Hn Ho.
      assert (~ unserved m1 T) as Hn1 by (intros Hn'; apply Hn; exact (loaded_unserved _ _ _ _ _ _ _ _ _ _ HR HR1 L Hn')).
      rewrite A7; [|done|].
      * apply (ld_old _ _ _ _ _ _ _ _ L). intros Hi [[Hs _]|[? _]]; [|done]. destruct Ho as [?|Ho]; [done|]. by apply Forall_cons in Ho as [Ho _].
      * destruct Ho as [Ho|Ho]; [left|right; by apply Forall_cons in Ho as [_ Ho]]. intros Hs. apply Ho.
        apply (ld_serves _ _ _ _ _ _ _ _ L) in Hs as [|[_ [? _]]]; [assumption|contradiction].
Qed.
Lemma loads_app l1 l2 k : loads (l1 ++ l2) k = loads l1 (loads l2 k).
Proof. unfold loads. by rewrite foldr_app. Qed.
End seq.

(** ** C06
    Context c serves T: it is the innermost one that handles T. After any loads l1, it; l2, for any error ids, where l2 has no
    more objects of type T, c holds exactly what [it] produces, for the error id it was loaded for
    (what an accumulating function produces depends on the object that was there for the same error).
    Types and contexts not concerned are not disturbed. *)
Theorem C06_last_load_wins :
  forall G caught m s g T c l1 id it l2,
    R m s -> usable m -> serves m T c -> ity it = Some T ->
    Forall (fine G m) (l1 ++ (id, it) :: l2) -> Forall (fun x => ity (snd x) <> Some T) l2 ->
    exists m1 g1 m' s' g' v,
      (forall k, eval G (pmach G) caught (loads l1 k) (m, g) = eval G (pmach G) caught k (m1, g1)) /\
      (forall k, eval G (pmach G) caught (loads (l1 ++ (id, it) :: l2) k) (m, g) = eval G (pmach G) caught k (m', g')) /\
      R m' s' /\ ctxs m' = ctxs m /\ serves m' T c /\
      value G it (sees id (held m1 c T)) (tr g1) = Some v /\
      held m' c T = Some (id, v) /\
      (forall T' c', ~ unserved m T' -> ~ serves m T' c' \/ Forall (fun x => ity (snd x) <> Some T') (l1 ++ (id, it) :: l2) ->
         held m' c' T' = held m c' T').
Proof.
  intros G caught m s g T c l1 id it l2 HR Hu Hs Hit HF HN. 
  destruct (loads_run G caught _ _ _ g HR Hu HF) as (m' & s' & g' & E' & HR' & _ & B1 & _ & _ & B4 & _ & _ & B7).
  apply Forall_app in HF as [HF1 HF2]. apply Forall_cons in HF2 as [Hx HF2].
  destruct (loads_run G caught l1 m s g HR Hu HF1) as (m1 & s1 & g1 & E1 & HR1 & Hu1 & A1 & A2 & A3 & A4 & A5 & A6 & A7).
  pose proof (proj1 Hx) as Hid. simpl in Hid.
  destruct (load_one G false id it m1 s1 g1 HR1 Hid Hu1 (fine_acc _ _ _ (A6 _ Hx))) as (m2 & g2 & s2 & E2 & HR2 & Hu2 & L).
  destruct (loads_run G caught l2 m2 s2 g2 HR2 Hu2) as (m3 & s3 & g3 & E3 & HR3 & Hu3 & C1 & C2 & C3 & C4 & C5 & C6 & C7).
  { eapply Forall_impl; [exact HF2|]. intros x Hf. eapply (loaded_fine G _ _ _ _ _ _ _ _ _ _ HR1 HR2 L). by apply A6. }
  assert (m3 = m' /\ g3 = g') as [-> ->].
  { pose proof (E' (PMonitor (fun _ => PRet (RVal 0)))) as X. rewrite loads_app, E1 in X. cbn [loads foldr fst snd] in X. rewrite eval_load1 in X by done.
    cbn [fst snd] in X. change (m_load (pmach G) false id it m1 g1) with (mload G false id it m1 g1) in X. rewrite E2 in X.
    unfold rbind in X. fold (loads l2 (PMonitor (fun _ => PRet (RVal 0)))) in X. rewrite E3 in X. cbn [eval] in X. by simplify_eq. }
  pose proof (A4 _ _ Hs) as Hs1. assert (exists v, value G it (sees id (held m1 c T)) (tr g1) = Some v) as [v Hv] by (destruct it; simpl in *; eauto; done).
  exists m1, g1, m', s', g', v. split; [done|]. split; [done|]. split; [done|]. split; [done|]. split; [by apply B4|]. split; [done|]. split; [|done].
  assert (held m2 c T = Some (id, v)) as H2.
  { apply (ld_new _ _ _ _ _ _ _ _ L); auto; [by rewrite (serves_visible _ _ _ Hs1)|]. left. split; auto. destruct it; simpl; auto; intros [? _]; done. }
  rewrite C7; auto. intros Hn. eapply serves_not_unserved; [exact Hs1|]. exact (loaded_unserved G _ _ _ _ _ _ _ _ _ _ HR1 HR2 L Hn).
Qed.
Print Assumptions C06_last_load_wins.

(** Concrete states: contexts with the given slots, nested in this order, all active. *)
Definition nest_m (tups : list (list sty)) : mem :=
  foldl (fun m t => match enter (pmach GX) t (m, glob0) with Ok (_, (m, _)) => m | _ => m end) mem0 tups.
Definition nest_s (tups : list (list sty)) : smem :=
  foldl (fun s t => match enter (smach (asserts_on GX)) t (s, glob0) with Ok (_, (s, _)) => s | _ => s end) smem0 tups.
Lemma nest_R tups : Forall (fun t => NoDup t) tups -> R (nest_m tups) (nest_s tups).
Proof.
  unfold nest_m, nest_s. generalize R0. generalize mem0 smem0. induction tups as [|t tups IH]; intros m s HR HF; [done|].
  apply Forall_cons in HF as [Hd HF]. simpl. destruct (enter_both GX t m s glob0 Hd HR) as (s1 & m1 & E1 & E2 & HR1 & _).
  rewrite E1, E2. by apply IH.
Qed.
Ltac nest := apply nest_R; repeat constructor; set_solver.

(** Two nested scopes. The inner one handles TA, the outer one TA and TB. *)
Definition ex06_ctx : mem := nest_m [[SE TA; SE TB]; [SE TA]].
Lemma ex06_R : R ex06_ctx (nest_s [[SE TA; SE TB]; [SE TA]]).
Proof. nest. Qed.
Example ex06_hyps : usable ex06_ctx /\ serves ex06_ctx TA 1%nat /\ serves ex06_ctx TB 0%nat.
Proof. split; [|split]; vm_compute; eauto. intros c d H. done. Qed.
Example ex06_runs :
  match eval GX (pmach GX) None (loads [(5, IVal TA (VZ 1)); (9, IVal TB (VZ 2)); (9, IVal TA (VZ 3)); (9, IAcc TA 0 (fun v => match v with VZ z => VZ (z + 10) | _ => v end)); (5, IVal TB (VZ 4))]
     (PRet (RVal 0))) (ex06_ctx, glob0) with
  | Ok (_, (m, _)) => Some (held m 1%nat TA, held m 0%nat TA, held m 0%nat TB) | _ => None end =
  Some (Some (9, VZ 13), None, Some (5, VZ 4)).
Proof. vm_compute. reflexivity. Qed.

(** ** C07
    No active context has a slot for T, none collects: loading objects of type T makes no difference at all.
    (Deferred functions may still be called: see C18.) *)
Lemma unserved_of m s T : R m s -> (forall c k, ctxs m !! c = Some k -> k_act k = true -> SE T ∉ k_tup k /\ SDA ∉ k_tup k) ->
  unserved m T /\ tlsd m = None.
Proof.
  intros HR H. assert (forall c a, c ∈ stack s -> actxs s !! c = Some a -> SE T ∉ ac_tup a /\ SDA ∉ ac_tup a) as Hs.
  { intros c a Hc Ha. pose proof (R_ctxs _ _ c HR) as E. rewrite Ha in E. simpl in E. rewrite bool_decide_true in E by done. apply (H _ _ E). done. }
  rewrite (R_unserved _ _ _ HR), (R_tlsd_find _ _ HR). split.
  - destruct (find_e T s) as [[c a]|] eqn:E; [|done]. apply find_ctx_in in E as (Hin & Ha & Hh). destruct (Hs _ _ Hin Ha) as [H1 H2].
    unfold has_e in Hh. rewrite bool_decide_false in Hh by done. simpl in Hh.
    destruct (R_look _ _ _ _ HR Ha) as (k & Hk & Hc). destruct (ac_coll a) as [q|] eqn:Eq.
    + exfalso. apply H2. pose proof (R_awf _ _ _ _ HR Ha) as Hw. destruct Hw. destruct (decide (SDA ∈ ac_tup a)) as [|Hn]; auto.
      exfalso. by rewrite aw_nocoll in Eq.
    + unfold nodes in Hh. by rewrite Eq in Hh.
  - destruct (find_d s) as [[c a]|] eqn:E; [|done]. apply find_ctx_in in E as (Hin & Ha & Hh). destruct (Hs _ _ Hin Ha) as [H1 H2].
    by apply bool_decide_eq_true in Hh.
Qed.

Theorem C07_unneeded_objects_vanish :
  forall G caught m s g T id it k,
    R m s -> (forall c k, ctxs m !! c = Some k -> k_act k = true -> SE T ∉ k_tup k /\ SDA ∉ k_tup k) ->
    ((exists v, it = IVal T v) \/ (exists tag f, it = IAcc T tag f)) ->
    eval G (pmach G) caught (PLoad id [it] k) (m, g) = eval G (pmach G) caught k (m, g).
Proof.
  intros G caught m s g T id it k HR Hno Hit. destruct (unserved_of _ _ _ HR Hno) as [Hu Hd]. unfold unserved in Hu.
  destruct (decide (id = 0)) as [->|Hid]; [done|]. rewrite eval_load1 by done. cbn [fst snd].
  assert (m_load (pmach G) false id it m g = Ok (m, g)) as ->; [|done]. cbn [pmach m_load].
  destruct Hit as [[v ->]|(tag & f & ->)]; simpl.
  - unfold load_slot. rewrite Hu. unfold dyn_load. rewrite Hd. by destruct (g_capture G).
  - unfold load_slot_accumulate. rewrite Hu. unfold dyn_accumulate. rewrite Hd. by destruct (g_capture G).
Qed.
Print Assumptions C07_unneeded_objects_vanish.
Example ex07 : forall c k, ctxs ex06_ctx !! c = Some k -> k_act k = true -> SE TC ∉ k_tup k /\ SDA ∉ k_tup k.
Proof.
  intros c k Hk _. assert (k_tup k ∈ [[SE TA; SE TB]; [SE TA]]) as Ht.
  { apply elem_of_map_to_list, (elem_of_list_fmap_1 (fun x : cid * cctx => k_tup (snd x))) in Hk. vm_compute in Hk.
    destruct k. exact Hk. }
  unfold TA, TB, TC in *. apply elem_of_cons in Ht as [->|Ht]; [|apply elem_of_cons in Ht as [->|Ht]; [|by apply elem_of_nil in Ht]];
    split; intros H; apply elem_of_list_In in H; simpl in H; intuition discriminate.
Qed.

(** ** C17
    [loaded] for an item [IAcc T tag f] in a context which handles T: the function is called exactly once, with the object held for this
    error or a default-initialized one; whatever the way it is loaded (onerr: from an on_error object). *)
Theorem C17_accumulate_once :
  forall G onerr id T tag f m s g c,
    R m s -> id <> 0 -> usable m -> serves m T c ->
    exists m' g' s', mload G onerr id (IAcc T tag f) m g = Ok (m', g') /\ R m' s' /\ usable m' /\
      held m' c T = Some (id, f (match sees id (held m c T) with Some v => v | None => g_def G T end)) /\
      tr g' = EvAcc tag :: tr g /\ serves m' T c /\
      (forall c' T', ~ (c' = c /\ T' = T) -> held m' c' T' = held m c' T').
Proof.
  intros G onerr id T tag f m s g c HR Hid Hu Hs.
  destruct (load_one G onerr id (IAcc T tag f) m s g HR Hid Hu) as (m' & g' & s' & E & HR' & Hu' & L).
  { intros Hn. by apply serves_not_unserved in Hs. }
  exists m', g', s'. repeat (split; [done|]). rewrite <- (serves_visible _ _ _ Hs). split; [|split; [|split]].
  - apply (ld_new _ _ _ _ _ _ _ _ L); auto; simpl; auto.
  - destruct (ld_served _ _ _ _ _ _ _ _ L T c eq_refl Hs) as [[[] _]|[_ ?]]. done.
  - apply (ld_serves _ _ _ _ _ _ _ _ L). by left.
  - intros c' T' Hne. apply (ld_old _ _ _ _ _ _ _ _ L). simpl. intros ? [[Hs' _]|[Hx _]]; simplify_eq.
    + apply Hne. split; [|done]. apply (R_serves _ _ _ _ HR) in Hs, Hs'. congruence.
    + by eapply serves_not_unserved.
Qed.
Print Assumptions C17_accumulate_once.

(** k functions are applied in order, each called once. *)
Definition accs (id : Z) (T : ety) (fs : list (Z * (val -> val))) : list (Z * item) := map (fun x => (id, IAcc T (fst x) (snd x))) fs.
Theorem C17_accumulate_in_order :
  forall G caught id T x fs m s g c,
    R m s -> id <> 0 -> usable m -> serves m T c ->
    exists m' g', (forall k, eval G (pmach G) caught (loads (accs id T (x :: fs)) k) (m, g) = eval G (pmach G) caught k (m', g')) /\
      (exists s', R m' s') /\
      held m' c T = Some (id, foldl (fun v x => snd x v) (match sees id (held m c T) with Some v => v | None => g_def G T end) (x :: fs)) /\
      tr g' = rev (map (fun x => EvAcc (fst x)) (x :: fs)) ++ tr g.
Proof.
  intros G caught id T x fs. revert x. induction fs as [|y fs IH]; intros [tag f] m s g c HR Hid Hu Hs;
    destruct (C17_accumulate_once G false id T tag f m s g c HR Hid Hu Hs) as (m1 & g1 & s1 & E & HR1 & Hu1 & Hh & Ht & Hs1 & _).
  - exists m1, g1. split; [|split; [eauto|done]].
    intros k. cbn [loads accs map foldr fst snd]. rewrite eval_load1 by done. cbn [fst snd].
    change (m_load (pmach G) false id (IAcc T tag f) m g) with (mload G false id (IAcc T tag f) m g). by rewrite E.
  - destruct (IH y m1 s1 g1 c HR1 Hid Hu1 Hs1) as (m' & g' & E' & HR' & Hh' & Ht'). exists m', g'. split; [|split; [done|split]].
    + intros k. cbn [loads accs map foldr fst snd]. rewrite eval_load1 by done. cbn [fst snd].
      change (m_load (pmach G) false id (IAcc T tag f) m g) with (mload G false id (IAcc T tag f) m g). rewrite E. exact (E' k).
    + rewrite Hh', Hh. simpl. by rewrite Z.eqb_refl.
    + rewrite Ht', Ht. change (rev (map (fun x => EvAcc (fst x)) ((tag, f) :: y :: fs))) with (rev (map (fun x : Z * (val -> val) => EvAcc (fst x)) (y :: fs)) ++ [EvAcc tag]).
      by rewrite <- app_assoc.
Qed.
Print Assumptions C17_accumulate_in_order.
Example ex17 :
  match eval GX (pmach GX) None (loads ((5, IVal TB (VZ 7)) :: accs 5 TB [(1, fun v => match v with VZ z => VZ (z * 2) | _ => v end); (2, fun v => match v with VZ z => VZ (z + 1) | _ => v end)])
     (PRet (RVal 0))) (ex06_ctx, glob0) with
  | Ok (_, (m, g)) => Some (held m 0%nat TB, tr g) | _ => None end = Some (Some (5, VZ 15), [EvAcc 2; EvAcc 1]).
Proof. vm_compute. reflexivity. Qed.

(** ** C18
    The function is called once, before the object is stored; not at all if there is no place for the object.
    Missing: builds with capture enabled, outside any scope that collects. *)
Theorem C18_deferred_partial :
  forall G onerr id T tag gf m s g,
    R m s -> id <> 0 -> usable m ->
    exists m' g' s', mload G onerr id (IDef T tag gf) m g = Ok (m', g') /\ R m' s' /\
      (forall c, serves m T c -> onerr = true /\ sees id (held m c T) <> None ->
         tr g' = tr g /\ forall c' T', held m' c' T' = held m c' T') /\
      (forall c, (serves m T c /\ ~ (onerr = true /\ sees id (held m c T) <> None)) \/ collects G m T c ->
         tr g' = EvDefer tag :: tr g /\ held m' c T = Some (id, gf (tr g)) /\
         forall c' T', ~ (c' = c /\ T' = T) -> held m' c' T' = held m c' T') /\
      (unserved m T -> g_capture G = false -> tr g' = tr g /\ forall c' T', held m' c' T' = held m c' T').
Proof.
  intros G onerr id T tag gf m s g HR Hid Hu.
  destruct (load_one G onerr id (IDef T tag gf) m s g HR Hid Hu I) as (m' & g' & s' & E & HR' & _ & L).
  exists m', g', s'. split; [done|]. split; [done|]. split; [|split].
  - intros c Hs Hsk. rewrite <- (serves_visible _ _ _ Hs) in Hsk. split.
    + destruct (ld_served _ _ _ _ _ _ _ _ L T c eq_refl Hs) as [[_ ?]|[[] _]]; done.
    + intros c' T'. apply (ld_old _ _ _ _ _ _ _ _ L). simpl. intros ? [[_ []]|[Hx _]]; simplify_eq; [done|]. by eapply serves_not_unserved.
  - intros c Hc. assert (tr g' = EvDefer tag :: tr g /\ (serves m T c /\ ~ skipped onerr id (IDef T tag gf) m \/ collects G m T c)) as [Ht Hw].
    { destruct Hc as [[Hs Hsk]|Hc].
      - rewrite <- (serves_visible _ _ _ Hs) in Hsk. destruct (ld_served _ _ _ _ _ _ _ _ L T c eq_refl Hs) as [[? _]|[? ?]]; [done|]. auto.
      - split; [|auto]. exact (ld_coll _ _ _ _ _ _ _ _ L T c eq_refl Hc). }
    split; [done|]. split; [by apply (ld_new _ _ _ _ _ _ _ _ L)|].
    intros c' T' Hne. apply (ld_old _ _ _ _ _ _ _ _ L). simpl. intros HT Hw'. injection HT as <-. apply Hne. split; [|done].
    destruct Hw as [[H1 _]|(H1 & _ & H2)], Hw' as [[H3 _]|(H3 & _ & H4)].
    + apply (R_serves _ _ _ _ HR) in H1, H3. congruence.
    + by apply serves_not_unserved in H1.
    + by apply serves_not_unserved in H3.
    + congruence.
  - intros Hn HG. assert (forall c, ~ collects G m T c) as Hnc by (intros c (_ & ? & _); congruence). split.
    + destruct (ld_lost _ _ _ _ _ _ _ _ L T eq_refl Hn Hnc) as [?|(? & ? & _ & ? & _)]; [done|congruence].
    + intros c' T'. apply (ld_old _ _ _ _ _ _ _ _ L). simpl. intros HT [[Hx _]|Hx]; injection HT as <-; [by eapply serves_not_unserved|by eapply Hnc].
Qed.
Print Assumptions C18_deferred_partial.

(** No scope at all, capture enabled: the object has nowhere to go and the function is called all the same (error.hpp:452-465). *)
Theorem C18_deferred_refuted :
  exists G id T tag gf m s g m' g', R m s /\ id <> 0 /\ usable m /\ unserved m T /\ tlsd m = None /\
    mload G false id (IDef T tag gf) m g = Ok (m', g') /\ tr g' <> tr g.
Proof.
  exists GX, 5, TA, 3, (fun _ => VZ 1), mem0, smem0, glob0. eexists _, _. split; [apply R0|]. split; [done|]. split.
  { apply (R_usable _ _ R0). intros c a q H. done. }
  split; [done|]. split; [done|]. split; [vm_compute; reflexivity|]. vm_compute. discriminate.
Qed.
Print Assumptions C18_deferred_refuted.
Example ex18 :
  match eval GX (pmach GX) None (loads [(9, IVal TB (VZ 7)); (9, IDef TB 4 (fun t => VZ (Z.of_nat (length t))))]
     (POnError [IDef TA 5 (fun _ => VZ 3); IDef TB 6 (fun _ => VZ 3)] (PLoad 9 [IDef TA 7 (fun _ => VZ 1)] (PNewError [IVal TA (VZ 2)] (fun _ => PRet (RVal 0))))))
    (ex06_ctx, glob0) with
  | Ok (_, (m, g)) => Some (held m 0%nat TB, held m 1%nat TA, tr g) | _ => None end = Some (Some (5, VZ 3), Some (5, VZ 2), [EvDefer 6; EvDefer 7; EvDefer 4]).
Proof. vm_compute. reflexivity. Qed.
