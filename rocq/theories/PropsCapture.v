(** C19, C20, C21, C22: try_capture_all; captured results and their unloading. *)
From Verif Require Export PropsNest.
Open Scope Z_scope.

(** The task p runs under try_capture_all; c is the collecting context (the slot<dynamic_allocator> of handle_errors.hpp:725, 774);
    the task ends in ob. *)
Definition task_ended (G : cfg) (caught : option exn) (p : prog) (m : mem) (g : glob) (c : cid) (ob : out) (mb : mem) (gb : glob) : Prop :=
  exists m1, enter (pmach G) [SDA] (m, g) = Ok (c, (m1, g)) /\ lib_run G caught p m1 g ob mb gb.

(** How it failed: the error id, and the exception if it threw one. (A result failure with an exception current is a special case, see C22.) *)
Definition task_error (caught : option exn) (ob : out) (gb : glob) : option (Z * option exn) :=
  match ob with
  | ORet (RErr i) | ORet (RCap i _ _) => Some (mk i, caught)
  | OThrow x => Some (exn_id x gb, Some x)
  | _ => None
  end.

(** The first object c collected was loaded for error id (or there were none). *)
Definition started_by (m : mem) (c : cid) (id : Z) : Prop := forall d, dhp m !! c = Some d -> d_key d <> 0 -> d_key d = id.

Definition capture_end (M : machine) (isvoid : bool) (caught : option exn) (c : cid) (os : out * st M) : res (out * st M) :=
  match os with
  | (OThrow x, s2) =>
      let! s3 := on_mem M (m_deact M c) s2 in
      let '(id, _, g) := catch_info x (snd s3) in
      let! lm := m_extract M c id true (fst s3) in
      leave M c (ORet (RCap id (fst lm) (Some x))) (snd lm, g)
  | (ORet r, s2) =>
      if isvoid then
        (if is_val r then let! s3 := on_mem M (m_drop M c) s2 in Ok (ORet r, s3) else Fail IllTyped)
      else
        match r with
        | RVal _ => deact_leave M c (ORet r) s2
        | RErr id | RCap id _ _ =>
            let! s3 := on_mem M (m_deact M c) s2 in
            let! lm := m_extract M c (mk id) (bool_decide (caught <> None)) (fst s3) in
            leave M c (ORet (RCap (mk id) (fst lm) caught)) (snd lm, snd s3)
        | RFor _ _ => Fail IllTyped
        end
  end.
Lemma eval_capture G M isvoid caught p s y : eval G M caught (PCapture isvoid p) s = Ok y ->
  g_capture G = true /\
  (let! cs1 := enter M [SDA] s in let! os := eval G M caught p (snd cs1) in capture_end M isvoid caught (fst cs1) os) = Ok y.
Proof.
  intros H. cbn [eval] in H. destruct (g_capture G); [|done]. cbn [negb] in H. split; [done|]. rewrite <- H. unfold enter.
  destruct (m_new M [SDA] (fst s)) as [c m1]. destruct (on_mem M (m_act M c) (m1, snd s)) as [s1|]; [|done]. cbn [rbind fst snd].
  destruct (eval G M caught p s1) as [[[r|x] s2]|]; done.
Qed.

Lemma capture_both G isvoid caught p m s g o s' g' c ob mb gb id ex :
  R m s -> spec_run G caught (PCapture isvoid p) s g o s' g' -> task_ended G caught p m g c ob mb gb -> task_error caught ob gb = Some (id, ex) ->
  exists s1 sb sd l se, R mb sb /\ c = snc s /\ stack s1 = snc s :: stack s /\ actxs s1 = <[snc s := ACtx [SDA] ∅ None]> (actxs s) /\
    same s1 sb /\ sdeact c sb = Ok sd /\
    sextract c id (bool_decide (ex <> None)) sd = Ok (l, se) /\ sdestroy c se = Ok s' /\ o = ORet (RCap id l ex) /\ cur g' = cur gb.
Proof.
  intros HR H (m1 & He & Hp) Herr.
  assert (NoDup [SDA]) as Hnd by apply NoDup_singleton.
  destruct (enter_both G [SDA] m s g Hnd HR) as (s1 & m1' & A1 & A2 & HR1 & S1 & S2 & S3).
  pose proof (eq_trans (eq_sym He) A2) as X. injection X as -> ->. apply eval_capture in H as [Hcap H].
  apply (fun H => rb_step _ _ _ _ H A1) in H. cbn [fst snd] in H. ok_inv H. destruct a as [ob' [sb gb']].
  destruct (C48_pointer_free_semantics _ _ _ _ _ _ _ _ _ HR1 E) as (mb' & Hb & HRb).
  pose proof (eq_trans (eq_sym Hp) Hb) as X. injection X as <- <- <-.
  pose proof (wb_same _ _ (proj1 (eval_wb _) _ _ _ _ _ E) (R_wf _ _ HR1)) as Hsm. simpl in Hsm.
  assert (forall i e b (s3 : st (smach (asserts_on G))) lm gq, on_mem (smach (asserts_on G)) (m_deact (smach (asserts_on G)) (snc s)) (sb, gb) = Ok s3 ->
    sextract (snc s) i b (fst s3) = Ok lm -> leave (smach (asserts_on G)) (snc s) (ORet (RCap i (fst lm) e)) (snd lm, gq) = Ok (o, (s', g')) ->
    b = bool_decide (e <> None) -> i = id -> e = ex -> cur gq = cur gb ->
    exists s1 sb sd l se, R mb sb /\ snc s = snc s /\ stack s1 = snc s :: stack s /\ actxs s1 = <[snc s := ACtx [SDA] ∅ None]> (actxs s) /\
    same s1 sb /\ sdeact (snc s) sb = Ok sd /\
    sextract (snc s) id (bool_decide (ex <> None)) sd = Ok (l, se) /\ sdestroy (snc s) se = Ok s' /\ o = ORet (RCap id l ex) /\ cur g' = cur gb) as Hfin.
  { intros i e b s3 [l se] gq Hd Hx Hl -> -> -> Eg. apply on_mem_inv in Hd as [Hd _]. apply leave_inv in Hl as (-> & Hl & Hg). simpl in Hl, Hg.
    exists s1, sb, (fst s3), l, se. split; [done|]. split; [done|]. split; [done|]. split; [done|]. split; [done|]. split; [exact Hd|]. split; [exact Hx|]. split; [exact Hl|]. split; [done|]. by rewrite Hg. }
  destruct ob as [[z|i|i l0 x|cat v]|x]; simpl in Herr; try done; cbn [capture_end] in H.
  - destruct isvoid; [done|]. ok_inv H. ok_inv H. injection Herr as <- <-. pose proof (on_mem_inv _ _ _ _ E0) as [_ Eg]. eapply (Hfin _ _ _ _ _ _ eq_refl E1 H); try done. exact (f_equal cur Eg).
  - destruct isvoid; [done|]. ok_inv H. ok_inv H. injection Herr as <- <-. pose proof (on_mem_inv _ _ _ _ E0) as [_ Eg]. eapply (Hfin _ _ _ _ _ _ eq_refl E1 H); try done. exact (f_equal cur Eg).
  - ok_inv H. pose proof (on_mem_inv _ _ _ _ E0) as [_ Eg]. destruct a as [sx gz]. cbn [snd fst] in Eg, H. subst gz. injection Herr as <- <-. pose proof (catch_cur x gb) as Hcu. unfold exn_id in *.
    destruct (catch_info x gb) as [[id0 ex0] gx]. ok_inv H. cbn [fst snd] in *. by eapply (Hfin _ _ _ _ _ _ eq_refl E1 H).
Qed.

Lemma started_coll m s c a : R m s -> actxs s !! c = Some a -> SDA ∈ ac_tup a -> forall id, started_by m c id <-> (forall q, ac_coll a = Some q -> q_key q = id).
Proof.
  intros HR Ha Hd id. destruct (R_look _ _ _ _ HR Ha) as (k & Hk & []). destruct (cr_coll Hd) as (d & Hd1 & Hd2). unfold started_by. rewrite Hd1.
  destruct (ac_coll a) as [q|].
  - destruct Hd2 as (Q1 & Q2 & _). split; [intros H q' [= <-]; rewrite <- Q2; apply H; [done|congruence]|]. intros H d' [= <-] _. rewrite Q2. by apply H.
  - destruct Hd2 as (Q1 & _). split; [done|]. intros _ d' [= <-] Hz. done.
Qed.

(** ** C19, C20: what a captured result holds *)

(** If the first collected object is of the reported error, the captured result holds everything that was collected; otherwise nothing at all. *)
Theorem C19_capture_collects :
  forall G isvoid caught p m g o m' g' c ob mb gb id ex, runs G caught (PCapture isvoid p) m g o m' g' ->
    task_ended G caught p m g c ob mb gb -> task_error caught ob gb = Some (id, ex) ->
    exists l, o = ORet (RCap id l ex) /\ NoDup l.*1 /\
      (started_by mb c id -> forall T, get_node T l = held mb c T) /\ (~ started_by mb c id -> l = []) /\
      id <> 0 /\ ctxs m' = ctxs m /\ cur g' = cur gb /\ (forall c' T, c' <> c -> held m' c' T = held mb c' T).
Proof.
  intros G isvoid caught p m g o m' g' c ob mb gb id ex (Hl & s & s' & HR & HR' & Hs) Ht He.
  destruct (capture_both _ _ _ _ _ _ _ _ _ _ _ _ _ _ _ _ HR Hs Ht He) as (s1 & sb & sd & l & se & HRb & -> & S1 & S2 & Hsm & Hd & Hx & Hde & -> & Ecur).
  exists l. split; [done|]. apply sdeact_inv in Hd as (D1 & D2 & D3). apply sdestroy_inv in Hde as (_ & Hac).
  destruct (sm_tup _ _ Hsm (snc s) (ACtx [SDA] ∅ None)) as (a & Ha & Htup); [by rewrite S2, lookup_insert|]. simpl in Htup.
  assert (SDA ∈ ac_tup a) as Hda by (rewrite Htup; by constructor).
  pose proof (started_coll _ _ _ _ HRb Ha Hda id) as Hsb.
  assert (forall T, held mb (snc s) T = get_node T (nodes a)) as Hh.
  { intros T. rewrite (R_held _ _ _ _ T HRb Ha). unfold get_e. rewrite Htup, bool_decide_false; [done|]. intros Hin. by apply elem_of_list_singleton in Hin. }
  pose proof (aw_nodes _ (R_awf _ _ _ _ HRb Ha)) as Hnn. unfold sextract in Hx. rewrite D2, Ha in Hx.
  destruct (negb (has_d a) || bool_decide (snc s ∈ stack sd)); [done|]. ok_inv Hx. unfold sassert in E.
  destruct (Z.eqb_spec id 0) as [|Hnz]; [done|].
  assert (same s s') as Hss by exact (wb_same _ _ (proj1 (eval_wb _) _ _ _ _ _ Hs) (R_wf _ _ HR)).
  assert (exists a', se = put (snc s) a' sd /\ (started_by mb (snc s) id -> l = nodes a) /\ (~ started_by mb (snc s) id -> l = [])) as (a' & -> & L1 & L2).
  { unfold nodes in *. destruct (ac_coll a) as [q|] eqn:Hq.
    - destruct (Z.eqb_spec (q_key q) id) as [Eq|Eq].
      + destruct (_ && negb (q_ok q)); [done|]. injection Hx as <- <-. eexists. split; [done|]. split; [done|]. intros Hn. exfalso. apply Hn, Hsb. by intros q' [= <-].
      + injection Hx as <- <-. eexists. split; [done|]. split; [|done]. intros Hy. exfalso. apply Eq. rewrite Hsb in Hy. by apply Hy.
    - injection Hx as <- <-. eexists. by split. }
  repeat split; auto.
  - destruct (ac_coll a) as [q|] eqn:Hq; [destruct (Z.eqb_spec (q_key q) id) as [Eq|Eq]|].
    + rewrite L1; [done|]. apply Hsb. by intros q' [= <-].
    + rewrite L2; [constructor|]. intros Hy. apply Eq. rewrite Hsb in Hy. by apply Hy.
    + rewrite L1; [done|]. apply Hsb. done.
  - intros Hy T. by rewrite (L1 Hy), Hh.
  - by eapply same_ctxs.
  - intros c' T Hne. eapply held_actxs; [exact HRb|exact HR'|]. rewrite Hac. simpl. by rewrite lookup_delete_ne, lookup_insert_ne, D2 by done.
Qed.
Print Assumptions C19_capture_collects.

(** ** C19, C21: unloading *)

(** Whatever happens in the thread where the result is unloaded: its objects become available there, its error becomes the current one. *)
Lemma unload_both G id l ex n s g : R n s -> usable n -> mk id = id -> id <> 0 -> NoDup l.*1 ->
  exists n' s', R n' s' /\ ctxs n' = ctxs n /\ moved G id (fun T => sees id (get_node T l)) n n' /\
    (forall c T, inactive n c -> held n' c T = held n c T) /\ usable n' /\ stack s' = stack s /\
    unload_ret (pmach G) (RCap id l ex) (n, g) = Ok (match ex with Some x => OThrow x | None => ORet (RCap id [] None) end, (n', set_cur id g)) /\
    unload_ret (smach (asserts_on G)) (RCap id l ex) (s, g) = Ok (match ex with Some x => OThrow x | None => ORet (RCap id [] None) end, (s', set_cur id g)).
Proof.
  intros HR Hu Hmk Hnz Hnd. pose proof (R_wf _ _ HR) as Hwf. apply (R_usable _ _ HR) in Hu.
  destruct (sreceive_all_ok (asserts_on G) id l s Hnz Hu) as (s' & E & Hd).
  pose proof (sreceive_all_recv (asserts_on G) None _ _ _ _ Hwf Hnd E) as Hr.
  assert (m_capunload (smach (asserts_on G)) id l s g = Ok (s', set_cur id g)) as Es.
  { simpl. unfold scap_unload. by rewrite E. }
  destruct (sim_capunload G id l (n, g) (s, g)) as [H1 _]; [by split|]. cbn [fst snd] in H1. destruct (H1 _ Es) as ([n' g'] & E' & HR' & Hg). simpl in HR', Hg. subst g'.
  exists n', s'. pose proof (rv_same _ _ _ _ _ _ Hr) as Hs. split; [done|]. split; [by eapply same_ctxs|]. split; [|split; [|split; [|split; [|split]]]].
  - assert (recv (asserts_on G) None id (fun T => sees id (get_node T l)) s s') as Hr'.
    { eapply recv_ext; [|exact Hr]. intros T. unfold src_nodes, sees. by destruct (get_node T l) as [[k v]|]. }
    assert (recv G None id (fun T => sees id (get_node T l)) s s') as Hr2 by (destruct Hr'; split; assumption).
    exact (recv_moved _ _ _ _ _ _ _ _ Hnz HR HR' Hr2).
  - intros c T Hi. apply (R_inactive _ _ _ HR) in Hi as [Hn [a Ha]].
    eapply held_actxs; [exact HR|exact HR'|]. by apply (rv_inact _ _ _ _ _ _ Hr).
  - by apply (R_usable _ _ HR').
  - apply (sm_stack _ _ Hs).
  - unfold unload_ret. rewrite Hmk. eapply rb_ok; [exact E'|]. done.
  - unfold unload_ret. rewrite Hmk. eapply rb_ok; [exact Es|]. done.
Qed.

(** Capturing in one thread, unloading in any other state. *)
Theorem C19_capture_and_unload :
  forall G isvoid caught p m g o m' g' c ob mb gb id ex, runs G caught (PCapture isvoid p) m g o m' g' ->
    task_ended G caught p m g c ob mb gb -> task_error caught ob gb = Some (id, ex) -> mk id = id -> started_by mb c id ->
    exists r, o = ORet r /\
      forall n s gn caught' k, R n s -> usable n ->
        exists n', (exists s', R n' s') /\ ctxs n' = ctxs n /\ moved G id (fun T => sees id (held mb c T)) n n' /\
          (forall c T, inactive n c -> held n' c T = held n c T) /\
          eval G (pmach G) caught' (PUnload r k) (n, gn) =
            match ex with
            | None => eval G (pmach G) caught' (k (RCap id [] None)) (n', set_cur id gn)
            | Some x => Ok (OThrow x, (n', set_cur id gn))
            end.
Proof.
  intros G isvoid caught p m g o m' g' c ob mb gb id ex Hr Ht He Hmk Hst.
  destruct (C19_capture_collects _ _ _ _ _ _ _ _ _ _ _ _ _ _ _ Hr Ht He) as (l & -> & Hnd & Hl & _ & Hnz & _). specialize (Hl Hst).
  exists (RCap id l ex). split; [done|]. intros n s gn caught' k HR Hu.
  destruct (unload_both G id l ex n s gn HR Hu Hmk Hnz Hnd) as (n' & s' & HR' & Hc & Hmv & Hi & _ & _ & Eu & _).
  exists n'. split; [eauto|]. split; [done|]. split; [|split; [done|]].
  - intros c0 T Hc0. specialize (Hmv c0 T Hc0). cbv beta in Hmv. by rewrite Hl in Hmv.
  - cbn [eval]. refine (rb_ok _ _ _ _ Eu _). by destruct ex.
Qed.
Print Assumptions C19_capture_and_unload.

(** ** C19: a task with a single error *)

(** What is collected for type T, if nothing but the items is loaded, all for the same error. t: what user code has done so far. *)
Fixpoint gathered (G : cfg) (T : ety) (its : list item) (t : list ev) (old : option val) : option val :=
  match its with
  | [] => old
  | it :: its => gathered G T its (call it ++ t) (if decide (ity it = Some T) then value G it old t else old)
  end.

(** The program loads the items for error id; then it reports this error, returning it or (b) throwing. *)
Inductive raises (id : Z) : prog -> list item -> bool -> Prop :=
| rs_ret : raises id (PRet (RErr id)) [] false
| rs_throw xs its : raises id (PThrow (Some id) xs its) its true
| rs_load its k its' b : raises id k its' b -> raises id (PLoad id its k) (its ++ its') b
| rs_first p k its : raises id p its true -> raises id (PBind p k) its true
| rs_then p k its its' b : raises id p its false -> raises id (k (RErr id)) its' b -> raises id (PBind p k) (its ++ its') b.

Lemma gathered_app G T its its' : forall t old,
  gathered G T (its ++ its') t old = gathered G T its' (rev (concat (map (fun it => rev (call it)) its)) ++ t) (gathered G T its t old).
Proof.
  induction its as [|it its IH]; intros t old; [done|]. cbn [gathered app map concat]. rewrite IH. f_equal.
  rewrite rev_app_distr, rev_involutive. by rewrite <- app_assoc.
Qed.

Lemma gathered_on G T its : forall t old, gathered (asserts_on G) T its t old = gathered G T its t old.
Proof. induction its as [|it its IH]; intros t old; [done|]. cbn [gathered]. by rewrite IH. Qed.

Section single.
Context (G : cfg) (Hcap : g_capture G = true) (id : Z) (Hnz : id <> 0) (c : cid).
(** c is the only active context; it has collected q, all of error id *)
Definition sole (q : list cnode) (s : smem) : Prop :=
  stack s = [c] /\ exists a, actxs s !! c = Some a /\ ac_tup a = [SDA] /\
    match ac_coll a with None => q = [] | Some Q => q_key Q = id /\ q_ok Q = true /\ q_nodes Q = q end.
Definition held_all (q q' : list cnode) (f : ety -> option val -> option val) : Prop :=
  forall T, get_node T q' = pair id <$> f T (sees id (get_node T q)).
Definition all_id (q : list cnode) : Prop := forall T k v, get_node T q = Some (k, v) -> k = id.

Lemma get_node_app T q T' x : get_node T (q ++ [(T', x)]) = match get_node T q with Some y => Some y | None => if decide (T = T') then Some x else None end.
Proof. induction q as [|[T1 y] q IH]; simpl; [done|]. by destruct (decide (T = T1)). Qed.
Lemma get_node_set T q T' x : get_node T (set_node T' x q) = if decide (T = T') then (match get_node T q with Some _ => Some x | None => None end) else get_node T q.
Proof.
  induction q as [|[T1 y] q IH]; simpl; [by destruct (decide _)|]. destruct (decide (T' = T1)) as [<-|]; simpl.
  - by destruct (decide (T = T')).
  - destruct (decide (T = T1)) as [->|]; [by rewrite decide_False|]. done.
Qed.

Lemma sole_load it q s g : sole q s -> all_id q ->
  exists q' s' g', sload G false id it s g = Ok (s', g') /\ sole q' s' /\ all_id q' /\ tr g' = call it ++ tr g /\ quiet_glob g g' /\
    forall T, sees id (get_node T q') = if decide (ity it = Some T) then value G it (sees id (get_node T q)) (tr g) else sees id (get_node T q).
Proof.
  intros (Hst & a & Ha & Ht & Hq) Hall.
  assert (nodes a = q) as Hn. { unfold nodes. destruct (ac_coll a) as [Q|]; [by destruct Hq as (_ & _ & ->)|by subst]. }
  assert (forall T, SE T ∉ ac_tup a) as Hse. { intros T Hin. rewrite Ht in Hin. by apply elem_of_list_singleton in Hin. }
  assert (find_d s = Some (c, a)) as Hd. { unfold find_d. rewrite Hst. simpl. rewrite Ha. unfold has_d. rewrite Ht. done. }
  assert (forall T, find_e T s = match get_node T q with Some _ => Some (c, a) | None => None end) as Hf.
  { intros T. unfold find_e. rewrite Hst. simpl. rewrite Ha. unfold has_e. rewrite bool_decide_false by done. rewrite Hn. simpl.
    destruct (get_node T q) eqn:E.
    - destruct (has_node T q) eqn:E'; [done|]. apply has_node_false in E'. congruence.
    - destruct (has_node T q) eqn:E'; [|done]. exfalso. apply has_node_false in E. congruence. }
  assert (forall T, get_e T a = get_node T q) as Hg. { intros T. unfold get_e. rewrite bool_decide_false by done. by rewrite Hn. }
  assert (forall T v, exists s', (match find_e T s with Some (c, a) => sstore c a id T v s | None => scollect id T v s end) = Ok s' /\
    exists q', sole q' s' /\ all_id q' /\ forall T', sees id (get_node T' q') = if decide (Some T = Some T') then Some v else sees id (get_node T' q)) as Hput.
  { intros T v. rewrite Hf. destruct (get_node T q) as [y|] eqn:E.
    - unfold sstore, sassert. rewrite (proj2 (Z.eqb_neq id 0)) by done. simpl. eexists. split; [done|].
      exists (set_node T (id, v) q). split; [|split].
      + split; [done|]. unfold set_e. rewrite bool_decide_false by done. eexists. split; [simpl; by rewrite lookup_insert|]. split; [done|].
        simpl. destruct (ac_coll a) as [Q|]; [|by subst]. destruct Hq as (? & ? & <-). done.
      + intros T' k w. rewrite get_node_set. destruct (decide (T' = T)) as [->|]; [rewrite E; by intros [= <- <-]|]. apply Hall.
      + intros T'. rewrite get_node_set. destruct (decide (T' = T)) as [->|].
        * rewrite decide_True by done. rewrite E. simpl. by rewrite Z.eqb_refl.
        * rewrite decide_False by congruence. done.
    - unfold scollect. rewrite Hd. unfold sassert. rewrite (proj2 (Z.eqb_neq id 0)) by done. simpl.
      assert (sees id (get_node T (q ++ [(T, (id, v))])) = Some v) as HT. { rewrite get_node_app, E, decide_True by done. simpl. by rewrite Z.eqb_refl. }
      assert (forall T', sees id (get_node T' (q ++ [(T, (id, v))])) = if decide (Some T = Some T') then Some v else sees id (get_node T' q)) as HA.
      { intros T'. destruct (decide (Some T = Some T')) as [[= <-]|Hne]; [done|]. rewrite get_node_app. destruct (get_node T' q); [done|]. rewrite decide_False by congruence. done. }
      assert (all_id (q ++ [(T, (id, v))])) as Hal.
      { intros T' k w. rewrite get_node_app. destruct (get_node T' q) as [[k' w']|] eqn:E'; [intros [= <- <-]; by eapply Hall|]. destruct (decide (T' = T)); [|done]. by intros [= <- <-]. }
      destruct (ac_coll a) as [Q|] eqn:EQ.
      + destruct Hq as (K1 & K2 & K3). rewrite K2. eexists. split; [done|]. exists (q ++ [(T, (id, v))]). split; [|split]; [|done|done].
        split; [done|]. eexists. split; [simpl; by rewrite lookup_insert|]. split; [done|]. simpl. by rewrite K3.
      + subst q. eexists. split; [done|]. exists ([(T, (id, v))]). split; [|split]; [|done|done].
        split; [done|]. eexists. split; [simpl; by rewrite lookup_insert|]. done. }
  assert (forall T v, get_node T q = None -> scollect_acc id T v s = scollect id T v s) as Hacc.
  { intros T v E. unfold scollect_acc, scollect. rewrite Hd. destruct (sassert _); [|done]. simpl. destruct (ac_coll a) as [Q|]; [|done].
    destruct Hq as (-> & _). by rewrite Z.eqb_refl. }
  assert (quiet_glob g g) as Hqg by done.
  destruct it as [T v|T tag gf|T tag f|tag]; cbn [sload ity call value].
  - destruct (Hput T v) as (s' & E & q' & S1 & S2 & S3). exists q', s', g. split; [|done].
    destruct (find_e T s) as [[c1 a1]|]; [cbn [andb]|rewrite Hcap]; by rewrite E.
  - destruct (Hput T (gf (tr g))) as (s' & E & q' & S1 & S2 & S3). exists q', s', (emit (EvDefer tag) g). split; [|done].
    destruct (find_e T s) as [[c1 a1]|]; [cbn [andb]|rewrite Hcap]; by rewrite E.
  - set (old := match sees id (get_node T q) with Some v => v | None => g_def G T end).
    destruct (Hput T (f old)) as (s' & E & q' & S1 & S2 & S3). exists q', s', (emit (EvAcc tag) g). split.
    + rewrite Hf in *. unfold old in *. destruct (get_node T q) as [[k v]|] eqn:Eg.
      * rewrite Hg, Eg. unfold sees in *. destruct (k =? id); by rewrite E.
      * rewrite Hcap, Hd. rewrite Hacc by done. simpl in E. by rewrite E.
    + split; [done|]. split; [done|]. split; [done|]. split; [done|]. intros T'. rewrite S3. destruct (decide (Some T = Some T')) as [[= <-]|]; done.
  - exists q, s, (emit (EvDefer tag) g). split; [done|]. split; [split; [done|by exists a]|]. split; [done|]. split; [done|]. split; [done|]. done.
Qed.

Lemma sole_loads its : forall q s g, sole q s -> all_id q ->
  exists q' s' g', load_items (smach G) false id its (s, g) = Ok (s', g') /\ sole q' s' /\ all_id q' /\
    tr g' = rev (concat (map (fun it => rev (call it)) its)) ++ tr g /\ quiet_glob g g' /\
    forall T, sees id (get_node T q') = gathered G T its (tr g) (sees id (get_node T q)).
Proof.
  induction its as [|it its IH]; intros q s g Hs Ha; [by exists q, s, g|].
  destruct (sole_load it q s g Hs Ha) as (q1 & s1 & g1 & E & Hs1 & Ha1 & Ht1 & Hq1 & Hg1).
  destruct (IH q1 s1 g1 Hs1 Ha1) as (q2 & s2 & g2 & E2 & Hs2 & Ha2 & Ht2 & Hq2 & Hg2).
  exists q2, s2, g2. split; [cbn [load_items fst snd]; eapply rb_ok; [exact E|exact E2]|]. split; [done|]. split; [done|].
  split. { rewrite Ht2, Ht1. cbn [map concat]. by rewrite rev_app_distr, rev_involutive, <- app_assoc. }
  split. { destruct Hq1 as (?&?&?&?), Hq2 as (?&?&?&?). repeat split; congruence. }
  intros T. rewrite Hg2, Ht1, Hg1. done.
Qed.

Lemma sole_raises caught p its b : raises id p its b -> forall q s g, sole q s -> all_id q ->
  exists o q' s' g', eval G (smach G) caught p (s, g) = Ok (o, (s', g')) /\ sole q' s' /\ all_id q' /\
    tr g' = rev (concat (map (fun it => rev (call it)) its)) ++ tr g /\
    (if b then exists x, o = OThrow x /\ x_std x = true /\ x_leaf x = Some id else o = ORet (RErr id)) /\
    forall T, sees id (get_node T q') = gathered G T its (tr g) (sees id (get_node T q)).
Proof.
  induction 1 as [|xs its|its k its' b H IH|p k its H IH|p k its its' b H IH H' IH']; intros q s g Hs Ha; cbn [eval].
  - exists (ORet (RErr id)), q, s, g. done.
  - destruct (sole_loads its q s g Hs Ha) as (q1 & s1 & g1 & E & Hs1 & Ha1 & Ht1 & Hq1 & Hg1). unfold id_load. rewrite (proj2 (Z.eqb_neq id 0)) by done.
    do 4 eexists. split; [eapply rb_ok; [exact E|reflexivity]|]. split; [exact Hs1|]. split; [exact Ha1|]. split; [exact Ht1|]. split; [by eexists|exact Hg1].
  - destruct (sole_loads its q s g Hs Ha) as (q1 & s1 & g1 & E & Hs1 & Ha1 & Ht1 & Hq1 & Hg1).
    destruct (IH q1 s1 g1 Hs1 Ha1) as (o & q2 & s2 & g2 & E2 & Hs2 & Ha2 & Ht2 & Ho & Hg2). unfold id_load. rewrite (proj2 (Z.eqb_neq id 0)) by done.
    exists o, q2, s2, g2. split; [eapply rb_ok; [exact E|exact E2]|]. split; [done|]. split; [done|].
    split. { rewrite Ht2, Ht1, map_app, concat_app, rev_app_distr. by rewrite <- app_assoc. }
    split; [done|]. intros T. by rewrite Hg2, Ht1, Hg1, gathered_app.
  - destruct (IH q s g Hs Ha) as (o & q1 & s1 & g1 & E & Hs1 & Ha1 & Ht1 & (x & -> & Hx) & Hg1).
    exists (OThrow x), q1, s1, g1. split; [eapply rb_ok; [exact E|reflexivity]|]. split; [done|]. split; [done|]. split; [done|]. split; [by eexists|done].
  - destruct (IH q s g Hs Ha) as (o & q1 & s1 & g1 & E & Hs1 & Ha1 & Ht1 & -> & Hg1).
    destruct (IH' q1 s1 g1 Hs1 Ha1) as (o & q2 & s2 & g2 & E2 & Hs2 & Ha2 & Ht2 & Ho & Hg2).
    exists o, q2, s2, g2. split; [eapply rb_ok; [exact E|exact E2]|]. split; [done|]. split; [done|].
    split. { rewrite Ht2, Ht1, map_app, concat_app, rev_app_distr. by rewrite <- app_assoc. }
    split; [done|]. intros T. by rewrite Hg2, Ht1, Hg1, gathered_app.
Qed.
End single.

(** A task in a thread without other scopes reports the one error it generated: every object is captured, in its final state. *)
Theorem C19_single_error_captured :
  forall G isvoid caught its k its' b m s g, g_capture G = true -> good_sup G -> R m s -> (forall c, ~ active m c) ->
    raises (g_sup G (ngen g)) (k (g_sup G (ngen g))) its' b -> (isvoid = true -> b = true) ->
    exists l ex m' g', runs G caught (PCapture isvoid (PNewError its k)) m g (ORet (RCap (g_sup G (ngen g)) l ex)) m' g' /\
      NoDup l.*1 /\ (forall T, get_node T l = pair (g_sup G (ngen g)) <$> gathered G T (its ++ its') (tr g) None) /\
      (if b then exists x, ex = Some x /\ x_leaf x = Some (g_sup G (ngen g)) else ex = caught) /\ ctxs m' = ctxs m.
Proof.
  intros G isvoid caught its k its' b m s g Hcap Hg HR Hna Hrs Hv. set (id := g_sup G (ngen g)) in *.
  assert (Z.land id 3 = 1) as Hid by apply Hg. pose proof (good_nz _ Hid) as Hnz. pose proof (mk_good _ Hid) as Hmk.
  assert (stack s = []) as Hst. { destruct (stack s) as [|c0 l0] eqn:E; [done|]. exfalso. apply (Hna c0). apply (R_active _ _ _ HR). rewrite E. by constructor. }
  assert (NoDup [SDA]) as Hnd by apply NoDup_singleton.
  destruct (enter_both G [SDA] m s g Hnd HR) as (s1 & m1 & A1 & A2 & HR1 & S1 & S2 & S3). rewrite Hst in S1.
  assert (sole id (snc s) [] s1) as Hs1.
  { split; [done|]. eexists. split; [by rewrite S2, lookup_insert|]. done. }
  assert (all_id id []) as Ha1 by done.
  destruct (sole_loads (asserts_on G) Hcap id Hnz (snc s) its [] s1 (snd (gnew G g)) Hs1 Ha1) as (q2 & s2 & g2 & E2 & Hs2 & Ha2 & Ht2 & Hq2 & Hg2).
  destruct (sole_raises (asserts_on G) Hcap id Hnz (snc s) caught _ _ _ Hrs q2 s2 g2 Hs2 Ha2) as (ob & q3 & s3 & g3 & E3 & Hs3 & Ha3 & Ht3 & Ho & Hg3).
  assert (eval (asserts_on G) (smach (asserts_on G)) caught (PNewError its k) (s1, g) = Ok (ob, (s3, g3))) as Eb.
  { cbn [eval]. unfold gnew. cbn [snd fst]. change (g_sup (asserts_on G)) with (g_sup G). fold id. rewrite Hmk. unfold id_load. rewrite (proj2 (Z.eqb_neq id 0)) by done.
    eapply rb_ok; [exact E2|]. exact E3. }
  assert (forall T, get_node T q3 = pair id <$> gathered G T (its ++ its') (tr g) None) as Hq.
  { intros T. rewrite gathered_app. change (tr g) with (tr (snd (gnew G g))).
    pose proof (Hg2 T) as X. cbn [get_node sees] in X. rewrite gathered_on in X. rewrite <- X. rewrite <- Ht2. pose proof (Hg3 T) as Y. rewrite gathered_on in Y. rewrite <- Y. unfold sees. destruct (get_node T q3) as [[k0 v]|] eqn:E; [|done].
    rewrite (Ha3 _ _ _ E), Z.eqb_refl. done. }
  destruct Hs3 as (St3 & a & Ha & Htup & Hcoll).
  assert (sdeact (snc s) s3 = Ok (SMem [] (actxs s3) (snc s3))) as Ed.
  { unfold sdeact. rewrite St3, bool_decide_true by done. done. }
  assert (forall hx, exists se s', sextract (snc s) id hx (SMem [] (actxs s3) (snc s3)) = Ok (q3, se) /\ sdestroy (snc s) se = Ok s') as Hx.
  { intros hx. unfold sextract. simpl. rewrite Ha. unfold has_d. rewrite Htup. unfold sassert. rewrite (proj2 (Z.eqb_neq id 0)) by done. simpl.
    assert (forall a', sdestroy (snc s) (put (snc s) a' (SMem [] (actxs s3) (snc s3))) = Ok (SMem [] (delete (snc s) (<[snc s := a']> (actxs s3))) (snc s3))) as Hdel.
    { intros a'. unfold sdestroy. simpl. rewrite lookup_insert. done. }
    destruct (ac_coll a) as [Q|]; [|subst q3; eexists _, _; split; [done|apply Hdel]].
    destruct Hcoll as (-> & -> & ->). rewrite Z.eqb_refl, andb_false_r. eexists _, _. split; [done|apply Hdel]. }
  assert (exists ex s' g', eval (asserts_on G) (smach (asserts_on G)) caught (PCapture isvoid (PNewError its k)) (s, g) = Ok (ORet (RCap id q3 ex), (s', g')) /\
    (if b then exists x, ex = Some x /\ x_leaf x = Some id else ex = caught)) as (ex & s' & g' & Ec & Hex).
  { assert (forall y, capture_end (smach (asserts_on G)) isvoid caught (snc s) (ob, (s3, g3)) = Ok y ->
      eval (asserts_on G) (smach (asserts_on G)) caught (PCapture isvoid (PNewError its k)) (s, g) = Ok y) as Hce.
    { intros y Hy. cbn [eval]. change (g_capture (asserts_on G)) with (g_capture G). rewrite Hcap. cbn [negb]. unfold enter in A1. cbn [fst snd] in *.
      destruct (m_new (smach (asserts_on G)) [SDA] s) as [c' s0]. ok_inv A1. destruct a0 as [sx gx]. injection A1 as -> -> ->. cbn [rbind]. cbn [eval] in Eb. cbn [fst snd] in *.
      eapply rb_ok; [exact Eb|]. rewrite <- Hy. by destruct ob. }
    destruct b.
    - destruct Ho as (x & -> & Hx1 & Hx2). destruct (Hx true) as (se & s' & X1 & X2). exists (Some x), s'.
      destruct (catch_info x g3) as [[i0 e0] gx] eqn:Eci. exists gx. split; [|by exists x]. apply Hce. cbn [capture_end]. unfold on_mem. cbn [fst snd].
      eapply rb_ok. { eapply rb_ok; [exact Ed|reflexivity]. } cbn [fst snd]. rewrite Eci.
      assert (i0 = id) as ->. { unfold catch_info in Eci. rewrite Hx1, Hx2 in Eci. by injection Eci. }
      eapply rb_ok; [exact X1|]. cbn [fst snd]. unfold leave, on_mem. cbn [fst snd]. eapply rb_ok. { eapply rb_ok; [exact X2|reflexivity]. } done.
    - subst ob. destruct isvoid; [by specialize (Hv eq_refl)|]. destruct (Hx (bool_decide (caught <> None))) as (se & s' & X1 & X2). exists caught, s', g3. split; [|done].
      apply Hce. cbn [capture_end]. unfold on_mem. cbn [fst snd]. rewrite Hmk.
      eapply rb_ok. { eapply rb_ok; [exact Ed|reflexivity]. } cbn [fst snd].
      eapply rb_ok; [exact X1|]. cbn [fst snd]. unfold leave, on_mem. cbn [fst snd]. eapply rb_ok. { eapply rb_ok; [exact X2|reflexivity]. } done. }
  destruct (C48_pointer_free_semantics _ _ _ _ _ _ _ _ _ HR Ec) as (m' & Hl & HR').
  exists q3, ex, m', g'. split; [split; [done|by exists s, s']|].
  split. { destruct (C48_pointer_free_semantics _ _ _ _ _ _ _ _ _ HR1 Eb) as (m3 & _ & HR3). 
    assert (q3 = nodes a) as ->. { unfold nodes. destruct (ac_coll a); [by destruct Hcoll as (_ & _ & ->)|done]. }
    by destruct (R_awf _ _ _ _ HR3 Ha). }
  split; [done|]. split; [done|]. eapply same_ctxs; [exact HR|exact HR'|].
  exact (wb_same _ _ (proj1 (eval_wb _) _ _ _ _ _ Ec) (R_wf _ _ HR)).
Qed.
Print Assumptions C19_single_error_captured.

(** ** C21 *)

(** A result holding the exception x is unloaded, as error id, where there are no objects of this error yet. *)
Definition unloading (id : Z) (l : list cnode) (x : exn) (caught : option exn) (p : prog) (m : mem) (g : glob) (x' : exn) (m' : mem) (g' : glob) : Prop :=
  (exists k, p = PUnload (RCap id l (Some x)) k) /\ usable m /\ (forall T c, active m c -> sees id (held m c T) = None).

Lemma moved_placed G id src m s m' s' : R m s -> R m' s' -> ctxs m' = ctxs m -> stack s' = stack s -> moved G id src m m' ->
  (forall T c, active m c -> sees id (held m c T) = None) -> placed id (fun T v => src T = Some v) m'.
Proof.
  intros HR HR' Hc Hst Hmv Hf.
  assert (forall c, members m' c = members m c) as Hmem by (intros; unfold members; by rewrite Hc).
  intros T c. split.
  - intros Hs v Hv. destruct (moved_serves _ _ _ _ _ _ _ _ _ HR HR' Hst (fun c _ => Hmem c) Hmv Hs) as [Hs'|(_ & v' & Hv' & Hh)]; [|congruence].
    pose proof (serves_active _ _ _ _ HR Hs') as Hac. pose proof (Hmv c T Hac) as Hx. rewrite Hv in Hx. destruct Hx as (Hx & _). rewrite (Hx Hs'). by rewrite (Hf T c Hac).
  - intros Hac Hns. assert (active m c) as Hac' by (unfold active in *; by rewrite Hc in Hac).
    pose proof (Hmv c T Hac') as Hx. destruct (src T) as [v|] eqn:Ev; [|rewrite Hx; by apply Hf].
    destruct Hx as (_ & X2 & X3). rewrite X3; [by apply Hf| |].
    + intros Hs. apply Hns. exact (moved_serves_r _ _ _ _ _ _ _ _ _ HR HR' Hst (fun c _ => Hmem c) Hmv Hs).
    + intros (Y1 & Y2 & Y3). specialize (X2 Y1 Y2 Y3). apply Hns.
      destruct (decide (tls m' !! T = None)) as [Hn'|Hn'].
      * exfalso. apply (R_unserved _ _ _ HR') in Hn'. pose proof (find_e_first T s' (R_wf _ _ HR')) as F. rewrite Hn' in F. symmetry in F. simpl in F.
        rewrite first_of_None in F. assert (c ∈ stack s') as Hin by (by apply (R_active _ _ _ HR')). specialize (F c Hin). rewrite (hasT_held _ _ _ _ HR' Hin), X2 in F.
        apply orb_false_iff in F as [_ F]. apply bool_decide_eq_false in F. apply F. eauto.
      * destruct (not_unserved _ _ _ HR' Hn') as [c1 H1]. destruct (moved_serves _ _ _ _ _ _ _ _ _ HR HR' Hst (fun c _ => Hmem c) Hmv H1) as [H3|[(_ & _ & H3) _]]; [by apply serves_not_unserved in H3|].
        by assert (c1 = c) as -> by congruence.
Qed.

Lemma unloading_placed G id l x : mk id = id -> id <> 0 -> NoDup l.*1 -> (forall g, exn_id x (set_cur id g) = id) ->
  forall caught p m g x' m' g', runs G caught p m g (OThrow x') m' g' -> unloading id l x caught p m g x' m' g' ->
    exn_id x' g' = id /\ placed id (fun T v => get_node T l = Some (id, v)) m'.
Proof.
  intros Hmk Hnz Hnd Hx caught p m g x' m' g' (Hl & s & s' & HR & HR' & Hs) ((k & ->) & Hu & Hf).
  destruct (unload_both G id l (Some x) m s g HR Hu Hmk Hnz Hnd) as (n' & s2 & HR2 & Hc & Hmv & _ & _ & Hst & Eu & Eu2).
  assert (Hl' : eval G (pmach G) caught (PUnload (RCap id l (Some x)) k) (m, g) = Ok (OThrow x, (n', set_cur id g))).
  { cbn [eval]. eapply rb_ok; [exact Eu|done]. }
  pose proof (eq_trans (eq_sym Hl) Hl') as X. injection X as -> -> ->. split; [apply Hx|].
  pose proof (moved_placed _ _ _ _ _ _ _ HR HR2 Hc Hst Hmv Hf) as HP. intros T c. destruct (HP T c) as [P1 P2]. split; [|done].
  intros Hsv v Hv. apply P1; [done|]. rewrite Hv. simpl. by rewrite Z.eqb_refl.
Qed.

(** The exception of a failed task: where the captured result is unloaded, first its objects become available and its error the current one,
    then the exception is thrown. *)
Theorem C21_objects_first :
  forall G isvoid caught p m g o m' g' c x mb gb, runs G caught (PCapture isvoid p) m g o m' g' ->
    task_ended G caught p m g c (OThrow x) mb gb -> mk (exn_id x gb) = exn_id x gb ->
    exists l, o = ORet (RCap (exn_id x gb) l (Some x)) /\
      (started_by mb c (exn_id x gb) -> forall T, get_node T l = held mb c T) /\
      forall n s gn caught' k, R n s -> usable n ->
        exists n', (exists s', R n' s') /\ ctxs n' = ctxs n /\ moved G (exn_id x gb) (fun T => sees (exn_id x gb) (get_node T l)) n n' /\
          eval G (pmach G) caught' (PUnload (RCap (exn_id x gb) l (Some x)) k) (n, gn) = Ok (OThrow x, (n', set_cur (exn_id x gb) gn)) /\
          exn_id x (set_cur (exn_id x gb) gn) = exn_id x gb.
Proof.
  intros G isvoid caught p m g o m' g' c x mb gb Hr Ht Hmk.
  destruct (C19_capture_collects _ _ _ _ _ _ _ _ _ _ _ _ _ _ _ Hr Ht eq_refl) as (l & -> & Hnd & Hl & _ & Hnz & _).
  exists l. split; [done|]. split; [done|]. intros n s gn caught' k HR Hu.
  destruct (unload_both G _ l (Some x) n s gn HR Hu Hmk Hnz Hnd) as (n' & s' & HR' & Hc & Hmv & _ & _ & _ & Eu & _).
  exists n'. split; [eauto|]. split; [done|]. split; [done|]. split.
  - cbn [eval]. eapply rb_ok; [exact Eu|done].
  - clear - Hmk. unfold exn_id, catch_info in *. destruct (x_std x); simpl in *; [|done]. destruct (x_leaf x); simpl in *; [done|]. by destruct (x_eid x); simpl in *.
Qed.
Print Assumptions C21_objects_first.

(** Every scope the exception then passes through, whatever the scopes in between: it identifies the error by the id of the captured result and
    gets its objects. *)
Theorem C21_recognised_at_every_level :
  forall G id l x0 k caught p hs m g o m' g' c m1 ob mb gb o2 ei caught' m3 g3 x mx gx,
    mk id = id -> id <> 0 -> NoDup l.*1 -> (forall g, exn_id x0 (set_cur id g) = id) ->
    runs G caught (PScope k p hs) m g o m' g' ->
    enter (pmach G) (deduce G hs) (m, g) = Ok (c, (m1, g)) ->
    escapes G (unloading id l x0) caught p m1 g x mx gx ->
    failed G k caught p hs m g c ob mb gb o2 ei caught' m3 g3 ->
    ei_id ei = id /\ ei_ex ei = (if x_std x then Some x else None) /\ caught' = Some x /\
    forall T v, T ∈ members m3 c -> get_node T l = Some (id, v) -> obj G m3 c ei T = Some v.
Proof.
  intros G id l x0 k caught p hs m g o m' g' c m1 ob mb gb o2 ei caught' m3 g3 x mx gx Hmk Hnz Hnd Hx Hr He Hesc HF.
  destruct (escapes_scope G _ id _ k _ _ _ _ _ _ _ _ _ _ _ _ _ _ _ _ _ _ _ _ _ Hmk Hnz (unloading_placed G id l x0 Hmk Hnz Hnd Hx) Hr He Hesc HF) as (_ & E1 & E2 & E3 & E4).
  done.
Qed.
Print Assumptions C21_recognised_at_every_level.

(** ** A scope whose block returns a captured result *)
Theorem C19_scope_receives :
  forall G k caught p hs m g o m' g' c id l ex mb gb o2 ei caught' m3 g3, k <> KCatch ->
    runs G caught (PScope k p hs) m g o m' g' -> healthy m ->
    failed G k caught p hs m g c (ORet (RCap id l ex)) mb gb o2 ei caught' m3 g3 ->
    mk id = id -> id <> 0 -> NoDup l.*1 -> (forall x, ex = Some x -> forall g, exn_id x (set_cur id g) = id) ->
    o2 = match ex with Some x => OThrow x | None => ORet (RCap id [] None) end /\ ei_id ei = id /\
    (forall T v, T ∈ members m3 c -> get_node T l = Some (id, v) -> sees id (held mb c T) = None -> obj G m3 c ei T = Some v).
Proof.
  intros G k caught p hs m g o m' g' c id l ex mb gb o2 ei caught' m3 g3 Hk (Hl & s & s' & HR & HR' & Hspec) Hh HF Hmk Hnz Hnd Hx.
  destruct (failed_both _ _ _ _ _ _ _ _ _ _ _ _ _ _ _ _ _ _ _ _ _ HR Hspec Hl HF)
    as (m1 & s1 & sb & m2 & s2 & g2 & s3 & Ec & A1 & A2 & HR1 & B1 & B2 & HRb & C1 & C2 & HR2 & D & E1 & E2 & HR3 & _).
  assert (usable mb) as Hu.
  { apply (R_usable _ _ HRb), aok_dok. eapply wb_aok; [eapply (proj1 (eval_wb _) _ _ (s1, g) _ (sb, gb)); exact B2|by eapply R_wf|].
    apply (R_healthy _ _ HR) in Hh.
    destruct (enter_both G (deduce G hs) m s g (deduce_nodup G hs) HR) as (s1' & m1a & A1' & A2' & _ & S1 & S2 & S3).
    assert (s1' = s1) as -> by (rewrite <- Ec in A1'; pose proof (eq_trans (eq_sym A2) A1') as X; by injection X).
    cbn [fst]. intros c0 Hc0. rewrite S1 in Hc0. apply elem_of_cons in Hc0 as [->|Hc0]; intros a q; rewrite S2.
    - rewrite lookup_insert. intros [= <-]. done.
    - destruct (wf_fresh _ (R_wf _ _ HR)) as [_ Hf2]. rewrite lookup_insert_ne by congruence. by apply (Hh c0 Hc0). }
  destruct (unload_both G id l ex mb sb gb HRb Hu Hmk Hnz Hnd) as (n' & sx & HRx & Hc & Hmv & _ & _ & Hst & Eu & Eu2).
  assert (settle (pmach G) k (ORet (RCap id l ex), (mb, gb)) = unload_ret (pmach G) (RCap id l ex) (mb, gb)) as Ek by (by destruct k).
  pose proof (eq_trans (eq_sym C1) (eq_trans Ek Eu)) as X. injection X as -> -> ->.
  assert (settle (smach (asserts_on G)) k (ORet (RCap id l ex), (sb, gb)) = unload_ret (smach (asserts_on G)) (RCap id l ex) (sb, gb)) as Eks by (by destruct k).
  pose proof (eq_trans (eq_sym C2) (eq_trans Eks Eu2)) as X. injection X as ->.
  split; [done|].
  assert (sdeact c sx = Ok s3 /\ ei_id ei = id) as [Hd Hei].
  { destruct ex as [x|].
    - destruct (exn_detect _ _ _ _ _ _ _ _ _ _ E1) as (Eid & _). rewrite (Hx x eq_refl) in Eid.
      unfold detect in E2. ok_inv E2. destruct a as [i s3']. injection E2 as <- _ ->. by apply exn_info_inv in E as [E _].
    - unfold detect in E2. cbn [err_id_of rbind] in E2. ok_inv E2. ok_inv E2. injection E2 as <- _ ->. apply on_mem_inv in E as [E _]. split; [exact E|exact Hmk]. }
  split; [done|]. intros T v HT Hv Hn. pose proof (deact_popped _ _ _ _ _ HRx HR3 Hd) as PP.
  assert (serves n' T c) as Hsv by (apply (pp_own _ _ _ PP); left; by rewrite <- (pp_members _ _ _ PP)).
  assert (active mb c) as Hac. { pose proof (pp_act _ _ _ PP) as Hy. unfold active in *. by rewrite Hc in Hy. }
  assert (serves mb T c) as Hsb.
  { destruct (moved_serves _ _ _ _ _ _ _ _ _ HRb HRx Hst (fun c _ => ltac:(unfold members; by rewrite Hc)) Hmv Hsv) as [Hs|[(Hu1 & _) _]]; [done|].
    exfalso. apply (R_unserved _ _ _ HRb) in Hu1. pose proof (find_e_first T sb (R_wf _ _ HRb)) as F. rewrite Hu1 in F. symmetry in F. simpl in F.
    rewrite first_of_None in F. assert (c ∈ stack sb) as Hin by (by apply (R_active _ _ _ HRb)). specialize (F c Hin). rewrite (hasT_held _ _ _ _ HRb Hin) in F.
    apply orb_false_iff in F as [F _]. apply bool_decide_eq_false in F. apply F. rewrite (pp_members _ _ _ PP) in HT. unfold members in *. by rewrite Hc in HT. }
  pose proof (Hmv c T Hac) as Hy. cbv beta in Hy. rewrite Hv in Hy. simpl in Hy. rewrite Z.eqb_refl in Hy. destruct Hy as (Hy & _). specialize (Hy Hsb). rewrite Hn in Hy.
  unfold obj. rewrite decide_True by done. rewrite (pp_held _ _ _ PP), Hy, Hei. simpl. by rewrite Z.eqb_refl.
Qed.
Print Assumptions C19_scope_receives.

(** ** C20 *)

(** The full statement is that a captured result holds every object of the reported error. It does not hold: the first collected object may be of
    another error, which the task dealt with. *)
Definition captured_whole (G : cfg) : Prop :=
  forall isvoid caught p m g id l ex m' g' c ob mb gb, runs G caught (PCapture isvoid p) m g (ORet (RCap id l ex)) m' g' ->
    task_ended G caught p m g c ob mb gb -> task_error caught ob gb = Some (id, ex) ->
    forall T v, held mb c T = Some (id, v) -> get_node T l = Some (id, v).

(** The task handles a first error, of which an object was collected; then it fails. *)
Definition ex20_task : prog :=
  PBind (PTHA (PNewError [IVal TA (VZ 1)] (fun id => PRet (RErr id))) (HCons [] (fun _ => PRet (RVal 7)) HNil))
    (fun _ => PNewError [IVal TB (VZ 2)] (fun id => PRet (RErr id))).

(** Concrete captures from the initial state. *)
Definition cap_run (caught : option exn) (isvoid : bool) (p : prog) (P : ret -> cid -> out -> mem -> glob -> bool) : bool :=
  match eval (asserts_on GX) (smach (asserts_on GX)) caught (PCapture isvoid p) (smem0, glob0), eval GX (pmach GX) caught (PCapture isvoid p) (mem0, glob0),
        enter (pmach GX) [SDA] (mem0, glob0) with
  | Ok (_, (s', _)), Ok (ORet r, (m', g')), Ok (c, (m1, _)) =>
      match eval GX (pmach GX) caught p (m1, glob0) with Ok (ob, (mb, gb)) => P r c ob mb gb | _ => false end
  | _, _, _ => false
  end.
Lemma cap_run_ex caught isvoid p P : cap_run caught isvoid p P = true ->
  exists r m' g' c ob mb gb, runs GX caught (PCapture isvoid p) mem0 glob0 (ORet r) m' g' /\ task_ended GX caught p mem0 glob0 c ob mb gb /\ P r c ob mb gb = true.
Proof.
  unfold cap_run. intros H. destruct (eval (asserts_on GX) _ _ _ _) as [[os [s' gs]]|] eqn:Es; [|done].
  destruct (eval GX (pmach GX) caught (PCapture isvoid p) _) as [[[r|x] [m' g']]|] eqn:Em; [|done|done].
  destruct (C48_pointer_free_semantics _ _ _ _ _ _ _ _ _ R0 Es) as (m1' & Hl & HR'). pose proof (eq_trans (eq_sym Em) Hl) as X. injection X as <- -> ->.
  destruct (enter _ _ _) as [[c [m1 g1]]|] eqn:Ee; [|done].
  assert (g1 = glob0) as ->.
  { destruct (enter_both GX [SDA] mem0 smem0 glob0 (NoDup_singleton _) R0) as (? & ? & _ & Ee' & _). pose proof (eq_trans (eq_sym Ee) Ee') as X. by injection X. }
  destruct (eval GX (pmach GX) caught p _) as [[ob [mb gb]]|] eqn:Eb; [|done].
  exists r, m1', gs, c, ob, mb, gb. split; [exact (runs_intro _ _ _ _ _ _ _ _ _ _ R0 Hl Es)|]. split; [by exists m1|done].
Qed.

Theorem C20_captured_whole_refuted : ~ captured_whole GX.
Proof.
  intros H. assert (cap_run None false ex20_task (fun r c ob mb gb =>
    match r, ob with
    | RCap id l None, ORet (RErr i) => bool_decide (id = 9 /\ i = 9 /\ held mb c TB = Some (9, VZ 2) /\ get_node TB l = None)
    | _, _ => false end) = true) as E by (vm_compute; reflexivity).
  apply cap_run_ex in E as (r & m' & g' & c & ob & mb & gb & Hr & Ht & E).
  destruct r as [|?|id l [x|]|]; try done. destruct ob as [[|i| |]|]; try done. apply bool_decide_eq_true in E as (-> & -> & E1 & E2).
  specialize (H _ _ _ _ _ _ _ _ _ _ _ _ _ _ Hr Ht eq_refl TB (VZ 2) E1). congruence.
Qed.
Print Assumptions C20_captured_whole_refuted.

(** What holds: nothing is lost if the first collected object is of the reported error. *)
Theorem C20_captured_whole_partial :
  forall G isvoid caught p m g id l ex m' g' c ob mb gb, runs G caught (PCapture isvoid p) m g (ORet (RCap id l ex)) m' g' ->
    task_ended G caught p m g c ob mb gb -> task_error caught ob gb = Some (id, ex) -> started_by mb c id ->
    forall T, get_node T l = held mb c T.
Proof.
  intros G isvoid caught p m g id l ex m' g' c ob mb gb Hr Ht He Hs.
  destruct (C19_capture_collects _ _ _ _ _ _ _ _ _ _ _ _ _ _ _ Hr Ht He) as (l' & E & _ & Hl & _). injection E as <-. auto.
Qed.
Print Assumptions C20_captured_whole_partial.

(** ** C22 *)
Lemma mk_mk id : mk (mk id) = mk id.
Proof.
  unfold mk. apply Z.bits_inj'. intros n Hn. rewrite !Z.lor_spec, !Z.ldiff_spec, !Z.lor_spec, !Z.ldiff_spec.
  destruct (Z.eq_dec n 0) as [->|]; [by rewrite !orb_true_r|]. assert (Z.testbit 1 n = false) as ->. { change 1 with (2 ^ 0). apply Z.pow2_bits_false. lia. }
  by destruct (Z.testbit id n), (Z.testbit 3 n).
Qed.

(** The full statement is that a captured result failure does not throw where it is unloaded. *)
Definition result_failure_stays (G : cfg) : Prop :=
  forall caught p m g r m' g' c id mb gb, runs G caught (PCapture false p) m g (ORet r) m' g' ->
    task_ended G caught p m g c (ORet (RErr id)) mb gb ->
    forall n s gn caught' k, R n s -> usable n -> exists n' g', eval G (pmach G) caught' (PUnload r k) (n, gn) = eval G (pmach G) caught' (k (RCap (mk id) [] None)) (n', g').

(** It does not hold in a catch block: the exception being handled there is captured along with the unrelated failure. *)
Definition ex22_x : exn := Exn 0 true [T_STDEX] 9 None None None.
Definition ex22_task : prog := PNewError [IVal TB (VZ 2)] (fun id => PRet (RErr id)).
Theorem C22_result_failure_stays_refuted : ~ result_failure_stays GX.
Proof.
  intros H. assert (cap_run (Some ex22_x) false ex22_task (fun r c ob mb gb => 
    match ob with ORet (RErr _) =>
      match eval GX (pmach GX) None (PUnload r (fun _ => PRet (RVal 7))) (mem0, glob0) with Ok (OThrow _, _) => true | _ => false end
    | _ => false end) = true) as E by (vm_compute; reflexivity).
  apply cap_run_ex in E as (r & m' & g' & c & ob & mb & gb & Hr & Ht & E). destruct ob as [[|i| |]|]; try done.
  destruct (H _ _ _ _ _ _ _ _ _ _ _ Hr Ht mem0 smem0 glob0 None (fun _ => PRet (RVal 7)) R0) as (n' & gn & E'); [done|].
  rewrite E' in E. cbn [eval] in E. done.
Qed.
Print Assumptions C22_result_failure_stays_refuted.

(** The whole program: the exception is caught, then a function fails under try_capture_all; unloading its result throws the old exception. *)
Example ex22 :
  match eval GX (pmach GX) None
    (PCatch (PThrowX (XSpec true [T_STDEX] 9 None None))
       (fun _ => PBind (PCapture false ex22_task) (fun r => PUnload r (fun _ => PRet (RVal 7))))) (mem0, glob0) with
  | Ok (OThrow x, _) => Some (x_val x) | _ => None end = Some 9.
Proof. vm_compute. reflexivity. Qed.

(** What holds: it does not throw, provided no exception was being handled where the task ran. *)
Theorem C22_result_failure_stays_partial :
  forall G p m g r m' g' c id mb gb, runs G None (PCapture false p) m g (ORet r) m' g' ->
    task_ended G None p m g c (ORet (RErr id)) mb gb ->
    forall n s gn caught' k, R n s -> usable n ->
      exists n' s', R n' s' /\ ctxs n' = ctxs n /\
        eval G (pmach G) caught' (PUnload r k) (n, gn) = eval G (pmach G) caught' (k (RCap (mk id) [] None)) (n', set_cur (mk id) gn).
Proof.
  intros G p m g r m' g' c id mb gb Hr Ht n s gn caught' k HR Hu.
  destruct (C19_capture_collects _ _ _ _ _ _ _ _ _ _ _ _ _ _ _ Hr Ht eq_refl) as (l & E & Hnd & _ & _ & Hnz & _). injection E as ->.
  destruct (unload_both G (mk id) l None n s gn HR Hu (mk_mk _) Hnz Hnd) as (n' & s' & HR' & Hc & _ & _ & _ & _ & Eu & _).
  exists n', s'. split; [done|]. split; [done|]. cbn [eval]. refine (rb_ok _ _ _ _ Eu _). done.
Qed.
Print Assumptions C22_result_failure_stays_partial.

(** ** Examples *)

(** A task with objects of two types; the second is accumulated afterwards. *)
Definition ex19_more (id : Z) : prog :=
  PLoad id [IAcc TB 3 (fun v => match v with VZ z => VZ (z + 10) | _ => v end)] (PBind (PRet (RErr id)) (fun _ => PLoad id [IVal TC (VZ 4)] (PRet (RErr id)))).
Example ex19_raises : raises 5 (ex19_more 5) [IAcc TB 3 (fun v => match v with VZ z => VZ (z + 10) | _ => v end); IVal TC (VZ 4)] false.
Proof. unfold ex19_more. apply (rs_load 5 [_] _ [IVal TC (VZ 4)]). apply (rs_then 5 _ _ []); [constructor|]. apply (rs_load 5 [_] _ []). constructor. Qed.
Definition ex19_task : prog := PNewError [IVal TA (VZ 1); IVal TB (VZ 2)] ex19_more.
Example ex19_single : exists l ex m' g', runs GX None (PCapture false ex19_task) mem0 glob0 (ORet (RCap 5 l ex)) m' g' /\ get_node TB l = Some (5, VZ 12) /\ ex = None.
Proof.
  destruct (C19_single_error_captured GX false None [IVal TA (VZ 1); IVal TB (VZ 2)] ex19_more [IAcc TB 3 (fun v => match v with VZ z => VZ (z + 10) | _ => v end); IVal TC (VZ 4)] false mem0 smem0 glob0 eq_refl GX_good R0) as (l & ex & m' & g' & H1 & _ & H3 & H4 & _).
  - intros c (k & Hk & _). done.
  - exact ex19_raises.
  - done.
  - exists l, ex, m', g'. split; [exact H1|]. split; [|exact H4]. rewrite (H3 TB). vm_compute. reflexivity.
Qed.

(** The conditions of [C19_capture_and_unload] and [C21_objects_first]; the objects arrive in the scope of another thread, which handles TA and TB. *)
Definition ex19_ok (throws : bool) (r : ret) (c : cid) (ob : out) (mb : mem) (gb : glob) : bool :=
  match dhp mb !! c, task_error None ob gb, eval GX (pmach GX) None (PUnload r (fun _ => PRet (RVal 7))) (out_m, glob0) with
  | Some d, Some (id, ex), Ok (o, (n', gn')) =>
      bool_decide (d_key d = id /\ id = 5 /\ mk id = id /\ cur gn' = id /\ held out_m 0%nat TA = None /\ held n' 0%nat TA = Some (id, VZ 1)) &&
      match o, throws with OThrow x, true => x_val x =? 9 | ORet (RVal 7), false => true | _, _ => false end
  | _, _, _ => false
  end.
Definition ex21_task : prog := PThrow None (XSpec true [T_STDEX] 9 None None) [IVal TA (VZ 1); IVal TB (VZ 2)].
Example ex19_roundtrip : cap_run None false ex19_task (ex19_ok false) = true.
Proof. vm_compute. reflexivity. Qed.
Example ex21_roundtrip : cap_run None false ex21_task (ex19_ok true) = true.
Proof. vm_compute. reflexivity. Qed.

(** The captured exception, unloaded in a scope without a handler for it, inside a scope with one. *)
Definition ex21_x : exn := Exn 0 true [T_STDEX] 9 None None (Some 5).
Definition ex21_l : list cnode := [(TA, (5, VZ 1)); (TB, (5, VZ 2))].
Definition ex21_un : prog := PUnload (RCap 5 ex21_l (Some ex21_x)) (fun _ => PRet (RVal 7)).
Definition ex21_hs : handlers := HCons [AE TC; APtr TB] (fun _ => PRet (RVal 1)) HNil.
Definition ex21_hs2 : handlers := HCons [AE TA; AE TB] (fun _ => PRet (RVal 3)) HNil.
Definition ex21_p : prog := PTHS ex21_un ex21_hs.
Local Notation ex21_m2 := (entered (deduce GX ex21_hs2) mem0).
Local Notation ex21_s2 := (entered_s (deduce GX ex21_hs2) smem0).
Local Notation ex21_m1 := (entered (deduce GX ex21_hs) ex21_m2).
Local Notation ex21_s1 := (entered_s (deduce GX ex21_hs) ex21_s2).
Lemma ex21_escapes : exists mx gx, escapes GX (unloading 5 ex21_l ex21_x) None ex21_p ex21_m2 glob0 ex21_x mx gx.
Proof.
  assert (R ex21_m2 ex21_s2) as H2 by (apply entered_R; [apply deduce_nodup|exact R0]).
  assert (R ex21_m1 ex21_s1) as H1 by (apply entered_R; [apply deduce_nodup|done]).
  assert (exists m' g', escapes GX (unloading 5 ex21_l ex21_x) None ex21_un ex21_m1 glob0 ex21_x m' g') as (mb1 & gb1 & He).
  { assert (usable ex21_m1) as Hu by (intros c d _ H; vm_compute in H; discriminate H).
    destruct (unload_both GX 5 ex21_l (Some ex21_x) ex21_m1 ex21_s1 glob0 H1 Hu eq_refl) as (n' & s' & HR' & _ & _ & _ & _ & _ & E1 & E2);
      [done|apply (bool_decide_unpack _); vm_compute; exact I|]. exists n', (set_cur 5 glob0). apply esc_here.
    - eapply runs_intro; [exact H1| |]; (unfold ex21_un; cbn [eval]; eapply rb_ok; [first [exact E1|exact E2]|reflexivity]).
    - split; [by eexists|]. split; [done|]. intros T c _. rewrite (none_held _ _ H1); [done|]. apply (bool_decide_unpack _). vm_compute. exact I. }
  edestruct (scope_ex GX KSome ex21_un ex21_hs ex21_m2 ex21_s2 glob0 (fun o m' c o2 ei m3 => ei_id ei = 5 /\ o2 = OThrow ex21_x /\ o = OThrow ex21_x /\ nobody GX m3 c ei ex21_hs))
    as (o & m' & g' & c & ob & mb & gb & o2 & ei & caught' & m3 & g3 & Hr & HF & HP1 & HP2 & HP3 & HP4); [exact H2|vm_compute; reflexivity|]. subst o o2.
  destruct (entered_R (deduce GX ex21_hs) ex21_m2 _ (deduce_nodup GX ex21_hs) H2) as [_ [c' Ent]].
  assert (c' = c) as ->. { pose proof HF as (m1a & _ & _ & F1 & _). pose proof (eq_trans (eq_sym Ent) F1) as X. by injection X. }
  assert (ob = OThrow ex21_x /\ mb = mb1 /\ gb = gb1) as (-> & -> & ->).
  { destruct HF as (m1a & m2a & g2a & F1 & F2 & _). pose proof (eq_trans (eq_sym F1) Ent) as X. injection X as ->.
    pose proof (eq_trans (eq_sym F2) (escapes_run _ _ _ _ _ _ _ _ _ He)) as Y. by injection Y as -> -> ->. }
  exists m', g'. apply (esc_scope _ _ _ KSome ex21_un ex21_hs _ _ c ex21_m1 mb1 gb1 ei caught' m3 g3); auto.
  intros c0 d0 _ H. vm_compute in H. discriminate H.
Qed.
Example ex21 : exists mx gx o m' g' c ob mb gb o2 ei caught' m3 g3,
  escapes GX (unloading 5 ex21_l ex21_x) None ex21_p ex21_m2 glob0 ex21_x mx gx /\
  enter (pmach GX) (deduce GX ex21_hs2) (mem0, glob0) = Ok (c, (ex21_m2, glob0)) /\
  runs GX None (PScope KAll ex21_p ex21_hs2) mem0 glob0 o m' g' /\
  failed GX KAll None ex21_p ex21_hs2 mem0 glob0 c ob mb gb o2 ei caught' m3 g3 /\ mk 5 = 5 /\ NoDup ex21_l.*1 /\
  (o = ORet (RVal 3) /\ ei_id ei = 5 /\ TB ∈ members m3 c /\ obj GX m3 c ei TB = Some (VZ 2)).
Proof.
  destruct ex21_escapes as (mx & gx & He).
  edestruct (scope_ex GX KAll ex21_p ex21_hs2 mem0 smem0 glob0
    (fun o m' c o2 ei m3 => o = ORet (RVal 3) /\ ei_id ei = 5 /\ TB ∈ members m3 c /\ obj GX m3 c ei TB = Some (VZ 2)))
    as (o & m' & g' & c & ob & mb & gb & o2 & ei & caught' & m3 & g3 & Hr & HF & HP); [exact R0|vm_compute; reflexivity|].
  destruct (entered_R (deduce GX ex21_hs2) mem0 _ (deduce_nodup GX ex21_hs2) R0) as [_ [c' Ent]].
  assert (c' = c) as ->. { pose proof HF as (m1a & _ & _ & F1 & _). pose proof (eq_trans (eq_sym Ent) F1) as X. by injection X. }
  exists mx, gx, o, m', g', c, ob, mb, gb, o2, ei, caught', m3, g3. repeat (split; [done|]). split; [|done]. apply (bool_decide_unpack _). vm_compute. exact I.
Qed.

(** A scope receiving a captured result directly. *)
Example ex19_scope : exists o m' g' c ob mb gb o2 ei caught' m3 g3,
  runs GX None (PScope KSome (PRet (RCap 5 ex21_l None)) ex21_hs2) out_m glob0 o m' g' /\
  failed GX KSome None (PRet (RCap 5 ex21_l None)) ex21_hs2 out_m glob0 c ob mb gb o2 ei caught' m3 g3 /\
  (o = ORet (RVal 3) /\ ei_id ei = 5 /\ TB ∈ members m3 c /\ obj GX m3 c ei TB = Some (VZ 2)).
Proof.
  eapply (scope_ex GX KSome _ _ _ _ _ (fun o m' c o2 ei m3 => o = ORet (RVal 3) /\ ei_id ei = 5 /\ TB ∈ members m3 c /\ obj GX m3 c ei TB = Some (VZ 2)));
    [exact out_R|]. vm_compute. reflexivity.
Qed.
