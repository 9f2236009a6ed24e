(** A run depends on the ids a thread is given, and on nothing else outside the thread. *)
From Verif Require Export PropsCatch.
Open Scope Z_scope.

Definition with_sup (f : nat -> Z) (G : cfg) : cfg :=
  Cfg (g_capture G) (g_diag G) (g_asserts G) (g_class G) (g_abs G) (g_show G) (g_def G) f.

Lemma pmach_sup f G : pmach (with_sup f G) = pmach G.
Proof. reflexivity. Qed.

Definition agree (f1 f2 : nat -> Z) (a b : nat) : Prop := forall n, (a <= n < b)%nat -> f1 n = f2 n.
Lemma agree_sub f1 f2 a b a' b' : agree f1 f2 a b -> (a <= a')%nat -> (b' <= b)%nat -> agree f1 f2 a' b'.
Proof. intros H ? ? n ?. apply H. lia. Qed.

Section loc.
Context (G : cfg) (f1 f2 : nat -> Z).
Notation G1 := (with_sup f1 G).
Notation G2 := (with_sup f2 G).
Notation MP := (pmach G).
Notation st := (st MP).

(** Of two computations which differ in the supply only: the first's result is the second's, if the supplies agree on what is used. p: the state
    part of a result; n: how many ids were used before. *)
Definition loc {A} (p : A -> glob) (x1 x2 : res A) (n : nat) : Prop :=
  forall a, x1 = Ok a -> (n <= ngen (p a))%nat /\ (agree f1 f2 n (ngen (p a)) -> x2 = Ok a).

Definition p_os (x : out * st) : glob := snd (snd x).
Definition p_is (x : Z * st) : glob := snd (snd x).

Lemma loc_ok {A} (p : A -> glob) a n : (n <= ngen (p a))%nat -> loc p (Ok a) (Ok a) n.
Proof. intros H a' E. injection E as <-. auto. Qed.
Lemma loc_fail {A} (p : A -> glob) e x n : loc p (Fail e) x n.
Proof. by intros ? ?. Qed.
Lemma loc_bind {A B} (p : A -> glob) (q : B -> glob) x1 x2 k1 k2 n : loc p x1 x2 n ->
  (forall a, loc q (k1 a) (k2 a) (ngen (p a))) -> loc q (rbind x1 k1) (rbind x2 k2) n.
Proof.
  intros H HK b E. destruct x1 as [a|]; [|done]. simpl in E. destruct (H a eq_refl) as [L1 E1].
  destruct (HK a b E) as [L2 E2]. split; [lia|]. intros Ha.
  rewrite E1 by (eapply agree_sub; [exact Ha|lia|lia]). simpl. apply E2. eapply agree_sub; [exact Ha|lia|lia].
Qed.
(** Operations on the storage do not depend on the supply. *)
Lemma loc_op {A B} (q : B -> glob) (x : res A) k1 k2 n :
  (forall a, x = Ok a -> loc q (k1 a) (k2 a) n) -> loc q (rbind x k1) (rbind x k2) n.
Proof. intros HK b E. destruct x as [a|]; [|done]. simpl in E. by apply (HK a eq_refl). Qed.
Lemma loc_new {A} (p : A -> glob) (k1 k2 : Z * glob -> res A) (g : glob) :
  (forall id g', ngen g' = S (ngen g) -> loc p (k1 (id, g')) (k2 (id, g')) (ngen g')) -> loc p (k1 (gnew G1 g)) (k2 (gnew G2 g)) (ngen g).
Proof.
  intros H a E. unfold gnew in E. simpl in E. unfold gnew. simpl.
  match type of E with k1 (_, ?g') = _ => set (g1 := g') in * end. assert (ngen g1 = S (ngen g)) as Hg1 by done.
  destruct (H (f1 (ngen g)) g1 Hg1 a E) as [L1 E1]. 
  split; [lia|]. intros Ha. assert (f2 (ngen g) = f1 (ngen g)) as -> by (symmetry; apply Ha; lia). apply E1. eapply agree_sub; [exact Ha|lia|lia].
Qed.

Lemma ng_load o id it (s s' : st) : m_load MP o id it (fst s) (snd s) = Ok s' -> ngen (snd s') = ngen (snd s).
Proof. destruct s' as [m' g']. intros H. pose proof (mload_ctxs G _ _ _ _ _ _ _ H) as [_ [->|[e ->]]]; done. Qed.
Lemma ng_load_items o id its : forall (s s' : st), load_items MP o id its s = Ok s' -> ngen (snd s') = ngen (snd s).
Proof. induction its as [|it its IH]; intros s s' H; cbn [load_items] in H; [by injection H as <-|]. ok_inv H. rewrite (IH _ _ H). by eapply ng_load. Qed.
Lemma ng_id_load id its (s s' : st) : id_load MP id its s = Ok s' -> ngen (snd s') = ngen (snd s).
Proof. unfold id_load. destruct (id =? 0); intros H; [by injection H as <-|by eapply ng_load_items]. Qed.
Lemma ng_unload c id (s s' : st) : m_unload MP c id (fst s) (snd s) = Ok s' -> ngen (snd s') = ngen (snd s).
Proof. destruct s' as [m' g']. intros H. destruct (mi_unl _ _ _ _ (pmach_inv G Fall) _ _ _ _ _ _ H (no_coll_all _)) as [_ [->|[_ ->]]]; done. Qed.
Lemma ng_on_mem f (s s' : st) : on_mem MP f s = Ok s' -> ngen (snd s') = ngen (snd s).
Proof. unfold on_mem. intros H. ok_inv H. by injection H as <-. Qed.
Lemma ng_unload_ret r (s : st) o s' : unload_ret MP r s = Ok (o, s') -> ngen (snd s') = ngen (snd s).
Proof.
  destruct r; simpl; intros H; try (by injection H as <- <-). ok_inv H. destruct a as [m g]. injection H as <- <-.
  pose proof (mcap_unload_ctxs G _ _ _ _ _ _ E) as [_ ->]. done.
Qed.
Lemma ng_catch_info x g id ex g' : catch_info x g = (id, ex, g') -> ngen g' = ngen g.
Proof. unfold catch_info. destruct (x_std x); [destruct (x_leaf x)|]; intros H; by injection H as <- <- <-. Qed.
Lemma ng_exn_info c x (s : st) ei s' : exn_info MP c x s = Ok (ei, s') -> ngen (snd s') = ngen (snd s).
Proof.
  unfold exn_info. intros H. ok_inv H. rewrite <- (ng_on_mem _ _ _ E). destruct a as [m1 g1]. simpl in H.
  destruct (catch_info x g1) as [[id ex] g] eqn:Hc. ok_inv H. injection H as <- <-. by eapply ng_catch_info.
Qed.
Lemma ng_leave c o (s : st) o' s' : leave MP c o s = Ok (o', s') -> ngen (snd s') = ngen (snd s).
Proof. unfold leave. intros H. ok_inv H. injection H as <- <-. by eapply ng_on_mem. Qed.
Lemma ng_deact_leave c o (s : st) o' s' : deact_leave MP c o s = Ok (o', s') -> ngen (snd s') = ngen (snd s).
Proof. unfold deact_leave. intros H. ok_inv H. rewrite (ng_leave _ _ _ _ _ H). by eapply ng_on_mem. Qed.
Lemma ng_tha_end c o (s : st) o' s' : tha_end MP c o s = Ok (o', s') -> ngen (snd s') = ngen (snd s).
Proof. unfold tha_end. destruct o as [r|]; [|apply ng_leave]. destruct (is_val r); [apply ng_leave|done]. Qed.
Lemma ng_release caught x o g : ngen (release caught x o g) = ngen g.
Proof. unfold release, exn_destroy. destruct (_ || _); [done|]. destruct (x_leaf x); [|done]. destruct (bool_decide _); [|done]. by destruct (_ =? _). Qed.

Lemma loc_const {A} (p : A -> glob) (x : res A) n : (forall a, x = Ok a -> ngen (p a) = n) -> loc p x x n.
Proof. intros H a E. rewrite (H a E). auto. Qed.

Lemma loc_n {A} (p : A -> glob) x1 x2 n m : n = m -> loc p x1 x2 n -> loc p x1 x2 m.
Proof. by intros ->. Qed.

Lemma loc_import cat v (s : st) : loc p_is (import_ec G1 MP cat v s) (import_ec G2 MP cat v s) (ngen (snd s)).
Proof.
  unfold import_ec. destruct (v =? 0); [by apply loc_ok|]. destruct (cat =? LEAFCAT)%nat.
  - apply loc_const. intros a H. change (assert G1) with (assert G) in H. ok_inv H. by injection H as <-.
  - apply (loc_new p_is (fun '(id, g) => let! s1 := m_load MP false id (IVal T_EC (VEC cat v)) (fst s) g in Ok (mk id, s1))
      (fun '(id, g) => let! s1 := m_load MP false id (IVal T_EC (VEC cat v)) (fst s) g in Ok (mk id, s1))).
    intros id g' Hg. apply loc_const. intros a H. ok_inv H. injection H as <-. exact (ng_load _ _ _ (fst s, g') _ E).
Qed.
Lemma loc_err_id r (s : st) : loc p_is (err_id_of G1 MP r s) (err_id_of G2 MP r s) (ngen (snd s)).
Proof. destruct r; simpl; try (by apply loc_ok). apply loc_import. Qed.
Lemma loc_ths_end c o (s : st) : loc p_os (ths_end G1 MP c o s) (ths_end G2 MP c o s) (ngen (snd s)).
Proof.
  unfold ths_end. destruct o as [r|x]; [|apply loc_const; intros [] H; by eapply ng_leave].
  destruct (is_val r); [apply loc_const; intros [] H; by eapply ng_leave|].
  eapply loc_bind; [apply loc_err_id|]. intros [i s1]. apply loc_const. intros [o' s'] H. ok_inv H.
  unfold p_os. simpl. etrans; [exact (ng_leave _ _ _ _ _ H)|]. simpl. exact (ng_unload _ _ s1 _ E).
Qed.
Definition p_ri (i : (einfo * ret * st) + (exn * st)) : glob := match i with inl (_, s) => snd s | inr (_, s) => snd s end.
Lemma loc_res_info c r (s : st) : loc p_ri (res_info G1 MP c r s) (res_info G2 MP c r s) (ngen (snd s)).
Proof.
  unfold res_info. apply loc_op. intros [[r1|x] s1] H; rewrite <- (ng_unload_ret _ _ _ _ H).
  - eapply loc_bind; [apply loc_err_id|]. intros [i s2].
    apply loc_const. intros a E. ok_inv E. ok_inv E. injection E as <-. simpl. exact (ng_on_mem _ _ _ E0).
  - by apply loc_ok.
Qed.
Lemma loc_e2r cls x (s : st) : loc p_os (e2r G1 MP cls x s) (e2r G2 MP cls x s) (ngen (snd s)).
Proof.
  unfold e2r.
  apply (loc_new p_os (fun '(id, g) => let! s1 := id_load MP (mk id) (IVal T_EPTR (VX x) :: (if x_std x then slices cls x else [])) (fst s, g) in Ok (ORet (RErr (mk id)), s1))
    (fun '(id, g) => let! s1 := id_load MP (mk id) (IVal T_EPTR (VX x) :: (if x_std x then slices cls x else [])) (fst s, g) in Ok (ORet (RErr (mk id)), s1))).
  intros id g' Hg. apply loc_const. intros a H. ok_inv H. injection H as <-. by apply ng_id_load in E.
Qed.

Lemma loc_eval :
  (forall p caught (s : st), loc p_os (eval G1 MP caught p s) (eval G2 MP caught p s) (ngen (snd s))) /\
  (forall hs caught c ei d1 d2 (s : st), (forall s : st, loc p_os (d1 s) (d2 s) (ngen (snd s))) ->
     loc p_os (evalH G1 MP caught hs c ei d1 s) (evalH G2 MP caught hs c ei d2 s) (ngen (snd s))).
Proof.
  assert (forall o (s : st), p_os (o, s) = snd s) as Hp by done.
  assert (forall x n, (forall o (s : st), x = Ok (o, s) -> ngen (snd s) = n) -> loc p_os x x n) as Hconst.
  { intros x n Hx. apply loc_const. intros [o s1] H. by apply Hx in H. }
  assert (forall (x : res st) k1 k2 n, (forall s1, x = Ok s1 -> ngen (snd s1) = n) -> (forall s1, loc p_os (k1 s1) (k2 s1) (ngen (snd s1))) ->
    loc p_os (rbind x k1) (rbind x k2) n) as Hop.
  { intros x k1 k2 n Hx Hk. apply loc_op. intros s1 E. rewrite <- (Hx _ E). apply Hk. }
  apply prog_handlers_ind.
  - intros r caught s. by apply loc_ok.
  - intros p IH k IHk caught s. cbn [eval]. eapply loc_bind; [apply IH|]. intros [[r|x] s1]; [apply IHk|by apply loc_ok].
  - intros z k IH caught s. cbn [eval]. apply (IH caught (fst s, emit (EvUser z) (snd s))).
  - intros its k IH caught s. cbn [eval].
    apply (loc_new p_os (fun '(id, g) => let! s1 := id_load MP (mk id) its (fst s, g) in eval G1 MP caught (k (mk id)) s1)
      (fun '(id, g) => let! s1 := id_load MP (mk id) its (fst s, g) in eval G2 MP caught (k (mk id)) s1)).
    intros id g' Hg. apply Hop; [|intros; apply IH]. intros s1 E. exact (ng_id_load _ _ _ _ E).
  - intros id its k IH caught s. cbn [eval]. apply Hop; [|intros; apply IH]. intros s1 E. exact (ng_id_load _ _ _ _ E).
  - intros k IH caught s. cbn [eval]. apply IH.
  - intros oi x its caught s. cbn [eval]. destruct oi as [id|].
    + apply loc_op. intros s1 E. apply loc_ok. exact (Nat.eq_le_incl _ _ (eq_sym (ng_id_load _ _ _ _ E))).
    + apply (loc_new p_os (fun '(id, g) => let! s1 := id_load MP (mk id) its (fst s, g) in Ok (throw_leaf MP (mk id) x s1))
        (fun '(id, g) => let! s1 := id_load MP (mk id) its (fst s, g) in Ok (throw_leaf MP (mk id) x s1))).
      intros id g' Hg. apply loc_op. intros s1 E. apply loc_ok. exact (Nat.eq_le_incl _ _ (eq_sym (ng_id_load _ _ _ _ E))).
  - intros x caught s. cbn [eval]. by apply loc_ok.
  - intros caught s. cbn [eval]. destruct caught; [by apply loc_ok|apply loc_fail].
  - intros p IH h IHh caught s. cbn [eval]. eapply loc_bind; [apply IH|]. intros [[r|x] s1]; [by apply loc_ok|].
    eapply loc_bind; [apply IHh|]. intros [o s2]. apply loc_ok. unfold p_os. simpl. by rewrite ng_release.
  - intros its p IH caught s. cbn [eval]. eapply loc_bind; [apply IH|]. intros [o s1]. simpl.
    assert (forall id g, ngen g = ngen (snd s1) \/ True -> loc p_os (if id =? 0 then Ok (o, (fst s1, g)) else let! s2 := load_items MP true id its (fst s1, g) in Ok (o, s2))
      (if id =? 0 then Ok (o, (fst s1, g)) else let! s2 := load_items MP true id its (fst s1, g) in Ok (o, s2)) (ngen g)) as Hl.
    { intros id g _. apply Hconst. intros o' s2. destruct (id =? 0); intros H; [by injection H as <- <-|]. ok_inv H. injection H as <- <-. exact (ng_load_items _ _ _ _ _ E). }
    destruct (negb _); [by apply Hl; left|]. destruct o as [r|x]; [by apply (Hl 0 (snd s1)); left|].
    apply (loc_new p_os (fun '(id, g) => if id =? 0 then Ok (OThrow x, (fst s1, g)) else let! s2 := load_items MP true id its (fst s1, g) in Ok (OThrow x, s2))
      (fun '(id, g) => if id =? 0 then Ok (OThrow x, (fst s1, g)) else let! s2 := load_items MP true id its (fst s1, g) in Ok (OThrow x, s2))).
    intros id g' _. apply Hl. by right.
  - intros k IH caught s. cbn [eval]. apply IH.
  - intros m k IH caught s. cbn [eval]. apply IH.
  - intros m k IH caught s. cbn [eval]. destruct (negb _); [apply IH|].
    apply (loc_new p_os (fun '(id, g) => eval G1 MP caught (k (mk id)) (fst s, g)) (fun '(id, g) => eval G2 MP caught (k (mk id)) (fst s, g))).
    intros id g' _. apply (IH _ caught (fst s, g')).
  - (* PTHA *) intros p IH hs IHh caught s. cbn [eval]. change (deduce G1 hs) with (deduce G hs). change (deduce G2 hs) with (deduce G hs).
    destruct (m_new MP (deduce G hs) (fst s)) as [c m1].
    apply Hop; [intros s1 E; exact (ng_on_mem _ _ _ E)|]. intros s1. eapply loc_bind; [apply IH|]. intros [o2 s2].
    apply (loc_bind p_os).
    { destruct o2; [|by apply loc_ok]. apply Hconst. intros o3 s3 E. exact (ng_unload_ret _ _ _ _ E). }
    intros [[r|x] s3].
    + destruct (is_val r); [apply Hconst; intros o4 s4 E; exact (ng_deact_leave _ _ _ _ _ E)|].
      eapply loc_bind; [apply loc_res_info|]. intros [[[ei r1] s4]|[x s4]].
      * eapply loc_bind; [apply IHh; intros; apply loc_fail|]. intros [o5 s5]. apply Hconst. intros o6 s6 E. exact (ng_tha_end _ _ _ _ _ E).
      * apply Hconst; intros o5 s5 E; exact (ng_deact_leave _ _ _ _ _ E).
    + apply loc_op. intros [ei s4] E. apply (loc_n _ _ _ _ _ (ng_exn_info _ _ _ _ _ E)).
      eapply loc_bind; [apply IHh|].
      { intros s5. apply Hconst. intros o6 s6 E6. unfold unload_rethrow in E6. ok_inv E6. injection E6 as <- <-. exact (ng_unload _ _ _ _ E0). }
      intros [o5 s5]. apply Hconst. intros o6 s6 E6. exact (ng_tha_end _ _ _ _ _ E6).
  - (* PTHS *) intros p IH hs IHh caught s. cbn [eval]. change (deduce G1 hs) with (deduce G hs). change (deduce G2 hs) with (deduce G hs).
    destruct (m_new MP (deduce G hs) (fst s)) as [c m1].
    apply Hop; [intros s1 E; exact (ng_on_mem _ _ _ E)|]. intros s1. eapply loc_bind; [apply IH|]. intros [o2 s2].
    apply (loc_bind p_os).
    { destruct o2; [|by apply loc_ok]. apply Hconst. intros o3 s3 E. exact (ng_unload_ret _ _ _ _ E). }
    intros [[r|x] s3].
    + destruct (is_val r); [apply Hconst; intros o4 s4 E; exact (ng_deact_leave _ _ _ _ _ E)|].
      eapply loc_bind; [apply loc_res_info|]. intros [[[ei r1] s4]|[x s4]].
      * eapply loc_bind; [apply IHh; intros; by apply loc_ok|]. intros [o5 s5]. apply loc_ths_end.
      * apply Hconst; intros o5 s5 E; exact (ng_deact_leave _ _ _ _ _ E).
    + apply loc_op. intros [ei s4] E. apply (loc_n _ _ _ _ _ (ng_exn_info _ _ _ _ _ E)).
      eapply loc_bind; [apply IHh|].
      { intros s5. apply Hconst. intros o6 s6 E6. unfold unload_rethrow in E6. ok_inv E6. injection E6 as <- <-. exact (ng_unload _ _ _ _ E0). }
      intros [o5 s5]. apply loc_ths_end.
  - (* PTC *) intros p IH hs IHh caught s. cbn [eval]. change (deduce G1 hs) with (deduce G hs). change (deduce G2 hs) with (deduce G hs).
    destruct (m_new MP (deduce G hs) (fst s)) as [c m1].
    apply Hop; [intros s1 E; exact (ng_on_mem _ _ _ E)|]. intros s1. eapply loc_bind; [apply IH|]. intros [[r|x] s2].
    + apply Hconst. intros o4 s4 E. exact (ng_deact_leave _ _ _ _ _ E).
    + apply loc_op. intros [ei s4] E. apply (loc_n _ _ _ _ _ (ng_exn_info _ _ _ _ _ E)).
      eapply loc_bind; [apply IHh|].
      { intros s5. apply Hconst. intros o6 s6 E6. unfold unload_rethrow in E6. ok_inv E6. injection E6 as <- <-. exact (ng_unload _ _ _ _ E0). }
      intros [o5 s5]. apply Hconst. intros o6 s6 E6. exact (ng_leave _ _ _ _ _ E6).
  - (* PCapture *) intros b p IH caught s. cbn [eval]. change (g_capture G1) with (g_capture G). change (g_capture G2) with (g_capture G).
    destruct (negb _); [apply loc_fail|]. destruct (m_new MP [SDA] (fst s)) as [c m1].
    apply Hop; [intros s1 E; exact (ng_on_mem _ _ _ E)|]. intros s1. eapply loc_bind; [apply IH|]. intros [o s2].
    apply Hconst. intros o3 s3 H. destruct o as [r|x].
    + destruct b.
      * destruct (is_val r); [|done]. ok_inv H. injection H as <- <-. exact (ng_on_mem _ _ _ E).
      * destruct r as [z|id|id l ex|cat v]; [exact (ng_deact_leave _ _ _ _ _ H)| | |done].
        all: ok_inv H; ok_inv H; etrans; [exact (ng_leave _ _ _ _ _ H)|]; exact (ng_on_mem _ _ _ E).
    + ok_inv H. refine (eq_trans _ (ng_on_mem _ _ _ E)). destruct a as [m2 g2]. simpl in H. destruct (catch_info x g2) as [[id ex] g] eqn:Hc.
      ok_inv H. etrans; [exact (ng_leave _ _ _ _ _ H)|]. simpl. by eapply ng_catch_info.
  - intros r k IH caught s. cbn [eval]. apply loc_op. intros [[r1|x] s1] E; apply (loc_n _ _ _ _ _ (ng_unload_ret _ _ _ _ E)); [apply IH|by apply loc_ok].
  - intros r k IH caught s. cbn [eval]. destruct r as [z|id|id l ex|cat v]; [apply IH| | |apply loc_fail].
    all: apply loc_op; intros [[r1|x] s1] E; apply (loc_n _ _ _ _ _ (ng_unload_ret _ _ _ _ E)); by apply loc_ok.
  - intros r k IH caught s. cbn [eval]. eapply loc_bind; [apply loc_err_id|]. intros [i s1]. apply IH.
  - intros cls p IH caught s. cbn [eval]. eapply loc_bind; [apply IH|]. intros [[r|x] s1]; [by apply loc_ok|]. apply loc_e2r.
  - intros cat v k IH caught s. cbn [eval]. eapply loc_bind; [apply loc_import|]. intros [i s1]. apply IH.
  - intros tup k IH caught s. cbn [eval]. change (deduce_list G1 tup) with (deduce_list G tup). change (deduce_list G2 tup) with (deduce_list G tup).
    destruct (m_new MP (deduce_list G tup) (fst s)) as [c m1].
    eapply loc_bind; [apply (IH c caught (m1, snd s))|]. intros [o s1]. apply Hconst. intros o2 s2 E. exact (ng_leave _ _ _ _ _ E).
  - intros c p IH caught s. cbn [eval]. apply loc_op. intros [] _; [apply IH|]. apply Hop; [intros s1 E; exact (ng_on_mem _ _ _ E)|].
    intros s1. eapply loc_bind; [apply IH|]. intros [o s2]. apply loc_op. intros [] _; [|by apply loc_ok].
    apply Hconst. intros o3 s3 E. ok_inv E. injection E as <- <-. exact (ng_on_mem _ _ _ E0).
  - intros c id k IH caught s. cbn [eval]. apply Hop; [intros s1 E; exact (ng_unload _ _ _ _ E)|]. intros. apply IH.
  - intros c id hs IH caught s. cbn [eval]. apply loc_op. intros b _. change (assert G1) with (assert G). change (assert G2) with (assert G).
    apply loc_op. intros _ _. apply loc_op. intros loc0 _. apply IH. intros. apply loc_fail.
  - intros caught c ei d1 d2 s Hd. cbn [evalH]. apply Hd.
  - intros args w b IHb rest IHr caught c ei d1 d2 s Hd. cbn [evalH].
    change (args_get G1) with (args_get G). change (args_get G2) with (args_get G). apply loc_op. intros [l|] _; [|by apply IHr].
    apply loc_op. intros m1 _. apply (IHb l caught (m1, snd s)).
  - intros hs IHh rest IHr caught c ei d1 d2 s Hd. cbn [evalH]. apply IHh. intros s1. by apply IHr.
Qed.
End loc.

(** The run of a program is determined by the ids it is given while it runs. *)
Theorem run_depends_on_ids G f1 f2 caught p m g o m' g' :
  lib_run (with_sup f1 G) caught p m g o m' g' -> (forall n, (ngen g <= n < ngen g')%nat -> f1 n = f2 n) ->
  lib_run (with_sup f2 G) caught p m g o m' g'.
Proof.
  intros H Ha. exact (proj2 (proj1 (loc_eval G f1 f2) p caught (m, g) (o, (m', g')) H) Ha).
Qed.
