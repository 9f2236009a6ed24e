(** Two machines whose operations agree, up to a relation of their states, run every program alike. *)
From Verif Require Export Config Invariant.
Open Scope Z_scope.

Section morph.
Context (E : fail -> Prop) (G : cfg) (M1 M2 : machine) (Q : mst M1 -> mst M2 -> Prop) (ok : list sty -> Prop) (oe : item -> Prop).
Notation st1 := (st M1).
Notation st2 := (st M2).

Definition Qs (x : st1) (y : st2) : Prop := Q (fst x) (fst y) /\ snd x = snd y.
Definition Qx {A} (x : A * st1) (y : A * st2) : Prop := fst x = fst y /\ Qs (snd x) (snd y).
Definition Qi (x : (einfo * ret * st1) + (exn * st1)) (y : (einfo * ret * st2) + (exn * st2)) : Prop :=
  match x, y with inl a, inl b => Qx a b | inr a, inr b => Qx a b | _, _ => False end.

(** What is required of the operations: where both start from related states they agree, unless the first one stops with an error of kind E.
    ok: the types of contexts which are created; oe: what on_error is used with. *)
Record close : Prop := Close {
  cl_load : forall b id it m1 m2 g, (b = true -> oe it) -> Q m1 m2 -> refp E Qs (m_load M1 b id it m1 g) (m_load M2 b id it m2 g);
  cl_capunload : forall id l m1 m2 g, Q m1 m2 -> refp E Qs (m_capunload M1 id l m1 g) (m_capunload M2 id l m2 g);
  cl_new : forall tup m1 m2, ok tup -> Q m1 m2 -> fst (m_new M1 tup m1) = fst (m_new M2 tup m2) /\ Q (snd (m_new M1 tup m1)) (snd (m_new M2 tup m2));
  cl_act : forall c m1 m2, Q m1 m2 -> refp E Q (m_act M1 c m1) (m_act M2 c m2);
  cl_deact : forall c m1 m2, Q m1 m2 -> refp E Q (m_deact M1 c m1) (m_deact M2 c m2);
  cl_isact : forall c m1 m2, Q m1 m2 -> refp E eq (m_isact M1 c m1) (m_isact M2 c m2);
  cl_destroy : forall c m1 m2, Q m1 m2 -> refp E Q (m_destroy M1 c m1) (m_destroy M2 c m2);
  cl_drop : forall c m1 m2, Q m1 m2 -> refp E Q (m_drop M1 c m1) (m_drop M2 c m2);
  cl_unload : forall c id m1 m2 g, Q m1 m2 -> refp E Qs (m_unload M1 c id m1 g) (m_unload M2 c id m2 g);
  cl_get : forall c T id m1 m2, Q m1 m2 -> refp E eq (m_get M1 c T id m1) (m_get M2 c T id m2);
  cl_set : forall c T id v m1 m2, Q m1 m2 -> refp E Q (m_set M1 c T id v m1) (m_set M2 c T id v m2);
  cl_print : forall c id m1 m2, Q m1 m2 -> refp E eq (m_print M1 c id m1) (m_print M2 c id m2);
  cl_details : forall c id m1 m2, Q m1 m2 -> refp E eq (m_details M1 c id m1) (m_details M2 c id m2);
  cl_extract : forall c id b m1 m2, g_capture G = true -> ok [SDA] -> Q m1 m2 -> refp E (fun x y => fst x = fst y /\ Q (snd x) (snd y)) (m_extract M1 c id b m1) (m_extract M2 c id b m2) }.
Context (B : close).

Notation ref := (refp E).
Lemma rr {A A2} (P : A -> A2 -> Prop) x y : P x y -> ref P (Ok x) (Ok y).
Proof. done. Qed.
Lemma rf {A A2} (P : A -> A2 -> Prop) e : ref P (Fail e : res A) (Fail e : res A2).
Proof. by right. Qed.

Lemma mo_on_mem f f' s1 s2 : Qs s1 s2 -> (forall m1 m2, Q m1 m2 -> ref Q (f m1) (f' m2)) -> ref Qs (on_mem M1 f s1) (on_mem M2 f' s2).
Proof. intros [Hm Hg] H. eapply refp_bind; [by apply H|]. intros a b Hab. by apply rr. Qed.
Lemma mo_load_items o id its : (o = true -> Forall oe its) -> forall s1 s2, Qs s1 s2 -> ref Qs (load_items M1 o id its s1) (load_items M2 o id its s2).
Proof.
  induction its as [|it its IH]; intros Ho s1 s2 [Hm Hg]; cbn [load_items]; [by apply rr|]. rewrite Hg. eapply refp_bind; [apply (cl_load B); [|done]|].
  - intros Hb. exact (Forall_inv (Ho Hb)).
  - intros x y Hxy. apply IH; [|done]. intros Hb. exact (Forall_inv_tail (Ho Hb)).
Qed.
Lemma mo_id_load id its s1 s2 : Qs s1 s2 -> ref Qs (id_load M1 id its s1) (id_load M2 id its s2).
Proof. intros H. unfold id_load. destruct (id =? 0); [by apply rr|by apply mo_load_items]. Qed.
Lemma mo_import cat v s1 s2 : Qs s1 s2 -> ref Qx (import_ec G M1 cat v s1) (import_ec G M2 cat v s2).
Proof.
  intros [Hm Hg]. unfold import_ec. destruct (v =? 0); [by apply rr|]. destruct (cat =? LEAFCAT)%nat.
  - eapply (refp_bind _ eq); [apply ref_refl|]. intros. by apply rr.
  - unfold gnew. rewrite Hg. eapply (refp_bind _ Qs); [by apply (cl_load B)|]. intros x y Hxy. by apply rr.
Qed.
Lemma mo_err_id r s1 s2 : Qs s1 s2 -> ref Qx (err_id_of G M1 r s1) (err_id_of G M2 r s2).
Proof. intros H. destruct r; cbn [err_id_of]; try (by apply rr). by apply mo_import. Qed.
Lemma mo_unload_ret r s1 s2 : Qs s1 s2 -> ref Qx (unload_ret M1 r s1) (unload_ret M2 r s2).
Proof.
  intros [Hm Hg]. destruct r; cbn [unload_ret]; try (by apply rr). rewrite Hg. eapply (refp_bind _ Qs); [by apply (cl_capunload B)|]. intros x y Hxy. by apply rr.
Qed.
Lemma mo_peek T c ei m1 m2 : Q m1 m2 -> ref eq (peek G M1 T c ei m1) (peek G M2 T c ei m2).
Proof. intros H. unfold peek. destruct (ei_id ei =? 0); [apply ref_refl|]. eapply refp_bind; [by apply (cl_get B)|]. intros x ? <-. apply ref_refl. Qed.
Lemma mo_set_all c id l : forall m1 m2, Q m1 m2 -> ref Q (set_all M1 c id l m1) (set_all M2 c id l m2).
Proof. induction l as [|[T v] l IH]; intros m1 m2 H; cbn [set_all]; [by apply rr|]. eapply refp_bind; [by apply (cl_set B)|]. intros. by apply IH. Qed.
Lemma mo_shown c id m1 m2 : Q m1 m2 -> ref eq (shown G M1 c id m1) (shown G M2 c id m2).
Proof. intros H. unfold shown. destruct (g_diag G); [by apply (cl_print B)|apply ref_refl]. Qed.
Lemma mo_arg a c ei m1 m2 : Q m1 m2 -> ref eq (arg_get G M1 a c ei m1) (arg_get G M2 a c ei m2).
Proof.
  intros H. destruct a; cbn [arg_get]; try apply ref_refl; try (eapply refp_bind; [by apply mo_peek|]; intros x ? <-; apply ref_refl).
  - eapply refp_bind; [by apply mo_shown|]. intros x ? <-. apply ref_refl.
  - eapply refp_bind; [by apply mo_shown|]. intros x ? <-. eapply (refp_bind _ eq); [|intros y ? <-; apply ref_refl]. destruct (_ && _); [by apply (cl_details B)|apply ref_refl].
Qed.
Lemma mo_args l c ei m1 m2 : Q m1 m2 -> ref eq (args_get G M1 l c ei m1) (args_get G M2 l c ei m2).
Proof.
  intros H. induction l as [|a l IH]; cbn [args_get]; [apply ref_refl|]. eapply refp_bind; [by apply mo_arg|]. intros [v|] ? <-; [|apply ref_refl].
  eapply refp_bind; [apply IH|]. intros x ? <-. apply ref_refl.
Qed.
Lemma mo_deact c s1 s2 : Qs s1 s2 -> ref Qs (on_mem M1 (m_deact M1 c) s1) (on_mem M2 (m_deact M2 c) s2).
Proof. intros H. apply mo_on_mem; [done|]. intros. by apply (cl_deact B). Qed.
Lemma mo_act c s1 s2 : Qs s1 s2 -> ref Qs (on_mem M1 (m_act M1 c) s1) (on_mem M2 (m_act M2 c) s2).
Proof. intros H. apply mo_on_mem; [done|]. intros. by apply (cl_act B). Qed.
Lemma mo_unload c id s1 s2 : Qs s1 s2 -> ref Qs (m_unload M1 c id (fst s1) (snd s1)) (m_unload M2 c id (fst s2) (snd s2)).
Proof. intros [Hm ->]. by apply (cl_unload B). Qed.
Lemma mo_exn_info c x s1 s2 : Qs s1 s2 -> ref Qx (exn_info M1 c x s1) (exn_info M2 c x s2).
Proof.
  intros H. unfold exn_info. eapply refp_bind; [by apply mo_deact|]. intros [m1 g1] [m2 g2] [Hm Hg]. cbn [fst snd] in *. subst g2.
  destruct (catch_info x g1) as [[id ex] g]. eapply refp_bind; [by apply (cl_get B)|]. intros y ? <-. by apply rr.
Qed.
Lemma mo_unload_rethrow c id x s1 s2 : Qs s1 s2 -> ref Qx (unload_rethrow M1 c id x s1) (unload_rethrow M2 c id x s2).
Proof. intros H. eapply refp_bind; [by apply mo_unload|]. intros. by apply rr. Qed.
Lemma mo_leave c o s1 s2 : Qs s1 s2 -> ref Qx (leave M1 c o s1) (leave M2 c o s2).
Proof. intros H. eapply (refp_bind _ Qs); [apply mo_on_mem; [done|]; intros; by apply (cl_destroy B)|]. intros. by apply rr. Qed.
Lemma mo_deact_leave c o s1 s2 : Qs s1 s2 -> ref Qx (deact_leave M1 c o s1) (deact_leave M2 c o s2).
Proof. intros H. eapply refp_bind; [by apply mo_deact|]. intros. by apply mo_leave. Qed.
Lemma mo_ths_end c o s1 s2 : Qs s1 s2 -> ref Qx (ths_end G M1 c o s1) (ths_end G M2 c o s2).
Proof.
  intros H. destruct o as [r|]; [|by apply mo_leave]. cbn [ths_end]. destruct (is_val r); [by apply mo_leave|].
  eapply refp_bind; [by apply mo_err_id|]. intros [i1 t1] [i2 t2] [Hi Ht]. cbn [fst snd] in *. subst i2. eapply refp_bind; [by apply mo_unload|]. intros. by apply mo_leave.
Qed.
Lemma mo_tha_end c o s1 s2 : Qs s1 s2 -> ref Qx (tha_end M1 c o s1) (tha_end M2 c o s2).
Proof. intros H. destruct o as [r|]; [|by apply mo_leave]. cbn [tha_end]. destruct (is_val r); [by apply mo_leave|apply rf]. Qed.
Lemma mo_res_info c r s1 s2 : Qs s1 s2 -> ref Qi (res_info G M1 c r s1) (res_info G M2 c r s2).
Proof.
  intros H. unfold res_info. eapply refp_bind; [by apply mo_unload_ret|]. intros [o1 t1] [o2 t2] [Ho Ht]. cbn [fst snd] in *. subst o2. destruct o1 as [r1|x]; [|by apply rr].
  eapply refp_bind; [by apply mo_err_id|]. intros [i1 u1] [i2 u2] [Hi Hu]. cbn [fst snd] in *. subst i2. eapply refp_bind; [by apply mo_deact|].
  intros v1 v2 Hv. eapply refp_bind; [apply (cl_get B), Hv|]. intros y ? <-. apply rr. split; [done|exact Hv].
Qed.
Lemma mo_e2r cls x s1 s2 : Qs s1 s2 -> ref Qx (e2r G M1 cls x s1) (e2r G M2 cls x s2).
Proof. intros [Hm Hg]. unfold e2r, gnew. rewrite Hg. eapply refp_bind; [by apply mo_id_load|]. intros. by apply rr. Qed.

Lemma mo_throw_leaf id x s1 s2 : Qs s1 s2 -> Qx (throw_leaf M1 id x s1) (throw_leaf M2 id x s2).
Proof. intros [Hm Hg]. unfold throw_leaf. rewrite Hg. by repeat split. Qed.
Lemma mo_throw_plain x s1 s2 : Qs s1 s2 -> Qx (throw_plain M1 x s1) (throw_plain M2 x s2).
Proof. intros [Hm Hg]. unfold throw_plain. rewrite Hg. by repeat split. Qed.

(** All contexts a program creates are ok, and so is what it uses on_error with. *)
Fixpoint uses (p : prog) : Prop :=
  match p with
  | PRet _ | PThrow _ _ _ | PThrowX _ | PRethrow => True
  | PBind p k => uses p /\ forall r, uses (k r)
  | PEmit _ k | PLoad _ _ k | PCtxUnload _ _ k => uses k
  | PNewError _ k | PCurErr k | PMonitor k | PCheck _ k | PAssigned _ k | PValue _ k | PErrId _ k | PImport _ _ k => forall z, uses (k z)
  | PCatch p h => uses p /\ forall x, uses (h x)
  | POnError its p => Forall oe its /\ uses p
  | PE2R _ p | PAct _ p => uses p
  | PTHA p hs | PTHS p hs | PTC p hs => ok (deduce G hs) /\ uses p /\ usesH hs
  | PCapture _ p => ok [SDA] /\ uses p
  | PUnload _ k => forall r, uses (k r)
  | PCtx tup k => ok (deduce_list G tup) /\ forall c, uses (k c)
  | PCtxHandle _ _ hs => usesH hs
  end
with usesH (hs : handlers) : Prop :=
  match hs with
  | HNil => True
  | HMut _ _ b rest => (forall l, uses (b l)) /\ usesH rest
  | HTup hs' rest => usesH hs' /\ usesH rest
  end.
Lemma creates_uses : (forall it, oe it) -> (forall p, creates G ok p -> uses p) /\ (forall hs, createsH G ok hs -> usesH hs).
Proof. intros H. apply prog_handlers_ind; cbn [creates createsH uses usesH]; try (naive_solver; fail). intros its p IH Hp. split; [|auto]. by apply Forall_true. Qed.

Ltac splitQ := match goal with H : Qx ?x ?y |- _ => let o1 := fresh "o" in let o2 := fresh "o" in let t1 := fresh "t" in let t2 := fresh "t" in
  destruct x as [o1 t1], y as [o2 t2]; destruct H as [? H]; cbn [fst snd] in *; subst o2 end.
Ltac news tup s1 s2 := let Hn := fresh in match goal with H : Qs s1 s2, Ho : ok tup |- _ =>
  destruct s1 as [m1 g1], s2 as [m2 g2]; destruct H as [Hm Hg]; cbn [fst snd] in *; subst g2; pose proof (cl_new B tup m1 m2 Ho Hm) as Hn;
  destruct (m_new M1 tup m1) as [c n1], (m_new M2 tup m2) as [c' n2]; cbn [fst snd] in Hn; destruct Hn as [<- Hn] end.

Theorem morph_eval :
  (forall p, uses p -> forall caught s1 s2, Qs s1 s2 -> ref Qx (eval G M1 caught p s1) (eval G M2 caught p s2)) /\
  (forall hs, usesH hs -> forall caught c ei d d' s1 s2, Qs s1 s2 -> (forall s1 s2, Qs s1 s2 -> ref Qx (d s1) (d' s2)) ->
     ref Qx (evalH G M1 caught hs c ei d s1) (evalH G M2 caught hs c ei d' s2)).
Proof.
  apply prog_handlers_ind.
  - intros r _ caught s1 s2 H. by apply rr.
  - intros p IH k IHk [U1 U2] caught s1 s2 H. cbn [eval]. eapply refp_bind; [by apply IH|]. intros x y Hxy. splitQ. destruct o as [r|e]; [by apply IHk|by apply rr].
  - intros z k IH U caught s1 s2 [Hm Hg]. cbn [eval]. apply IH; [done|]. split; [done|]. exact (f_equal (emit (EvUser z)) Hg).
  - intros its k IH U caught s1 s2 [Hm Hg]. cbn [eval]. unfold gnew. rewrite Hg. eapply refp_bind; [by apply mo_id_load|]. intros. by apply IH.
  - intros id its k IH U caught s1 s2 H. cbn [eval]. eapply refp_bind; [by apply mo_id_load|]. intros. by apply IH.
  - intros k IH U caught s1 s2 [Hm Hg]. cbn [eval]. rewrite Hg. by apply IH.
  - intros oi e its U caught s1 s2 [Hm Hg]. cbn [eval]. rewrite Hg. destruct oi as [id|]; [|unfold gnew]; (eapply refp_bind; [by apply mo_id_load|]; intros; by apply rr, mo_throw_leaf).
  - intros e U caught s1 s2 H. by apply rr, mo_throw_plain.
  - intros U caught s1 s2 H. cbn [eval]. destruct caught; [by apply rr|apply rf].
  - intros p IH h IHh [U1 U2] caught s1 s2 H. cbn [eval]. eapply refp_bind; [by apply IH|]. intros x y Hxy. splitQ. destruct o as [r|e]; [by apply rr|].
    eapply refp_bind; [by apply IHh|]. intros x y Hxy'. splitQ. apply rr. split; [done|]. destruct Hxy' as [Hm Hg]. split; [done|]. cbn [snd]. by rewrite Hg.
  - intros its p IH [U1 U2] caught s1 s2 H. cbn [eval]. eapply refp_bind; [by apply IH|]. intros x y Hxy. splitQ. destruct Hxy as [Hm Hg]. destruct H as [_ Hg0]. rewrite Hg0, Hg.
    destruct (if negb _ then _ else _) as [id g]. destruct (id =? 0); [by apply rr|]. eapply refp_bind; [by apply mo_load_items|]. intros. by apply rr.
  - intros k IH U caught s1 s2 H. cbn [eval]. destruct H as [Hm Hg]. rewrite Hg. by apply IH.
  - intros m k IH U caught s1 s2 [Hm Hg]. cbn [eval]. rewrite Hg. by apply IH.
  - intros m k IH U caught s1 s2 [Hm Hg]. cbn [eval]. rewrite Hg. destruct (negb _); [by apply IH|]. unfold gnew. by apply IH.
  - (* PTHA *) intros p IH hs IHh (U0 & U1 & U2) caught s1 s2 H. cbn [eval]. news (deduce G hs) s1 s2. eapply refp_bind; [by apply mo_act|]. intros x1 x2 Hx.
    eapply refp_bind; [by apply IH|]. intros y1 y2 Hy. eapply (refp_bind _ Qx). { splitQ. destruct o; [by apply mo_unload_ret|by apply rr]. }
    intros z1 z2 Hz. clear Hy. splitQ. destruct o as [r|e].
    + destruct (is_val r); [by apply mo_deact_leave|]. eapply refp_bind; [by apply mo_res_info|]. intros [a1|a1] [a2|a2] Ha; try done; simpl in Ha; splitQ; [|by apply mo_deact_leave].
      destruct o as [ei r1]. eapply refp_bind; [apply IHh; [done|done|intros; apply rf]|]. intros b1 b2 Hb. clear Ha. splitQ. by apply mo_tha_end.
    + eapply refp_bind; [by apply mo_exn_info|]. intros a1 a2 Ha. splitQ. eapply refp_bind; [apply IHh; [done|done|intros; by apply mo_unload_rethrow]|]. intros b1 b2 Hb.
      clear Ha. splitQ. by apply mo_tha_end.
  - (* PTHS *) intros p IH hs IHh (U0 & U1 & U2) caught s1 s2 H. cbn [eval]. news (deduce G hs) s1 s2. eapply refp_bind; [by apply mo_act|]. intros x1 x2 Hx.
    eapply refp_bind; [by apply IH|]. intros y1 y2 Hy. eapply (refp_bind _ Qx). { splitQ. destruct o; [by apply mo_unload_ret|by apply rr]. }
    intros z1 z2 Hz. clear Hy. splitQ. destruct o as [r|e].
    + destruct (is_val r); [by apply mo_deact_leave|]. eapply refp_bind; [by apply mo_res_info|]. intros [a1|a1] [a2|a2] Ha; try done; simpl in Ha; splitQ; [|by apply mo_deact_leave].
      destruct o as [ei r1]. eapply refp_bind; [apply IHh; [done|done|intros; by apply rr]|]. intros b1 b2 Hb. clear Ha. splitQ. by apply mo_ths_end.
    + eapply refp_bind; [by apply mo_exn_info|]. intros a1 a2 Ha. splitQ. eapply refp_bind; [apply IHh; [done|done|intros; by apply mo_unload_rethrow]|]. intros b1 b2 Hb.
      clear Ha. splitQ. by apply mo_ths_end.
  - (* PTC *) intros p IH hs IHh (U0 & U1 & U2) caught s1 s2 H. cbn [eval]. news (deduce G hs) s1 s2. eapply refp_bind; [by apply mo_act|]. intros x1 x2 Hx.
    eapply refp_bind; [by apply IH|]. intros z1 z2 Hz. splitQ. destruct o as [r|e]; [by apply mo_deact_leave|].
    eapply refp_bind; [by apply mo_exn_info|]. intros a1 a2 Ha. splitQ. eapply refp_bind; [apply IHh; [done|done|intros; by apply mo_unload_rethrow]|]. intros b1 b2 Hb.
    clear Ha. splitQ. by apply mo_leave.
  - (* PCapture *) intros isvoid p IH [U0 U1] caught s1 s2 H. cbn [eval]. destruct (g_capture G) eqn:Ecap; [|apply rf]. cbn [negb]. news [SDA] s1 s2.
    eapply refp_bind; [by apply mo_act|]. intros x1 x2 Hx. eapply refp_bind; [by apply IH|]. intros y1 y2 Hy. splitQ. destruct o as [r|e].
    + destruct isvoid.
      * destruct (is_val r); [|apply rf]. eapply refp_bind; [apply mo_on_mem; [done|]; intros; by apply (cl_drop B)|]. intros. by apply rr.
      * destruct r; [by apply mo_deact_leave| | |apply rf];
          (eapply refp_bind; [by apply mo_deact|]; intros z1 z2 [Hz1 Hz2]; eapply refp_bind; [by apply (cl_extract B)|];
           intros l1 l2 [Hl1 Hl2]; rewrite Hl1, Hz2; by apply mo_leave).
    + eapply refp_bind; [by apply mo_deact|]. intros [m3 g3] [m4 g4] [Hz1 Hz2]. cbn [fst snd] in *. subst g4. destruct (catch_info e g3) as [[id ex] g'].
      eapply refp_bind; [by apply (cl_extract B)|]. intros l1 l2 [Hl1 Hl2]. rewrite Hl1. by apply mo_leave.
  - intros r k IH U caught s1 s2 H. cbn [eval]. eapply refp_bind; [by apply mo_unload_ret|]. intros x y Hxy. splitQ. destruct o; [by apply IH|by apply rr].
  - intros r k IH U caught s1 s2 H. cbn [eval]. destruct r; [by apply IH| | |apply rf];
      (eapply refp_bind; [by apply mo_unload_ret|]; intros x y Hxy; splitQ; destruct o; [by apply rr, mo_throw_leaf|by apply rr]).
  - intros r k IH U caught s1 s2 H. cbn [eval]. eapply refp_bind; [by apply mo_err_id|]. intros x y Hxy. splitQ. by apply IH.
  - intros cls p IH U caught s1 s2 H. cbn [eval]. eapply refp_bind; [by apply IH|]. intros x y Hxy. splitQ. destruct o; [by apply rr|by apply mo_e2r].
  - intros cat v k IH U caught s1 s2 H. cbn [eval]. eapply refp_bind; [by apply mo_import|]. intros x y Hxy. splitQ. by apply IH.
  - (* PCtx *) intros tup k IH [U0 U1] caught s1 s2 H. cbn [eval]. news (deduce_list G tup) s1 s2. eapply refp_bind; [by apply IH|]. intros x y Hxy. splitQ. by apply mo_leave.
  - (* PAct *) intros c p IH U caught s1 s2 H. cbn [eval]. eapply refp_bind; [apply (cl_isact B), H|]. intros b ? <-. destruct b; [by apply IH|].
    eapply refp_bind; [by apply mo_act|]. intros x1 x2 Hx. eapply refp_bind; [by apply IH|]. intros y1 y2 Hy. splitQ.
    eapply refp_bind; [apply (cl_isact B), Hy|]. intros b ? <-. destruct b; [|by apply rr]. eapply refp_bind; [by apply mo_deact|]. intros. by apply rr.
  - intros c id k IH U caught s1 s2 H. cbn [eval]. eapply refp_bind; [by apply mo_unload|]. intros. by apply IH.
  - intros c id hs IH U caught s1 s2 H. cbn [eval]. eapply refp_bind; [apply (cl_isact B), H|]. intros b ? <-. eapply (refp_bind _ eq); [apply ref_refl|]. intros _ _ _.
    eapply refp_bind; [apply (cl_get B), H|]. intros l ? <-. apply IH; [done|done|]. intros. apply rf.
  - intros _ caught c ei d d' s1 s2 H Hd. cbn [evalH]. by apply Hd.
  - intros args w b IHb rest IHr [U1 U2] caught c ei d d' s1 s2 H Hd. cbn [evalH]. eapply refp_bind; [apply mo_args, H|]. intros l ? <-. destruct l as [l|]; [|by apply IHr].
    eapply refp_bind; [apply mo_set_all, H|]. intros m1 m2 Hm. apply IHb; [done|]. split; [done|]. destruct H as [_ Hg]. cbn [snd]. by rewrite Hg.
  - intros hs1 IH1 rest IHr [U1 U2] caught c ei d d' s1 s2 H Hd. cbn [evalH]. apply IH1; [done|done|]. intros. by apply IHr.
Qed.
End morph.
