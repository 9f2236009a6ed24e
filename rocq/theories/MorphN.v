(** Two machines whose operations agree run every program alike, in builds without exceptions; the two builds may differ in assertions being enabled. *)
From Verif Require Export Morph NoExcept.
Open Scope Z_scope.

(** Two configurations that differ only in assertions. *)
Definition but_asserts (G1 G2 : cfg) : Prop := exists b, G1 = Cfg (g_capture G2) (g_diag G2) b (g_class G2) (g_abs G2) (g_show G2) (g_def G2) (g_sup G2).

Section morph.
Context (E : fail -> Prop) (G1 G2 : cfg) (M1 M2 : machine) (Q : mst M1 -> mst M2 -> Prop) (ok : list sty -> Prop) (oe : item -> Prop).
Context (HG : but_asserts G1 G2) (HA : forall b, refp E eq (assert G1 b) (assert G2 b)) (B : close E G2 M1 M2 Q ok oe).
Notation ref := (refp E).
Notation Qs := (Qs M1 M2 Q).
Notation Qx := (Qx M1 M2 Q).

Ltac conf := let b := fresh in destruct HG as [b ->].
Lemma same_capture : g_capture G1 = g_capture G2. Proof. by conf. Qed.
Lemma same_diag : g_diag G1 = g_diag G2. Proof. by conf. Qed.
Lemma same_gnew g : gnew G1 g = gnew G2 g. Proof. by conf. Qed.
Lemma same_types a : context_types G1 a = context_types G2 a. Proof. conf. by destruct a. Qed.
Lemma same_deduce_list l : deduce_list G1 l = deduce_list G2 l. Proof. by conf. Qed.
Lemma same_deduce hs : deduce G1 hs = deduce G2 hs.
Proof. unfold deduce. rewrite (map_ext _ _ same_types). apply same_deduce_list. Qed.

Lemma mn_import cat v s1 s2 : Qs s1 s2 -> ref Qx (import_ec G1 M1 cat v s1) (import_ec G2 M2 cat v s2).
Proof.
  intros [Hm Hg]. unfold import_ec. destruct (v =? 0); [by apply rr|]. destruct (cat =? LEAFCAT)%nat.
  - eapply (refp_bind _ eq); [apply HA|]. intros. by apply rr.
  - rewrite Hg, same_gnew. unfold gnew. eapply (refp_bind _ Qs); [by apply (cl_load _ _ _ _ _ _ _ B)|]. intros x y Hxy. by apply rr.
Qed.
Lemma mn_err_id r s1 s2 : Qs s1 s2 -> ref Qx (err_id_of G1 M1 r s1) (err_id_of G2 M2 r s2).
Proof. intros H. destruct r; cbn [err_id_of]; try (by apply rr). by apply mn_import. Qed.
Lemma mn_unload_ret r s1 s2 : Qs s1 s2 -> ref Qx (unload_retN M1 r s1) (unload_retN M2 r s2).
Proof.
  intros [Hm Hg]. destruct r as [| |id l [x|]|]; cbn [unload_retN]; try (by apply rr); [apply rf|].
  rewrite Hg. eapply (refp_bind _ Qs); [by apply (cl_capunload _ _ _ _ _ _ _ B)|]. intros x y Hxy. by apply rr.
Qed.
Lemma mn_peek T c ei m1 m2 : Q m1 m2 -> ref eq (peekN M1 T c ei m1) (peekN M2 T c ei m2).
Proof. intros H. unfold peekN. destruct (eiN_id ei =? 0); [apply ref_refl|]. by apply (cl_get _ _ _ _ _ _ _ B). Qed.
Lemma mn_arg a c ei m1 m2 : Q m1 m2 -> ref eq (arg_getN G1 M1 a c ei m1) (arg_getN G2 M2 a c ei m2).
Proof.
  intros H. destruct a; cbn [arg_getN]; rewrite ?same_diag, ?same_capture; try apply ref_refl; try (eapply refp_bind; [by apply mn_peek|]; intros x ? <-; apply ref_refl).
  - eapply (refp_bind _ eq); [destruct (g_diag G2); [by apply (cl_print _ _ _ _ _ _ _ B)|apply ref_refl]|]. intros x ? <-. apply ref_refl.
  - eapply (refp_bind _ eq); [destruct (g_diag G2); [by apply (cl_print _ _ _ _ _ _ _ B)|apply ref_refl]|]. intros x ? <-.
    eapply (refp_bind _ eq); [|intros y ? <-; apply ref_refl]. destruct (_ && _); [by apply (cl_details _ _ _ _ _ _ _ B)|apply ref_refl].
Qed.
Lemma mn_args l c ei m1 m2 : Q m1 m2 -> ref eq (args_getN G1 M1 l c ei m1) (args_getN G2 M2 l c ei m2).
Proof.
  intros H. induction l as [|a l IH]; cbn [args_getN]; [apply ref_refl|]. eapply refp_bind; [by apply mn_arg|]. intros [v|] ? <-; [|apply ref_refl].
  eapply refp_bind; [apply IH|]. intros x ? <-. apply ref_refl.
Qed.
Lemma mn_res_info c r s1 s2 : Qs s1 s2 -> ref Qx (res_infoN G1 M1 c r s1) (res_infoN G2 M2 c r s2).
Proof.
  intros H. unfold res_infoN. eapply refp_bind; [by apply mn_unload_ret|]. intros [o1 t1] [o2 t2] [Ho Ht]. cbn [fst snd] in *. subst o2.
  eapply refp_bind; [by apply mn_err_id|]. intros [i1 u1] [i2 u2] [Hi Hu]. cbn [fst snd] in *. subst i2. eapply refp_bind; [by apply (mo_deact _ _ _ _ _ _ _ B)|].
  intros v1 v2 Hv. eapply refp_bind; [apply (cl_isact _ _ _ _ _ _ _ B), Hv|]. intros a ? <-. eapply refp_bind; [apply HA|]. intros _ _ _.
  eapply refp_bind; [apply (cl_get _ _ _ _ _ _ _ B), Hv|]. intros y ? <-. apply rr. split; [done|exact Hv].
Qed.

Ltac splitQ := match goal with H : Morph.Qx _ _ _ ?x ?y |- _ => let o1 := fresh "o" in let o2 := fresh "o" in let t1 := fresh "t" in let t2 := fresh "t" in
  destruct x as [o1 t1], y as [o2 t2]; destruct H as [? H]; cbn [fst snd] in *; subst o2 end.
Ltac news tup s1 s2 := let Hn := fresh in match goal with H : Qs s1 s2, Ho : ok tup |- _ =>
  destruct s1 as [m1 g1], s2 as [m2 g2]; destruct H as [Hm Hg]; cbn [fst snd] in *; subst g2; pose proof (cl_new _ _ _ _ _ _ _ B tup m1 m2 Ho Hm) as Hn;
  destruct (m_new M1 tup m1) as [c n1], (m_new M2 tup m2) as [c' n2]; cbn [fst snd] in Hn; destruct Hn as [<- Hn] end.
Notation uses := (uses G2 ok oe).
Notation usesH := (usesH G2 ok oe).

Theorem morph_evalN :
  (forall p, uses p -> forall s1 s2, Qs s1 s2 -> ref Qx (evalN G1 M1 p s1) (evalN G2 M2 p s2)) /\
  (forall hs, usesH hs -> forall c ei d d' s1 s2, Qs s1 s2 -> (forall s1 s2, Qs s1 s2 -> ref Qx (d s1) (d' s2)) ->
     ref Qx (evalHN G1 M1 hs c ei d s1) (evalHN G2 M2 hs c ei d' s2)).
Proof.
  pose proof (mo_deact_leave _ _ _ _ _ _ _ B) as DL. pose proof (mo_leave _ _ _ _ _ _ _ B) as LV. pose proof (mo_act _ _ _ _ _ _ _ B) as AC. pose proof (mo_deact _ _ _ _ _ _ _ B) as DE.
  pose proof (mo_id_load _ _ _ _ _ _ _ B) as IL. pose proof (mo_unload _ _ _ _ _ _ _ B) as UL.
  apply prog_handlers_ind; cbn [Morph.uses Morph.usesH].
  - intros r _ s1 s2 H. by apply rr.
  - intros p IH k IHk [U1 U2] s1 s2 H. cbn [evalN]. eapply refp_bind; [by apply IH|]. intros x y Hxy. splitQ. destruct o as [r|e]; [by apply IHk|by apply rr].
  - intros z k IH U s1 s2 [Hm Hg]. cbn [evalN]. apply IH; [done|]. split; [done|]. exact (f_equal (emit (EvUser z)) Hg).
  - intros its k IH U s1 s2 [Hm Hg]. cbn [evalN]. rewrite Hg, same_gnew. unfold gnew. eapply refp_bind; [by apply IL|]. intros. by apply IH.
  - intros id its k IH U s1 s2 H. cbn [evalN]. eapply refp_bind; [by apply IL|]. intros. by apply IH.
  - intros k IH U s1 s2 [Hm Hg]. cbn [evalN]. rewrite Hg. by apply IH.
  - intros oi e its U s1 s2 [Hm Hg]. cbn [evalN]. rewrite Hg, same_gnew. destruct oi as [id|]; [|unfold gnew]; (eapply refp_bind; [by apply IL|]; intros; by apply rr, mo_throw_leaf).
  - intros e U s1 s2 H. apply rf.
  - intros U s1 s2 H. apply rf.
  - intros p IH h IHh U s1 s2 H. apply rf.
  - intros its p IH [U1 U2] s1 s2 H. cbn [evalN]. eapply refp_bind; [by apply IH|]. intros x y Hxy. splitQ. destruct o as [r|e]; [|by apply rr]. destruct Hxy as [Hm Hg]. destruct H as [_ Hg0]. rewrite Hg0, Hg.
    destruct (_ =? 0); [by apply rr|]. eapply refp_bind; [by apply (mo_load_items _ _ _ _ _ _ _ B)|]. intros. by apply rr.
  - intros k IH U s1 s2 H. cbn [evalN]. destruct H as [Hm Hg]. rewrite Hg. by apply IH.
  - intros m k IH U s1 s2 [Hm Hg]. cbn [evalN]. rewrite Hg. by apply IH.
  - intros m k IH U s1 s2 [Hm Hg]. cbn [evalN]. rewrite Hg, same_gnew. destruct (negb _); [by apply IH|]. unfold gnew. by apply IH.
  - (* PTHA *) intros p IH hs IHh (U0 & U1 & U2) s1 s2 H. cbn [evalN]. rewrite same_deduce. news (deduce G2 hs) s1 s2. eapply refp_bind; [by apply AC|]. intros x1 x2 Hx.
    eapply refp_bind; [by apply IH|]. intros y1 y2 Hy. splitQ. destruct o as [r|e]; [|by apply rr].
    destruct (is_val r); [by apply DL|]. eapply refp_bind; [by apply mn_res_info|]. intros a1 a2 Ha. splitQ.
    destruct o as [ei r1]. eapply refp_bind; [apply IHh; [done|done|intros; apply rf]|]. intros b1 b2 Hb. clear Ha Hy. splitQ. destruct o as [r'|]; [|by apply rr].
    destruct (is_val r'); [by apply LV|apply rf].
  - (* PTHS *) intros p IH hs IHh (U0 & U1 & U2) s1 s2 H. cbn [evalN]. rewrite same_deduce. news (deduce G2 hs) s1 s2. eapply refp_bind; [by apply AC|]. intros x1 x2 Hx.
    eapply refp_bind; [by apply IH|]. intros y1 y2 Hy. splitQ. destruct o as [r|e]; [|by apply rr].
    destruct (is_val r); [by apply DL|]. eapply refp_bind; [by apply mn_res_info|]. intros a1 a2 Ha. splitQ.
    destruct o as [ei r1]. eapply refp_bind; [apply IHh; [done|done|intros; by apply rr]|]. intros b1 b2 Hb. clear Ha Hy. splitQ. destruct o as [r'|]; [|by apply rr].
    destruct (is_val r'); [by apply LV|]. eapply refp_bind; [by apply mn_err_id|]. intros i1 i2 Hi. clear Hb. splitQ. eapply refp_bind; [by apply UL|]. intros. by apply LV.
  - intros p IH hs IHh (U0 & U1 & U2) s1 s2 H. cbn [evalN]. by apply IH.
  - (* PCapture *) intros isvoid p IH [U0 U1] s1 s2 H. cbn [evalN]. rewrite same_capture. destruct (g_capture G2) eqn:Ecap; [|apply rf]. cbn [negb]. news [SDA] s1 s2.
    eapply refp_bind; [by apply AC|]. intros x1 x2 Hx. eapply refp_bind; [by apply IH|]. intros y1 y2 Hy. splitQ. destruct o as [r|e]; [|by apply rr].
    destruct isvoid.
    + destruct (is_val r); [|apply rf]. eapply refp_bind; [apply mo_on_mem; [done|]; intros; by apply (cl_drop _ _ _ _ _ _ _ B)|]. intros. by apply rr.
    + destruct r; [by apply DL| | |apply rf];
        (eapply refp_bind; [by apply DE|]; intros z1 z2 [Hz1 Hz2]; eapply refp_bind; [by apply (cl_extract _ _ _ _ _ _ _ B)|];
         intros l1 l2 [Hl1 Hl2]; rewrite Hl1, Hz2; by apply LV).
  - intros r k IH U s1 s2 H. cbn [evalN]. eapply refp_bind; [by apply mn_unload_ret|]. intros x y Hxy. splitQ. by apply IH.
  - intros r k IH U s1 s2 H. cbn [evalN]. destruct r; [by apply IH| | |apply rf];
      (eapply refp_bind; [by apply mn_unload_ret|]; intros x y Hxy; splitQ; by apply rr, mo_throw_leaf).
  - intros r k IH U s1 s2 H. cbn [evalN]. eapply refp_bind; [by apply mn_err_id|]. intros x y Hxy. splitQ. by apply IH.
  - intros cls p IH U s1 s2 H. apply rf.
  - intros cat v k IH U s1 s2 H. cbn [evalN]. eapply refp_bind; [by apply mn_import|]. intros x y Hxy. splitQ. by apply IH.
  - (* PCtx *) intros tup k IH [U0 U1] s1 s2 H. cbn [evalN]. rewrite same_deduce_list. news (deduce_list G2 tup) s1 s2. eapply refp_bind; [by apply IH|]. intros x y Hxy. splitQ.
    destruct o; [by apply LV|by apply rr].
  - (* PAct *) intros c p IH U s1 s2 H. cbn [evalN]. eapply refp_bind; [apply (cl_isact _ _ _ _ _ _ _ B), H|]. intros b ? <-. destruct b; [by apply IH|].
    eapply refp_bind; [by apply AC|]. intros x1 x2 Hx. eapply refp_bind; [by apply IH|]. intros y1 y2 Hy. splitQ. destruct o; [|by apply rr].
    eapply refp_bind; [apply (cl_isact _ _ _ _ _ _ _ B), Hy|]. intros b ? <-. destruct b; [|by apply rr]. eapply refp_bind; [by apply DE|]. intros. by apply rr.
  - intros c id k IH U s1 s2 H. cbn [evalN]. eapply refp_bind; [by apply UL|]. intros. by apply IH.
  - intros c id hs IH U s1 s2 H. cbn [evalN]. eapply refp_bind; [apply (cl_isact _ _ _ _ _ _ _ B), H|]. intros b ? <-. eapply (refp_bind _ eq); [apply HA|]. intros _ _ _.
    eapply refp_bind; [apply (cl_get _ _ _ _ _ _ _ B), H|]. intros l ? <-. apply IH; [done|done|]. intros. apply rf.
  - intros _ c ei d d' s1 s2 H Hd. cbn [evalHN]. by apply Hd.
  - intros args w b IHb rest IHr [U1 U2] c ei d d' s1 s2 H Hd. cbn [evalHN]. eapply refp_bind; [apply mn_args, H|]. intros l ? <-. destruct l as [l|]; [|by apply IHr].
    eapply refp_bind; [apply (mo_set_all _ _ _ _ _ _ _ B), H|]. intros m1 m2 Hm. apply (IHb _ (U1 _)). split; [done|]. destruct H as [_ Hg]. cbn [snd]. by rewrite Hg.
  - intros hs1 IH1 rest IHr [U1 U2] c ei d d' s1 s2 H Hd. cbn [evalHN]. apply IH1; [done|done|]. intros. by apply IHr.
Qed.
End morph.
