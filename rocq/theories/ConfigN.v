(** Config.v for builds without exceptions: two configurations that agree in everything but what is shown run every program alike. *)
From Verif Require Export Config NoExcept.
Open Scope Z_scope.

Section ref.
Context (E : fail -> Prop) (G1 G2 : cfg) (B : below E G1 G2).
Notation M1 := (pmach G1).
Notation M2 := (pmach G2).
Notation ref := (refp E eq).
Notation D := (g_diag G1 = g_diag G2).
Ltac gn := unfold gnew; rewrite (b_sup _ _ _ B); cbv beta zeta iota.

Lemma rn_act c (s : mem * glob) : ref (on_mem M1 (m_act M1 c) s) (on_mem M2 (m_act M2 c) s).
Proof. refine (ref_on_mem E G1 G2 (mact G1 c) (mact G2 c) s _). intros. apply (b_act _ _ _ B). Qed.
Lemma rn_deact c (s : mem * glob) : ref (on_mem M1 (m_deact M1 c) s) (on_mem M2 (m_deact M2 c) s).
Proof. refine (ref_on_mem E G1 G2 (mdeact G1 c) (mdeact G2 c) s _). intros. apply (b_deact _ _ _ B). Qed.
Lemma rn_drop c (s : mem * glob) : ref (on_mem M1 (m_drop M1 c) s) (on_mem M2 (m_drop M2 c) s).
Proof. refine (ref_on_mem E G1 G2 (mdrop G1 c) (mdrop G2 c) s _). intros. apply (b_drop _ _ _ B). Qed.
Lemma rn_unload_ret r (s : st M1) : ref (unload_retN M1 r s) (unload_retN M2 r s).
Proof. destruct r as [| |id l [x|]|]; cbn [unload_retN]; try apply ref_refl. apply ref_bind; [apply (b_capunload _ _ _ B)|]. intros. apply ref_refl. Qed.
Lemma rn_peek T c ei (m : mem) : ref (peekN M1 T c ei m) (peekN M2 T c ei m).
Proof. unfold peekN. destruct (eiN_id ei =? 0); [apply ref_refl|]. apply (b_get _ _ _ B). Qed.
Lemma rn_arg a c ei (m : mem) : (D \/ a <> ADetails) ->
  refp E (fun o o' => match o, o' with Some v, Some v' => alike G1 G2 v v' | None, None => True | _, _ => False end)
    (arg_getN G1 M1 a c ei m) (arg_getN G2 M2 a c ei m).
Proof.
  intros Ha. destruct a; cbn [arg_getN].
  - eapply refp_bind; [apply rn_peek|]. intros [v|] ? <-; simpl; done.
  - eapply refp_bind; [apply rn_peek|]. intros o ? <-; simpl; done.
  - eapply refp_bind; [apply rn_peek|]. intros [v|] ? <-; simpl; [|done]. by destruct (f v).
  - by right.
  - done.
  - done.
  - destruct (b_diag _ _ _ B) as [HD|[HD HE]].
    + rewrite HD. eapply (refp_bind _ eq); [|intros l ? <-; simpl; done]. destruct (g_diag G2); [apply (b_print _ _ _ B)|apply ref_refl].
    + rewrite HD. cbn [rbind]. destruct (g_diag G1) eqn:H1; [|simpl; done]. cbn [m_print pmach].
      destruct (mprint G1 c (eiN_id ei) m) eqn:Ep; simpl.
      * split; [done|]. congruence.
      * left. by rewrite (print_fails _ _ _ _ _ Ep).
  - destruct Ha as [HD|]; [|done]. rewrite HD, (b_cap _ _ _ B). eapply (refp_bind _ eq).
    { destruct (g_diag G2); [apply (b_print _ _ _ B)|apply ref_refl]. }
    intros l ? <-. eapply (refp_bind _ eq); [|intros d ? <-; simpl; done]. destruct (g_diag G2 && g_capture G2); [apply (b_details _ _ _ B)|apply ref_refl].
Qed.
Lemma rn_args l c ei (m : mem) : (D \/ ADetails ∉ l) ->
  refp E (fun o o' => match o, o' with
    | Some v, Some v' => map hide v = map hide v' /\ (D -> v = v') | None, None => True | _, _ => False end)
    (args_getN G1 M1 l c ei m) (args_getN G2 M2 l c ei m).
Proof.
  induction l as [|a l IH]; intros Hl; cbn [args_getN]; [done|].
  eapply refp_bind; [apply rn_arg|].
  { destruct Hl as [|Hl]; [by left|right]. intros ->. apply Hl. left. }
  intros [v|] [v'|] Ho; try done. eapply refp_bind; [apply IH|].
  { destruct Hl as [|Hl]; [by left|right]. intros Hi. apply Hl. by right. }
  intros [vs|] [vs'|] Ho'; try done. destruct Ho as [Ho1 Ho2], Ho' as [Hs1 Hs2].
  split; [simpl; congruence|]. intros HD. by rewrite Ho2, Hs2.
Qed.
Lemma rn_res_info c r (s : st M1) : ref (res_infoN G1 M1 c r s) (res_infoN G2 M2 c r s).
Proof.
  unfold res_infoN. apply ref_bind; [apply rn_unload_ret|]. intros. apply ref_bind; [apply (ref_err_id _ _ _ B)|]. intros. apply ref_bind; [apply rn_deact|].
  intros. apply ref_bind; [apply ref_refl|]. intros. apply ref_bind; [apply (b_assert _ _ _ B)|]. intros. apply ref_bind; [apply (b_get _ _ _ B)|]. intros. apply ref_refl.
Qed.

Theorem ref_evalN :
  (forall p (s : st M1), blind D p -> ref (evalN G1 M1 p s) (evalN G2 M2 p s)) /\
  (forall hs c ei (d d' : st M1 -> _) (s : st M1), blindH D hs -> (forall s, ref (d s) (d' s)) ->
     ref (evalHN G1 M1 hs c ei d s) (evalHN G2 M2 hs c ei d' s)).
Proof.
  pose proof (ref_deact_leave _ _ _ B) as DL. pose proof (ref_leave _ _ _ B) as LV. pose proof (ref_id_load _ _ _ B) as IL.
  pose proof rn_act as AC. pose proof rn_deact as DE.
  apply prog_handlers_ind; try (intros; cbn [evalN evalHN blind blindH] in *; apply ref_refl).
  - intros p IH k IHk s [W1 W2]. cbn [evalN]. apply ref_bind; [by apply IH|]. intros [[r|x] s1]; [by apply IHk|apply ref_refl].
  - intros z k IH s W. cbn [evalN]. by apply IH.
  - intros its k IH s W. cbn [evalN blind] in *. gn. apply ref_bind; [apply IL|]. intros. by apply IH.
  - intros id its k IH s W. cbn [evalN blind] in *. apply ref_bind; [apply IL|]. intros. by apply IH.
  - intros k IH s W. cbn [evalN blind] in *. by apply IH.
  - intros id x its s W. cbn [evalN blind] in *. gn. destruct id; (apply ref_bind; [apply IL|]; intros; apply ref_refl).
  - intros its p IH [m g] W. cbn [evalN blind fst snd] in *. apply ref_bind; [by apply IH|]. intros [[r|x] [m1 g1]]; [|apply ref_refl]. cbn [fst snd].
    destruct (_ =? 0); [apply ref_refl|]. apply ref_bind; [apply (ref_load_items _ _ _ B)|]. intros. apply ref_refl.
  - intros k IH s W. cbn [evalN blind] in *. by apply IH.
  - intros m k IH s W. cbn [evalN blind] in *. by apply IH.
  - intros m k IH s W. cbn [evalN blind] in *. gn. destruct (negb _); by apply IH.
  - (* PTHA *) intros p IH hs IHh [m g] [W1 W2]. cbn [evalN fst snd]. rewrite (ref_deduce _ _ _ B) by done. cbn [m_new pmach]. rewrite (b_new _ _ _ B).
    destruct (mnew G2 (deduce G2 hs) m) as [c m1]. apply ref_bind; [apply AC|]. intros s1. apply ref_bind; [by apply IH|]. intros [[r|x] s2]; [|apply ref_refl].
    destruct (is_val r); [apply DL|]. apply ref_bind; [apply rn_res_info|]. intros i. apply ref_bind; [apply IHh; [done|]; intros; apply ref_refl|]. intros [[r'|x] s4]; [|apply ref_refl].
    destruct (is_val r'); [apply LV|apply ref_refl].
  - (* PTHS *) intros p IH hs IHh [m g] [W1 W2]. cbn [evalN fst snd]. rewrite (ref_deduce _ _ _ B) by done. cbn [m_new pmach]. rewrite (b_new _ _ _ B).
    destruct (mnew G2 (deduce G2 hs) m) as [c m1]. apply ref_bind; [apply AC|]. intros s1. apply ref_bind; [by apply IH|]. intros [[r|x] s2]; [|apply ref_refl].
    destruct (is_val r); [apply DL|]. apply ref_bind; [apply rn_res_info|]. intros i. apply ref_bind; [apply IHh; [done|]; intros; apply ref_refl|]. intros [[r'|x] s4]; [|apply ref_refl].
    destruct (is_val r'); [apply LV|]. apply ref_bind; [apply (ref_err_id _ _ _ B)|]. intros. apply ref_bind; [apply (b_unload _ _ _ B)|]. intros. apply LV.
  - intros p IH hs IHh s [W1 W2]. cbn [evalN]. by apply IH.
  - (* PCapture *) intros isvoid p IH [m g] W. cbn [evalN blind fst snd] in *. rewrite (b_cap _ _ _ B). destruct (g_capture G2); [|apply ref_refl]. cbn [negb m_new pmach]. rewrite (b_new _ _ _ B).
    destruct (mnew G2 [SDA] m) as [c m1]. apply ref_bind; [apply AC|]. intros s1. apply ref_bind; [by apply IH|]. intros [[r|x] s2]; [|apply ref_refl]. destruct isvoid.
    + destruct (is_val r); [|apply ref_refl]. apply ref_bind; [apply rn_drop|]. intros. apply ref_refl.
    + destruct r; [apply DL| | |apply ref_refl]; (apply ref_bind; [apply DE|]; intros; apply ref_bind; [apply (b_extract _ _ _ B)|]; intros; apply LV).
  - intros r k IH s W. cbn [evalN blind] in *. apply ref_bind; [apply rn_unload_ret|]. intros. by apply IH.
  - intros r k IH s W. cbn [evalN blind] in *. destruct r; [by apply IH| | |apply ref_refl]; (apply ref_bind; [apply rn_unload_ret|]; intros; apply ref_refl).
  - intros r k IH s W. cbn [evalN blind] in *. apply ref_bind; [apply (ref_err_id _ _ _ B)|]. intros. by apply IH.
  - intros cat v k IH s W. cbn [evalN blind] in *. apply ref_bind; [apply (ref_import _ _ _ B)|]. intros. by apply IH.
  - (* PCtx *) intros tup k IH [m g] W. cbn [evalN blind fst snd] in *. rewrite (ref_deduce_list _ _ _ B). cbn [m_new pmach]. rewrite (b_new _ _ _ B).
    destruct (mnew G2 (deduce_list G2 tup) m) as [c m1]. apply ref_bind; [by apply IH|]. intros [[r|x] s1]; [apply LV|apply ref_refl].
  - (* PAct *) intros c p IH s W. cbn [evalN blind] in *. apply ref_bind; [apply ref_refl|]. intros []; [by apply IH|]. apply ref_bind; [apply AC|]. intros. apply ref_bind; [by apply IH|].
    intros [[r|x] s2]; [|apply ref_refl]. apply ref_bind; [apply ref_refl|]. intros []; [|apply ref_refl]. apply ref_bind; [apply DE|]. intros. apply ref_refl.
  - intros c id k IH s W. cbn [evalN blind] in *. apply ref_bind; [apply (b_unload _ _ _ B)|]. intros. by apply IH.
  - intros c id hs IH s W. cbn [evalN blind] in *. apply ref_bind; [apply ref_refl|]. intros a.
    apply ref_bind; [apply (b_assert _ _ _ B)|]. intros. apply ref_bind; [apply (b_get _ _ _ B)|]. intros. apply IH; [done|]. intros. apply ref_refl.
  - intros c ei d d' s _ Hd. cbn [evalHN]. apply Hd.
  - intros args w b IH rest IHr c ei d d' [m g] (W1 & W2 & W3) Hd. cbn [evalHN fst snd].
    eapply refp_bind; [apply rn_args; destruct W1 as [|[]]; auto|]. intros [l|] [l'|] Ho; try done; [|by apply IHr].
    destruct Ho as [Ho1 Ho2].
    assert (b l' = b l /\ w l' = w l) as [-> ->].
    { destruct W1 as [HD|[_ W1]]; [by rewrite Ho2|]. destruct (W1 l l' Ho1). by split. }
    apply ref_bind; [apply ref_set_all|]. intros. by apply IH.
  - intros hs1 IH1 rest IHr c ei d d' s [W1 W2] Hd. cbn [evalHN]. apply IH1; [done|]. intros. by apply IHr.
Qed.
End ref.
