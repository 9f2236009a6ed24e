(** A run in a build without exceptions depends on the ids a thread is given, and on nothing else outside the thread. *)
From Verif Require Export Local NoExcept.
Open Scope Z_scope.

Section locN.
Context (G : cfg) (f1 f2 : nat -> Z).
Notation G1 := (with_sup f1 G).
Notation G2 := (with_sup f2 G).
Notation MP := (pmach G).
Notation st := (mem * glob)%type.
Notation loc := (loc f1 f2).
Notation p_os := (p_os G).

Lemma ng_unload_retN r (s : st) rs : unload_retN MP r s = Ok rs -> ngen (snd (snd rs)) = ngen (snd s).
Proof.
  destruct r as [| |id l [x|]|]; simpl; intros H; try done; try (by injection H as <-). ok_inv H. destruct a as [m g]. injection H as <-.
  pose proof (mcap_unload_ctxs G _ _ _ _ _ _ E) as [_ ->]. done.
Qed.
Definition p_riN (i : einfoN * ret * st) : glob := snd (snd i).
Lemma loc_res_infoN c r (s : st) : loc p_riN (res_infoN G1 MP c r s) (res_infoN G2 MP c r s) (ngen (snd s)).
Proof.
  unfold res_infoN. apply loc_op. intros [r1 s1] H. rewrite <- (ng_unload_retN _ _ _ H). simpl.
  eapply loc_bind; [apply loc_err_id|]. intros [i s2]. change (assert G1) with (assert G). change (assert G2) with (assert G).
  apply loc_const. intros a E. ok_inv E. ok_inv E. ok_inv E. ok_inv E. injection E as <-. simpl. exact (ng_on_mem _ _ _ _ E0).
Qed.

Lemma loc_evalN :
  (forall p (s : st), loc p_os (evalN G1 MP p s) (evalN G2 MP p s) (ngen (snd s))) /\
  (forall hs c ei d1 d2 (s : st), (forall s : st, loc p_os (d1 s) (d2 s) (ngen (snd s))) ->
     loc p_os (evalHN G1 MP hs c ei d1 s) (evalHN G2 MP hs c ei d2 s) (ngen (snd s))).
Proof.
  assert (forall o (s : st), p_os (o, s) = snd s) as Hp by done.
  assert (forall x n, (forall o (s : st), x = Ok (o, s) -> ngen (snd s) = n) -> loc p_os x x n) as Hconst.
  { intros x n Hx. apply loc_const. intros [o s1] H. by apply Hx in H. }
  assert (forall (x : res st) k1 k2 n, (forall s1, x = Ok s1 -> ngen (snd s1) = n) -> (forall s1, loc p_os (k1 s1) (k2 s1) (ngen (snd s1))) ->
    loc p_os (rbind x k1) (rbind x k2) n) as Hop.
  { intros x k1 k2 n Hx Hk. apply loc_op. intros s1 E. rewrite <- (Hx _ E). apply Hk. }
  apply prog_handlers_ind.
  - intros r s. by apply loc_ok.
  - intros p IH k IHk s. cbn [evalN]. eapply loc_bind; [apply IH|]. intros [[r|x] s1]; [apply IHk|by apply loc_ok].
  - intros z k IH s. cbn [evalN]. apply (IH (fst s, emit (EvUser z) (snd s))).
  - intros its k IH s. cbn [evalN].
    apply (loc_new G f1 f2 p_os (fun '(id, g) => let! s1 := id_load MP (mk id) its (fst s, g) in evalN G1 MP (k (mk id)) s1)
      (fun '(id, g) => let! s1 := id_load MP (mk id) its (fst s, g) in evalN G2 MP (k (mk id)) s1)).
    intros id g' Hg. apply Hop; [|intros; apply IH]. intros s1 E. exact (ng_id_load _ _ _ _ _ E).
  - intros id its k IH s. cbn [evalN]. apply Hop; [|intros; apply IH]. intros s1 E. exact (ng_id_load _ _ _ _ _ E).
  - intros k IH s. cbn [evalN]. apply IH.
  - intros oi x its s. cbn [evalN]. destruct oi as [id|].
    + apply loc_op. intros s1 E. apply loc_ok. exact (Nat.eq_le_incl _ _ (eq_sym (ng_id_load _ _ _ _ _ E))).
    + apply (loc_new G f1 f2 p_os (fun '(id, g) => let! s1 := id_load MP (mk id) its (fst s, g) in Ok (throw_leaf MP (mk id) x s1))
        (fun '(id, g) => let! s1 := id_load MP (mk id) its (fst s, g) in Ok (throw_leaf MP (mk id) x s1))).
      intros id g' Hg. apply loc_op. intros s1 E. apply loc_ok. exact (Nat.eq_le_incl _ _ (eq_sym (ng_id_load _ _ _ _ _ E))).
  - intros x s. apply loc_fail.
  - intros s. apply loc_fail.
  - intros p IH h IHh s. apply loc_fail.
  - intros its p IH s. cbn [evalN]. eapply loc_bind; [apply IH|]. intros [[r|x] s1]; [|by apply loc_ok]. simpl.
    apply Hconst. intros o' s2. destruct (_ =? 0); intros H; [by injection H as <- <-|]. ok_inv H. injection H as <- <-. exact (ng_load_items _ _ _ _ _ _ E).
  - intros k IH s. cbn [evalN]. apply IH.
  - intros m k IH s. cbn [evalN]. apply IH.
  - intros m k IH s. cbn [evalN]. destruct (negb _); [apply IH|].
    apply (loc_new G f1 f2 p_os (fun '(id, g) => evalN G1 MP (k (mk id)) (fst s, g)) (fun '(id, g) => evalN G2 MP (k (mk id)) (fst s, g))).
    intros id g' _. apply (IH _ (fst s, g')).
  - (* PTHA *) intros p IH hs IHh s. cbn [evalN]. change (deduce G1 hs) with (deduce G hs). change (deduce G2 hs) with (deduce G hs).
    destruct (m_new MP (deduce G hs) (fst s)) as [c m1].
    apply Hop; [intros s1 E; exact (ng_on_mem _ _ _ _ E)|]. intros s1. eapply loc_bind; [apply IH|]. intros [[r|x] s2]; [|by apply loc_ok].
    destruct (is_val r); [apply Hconst; intros o4 s4 E; exact (ng_deact_leave _ _ _ _ _ _ E)|].
    eapply loc_bind; [apply loc_res_infoN|]. intros [[ei r1] s4].
    eapply loc_bind; [apply IHh; intros; apply loc_fail|]. intros [[r2|x] s5]; [|by apply loc_ok]. destruct (is_val r2); [|apply loc_fail].
    apply Hconst. intros o6 s6 E. exact (ng_leave _ _ _ _ _ _ E).
  - (* PTHS *) intros p IH hs IHh s. cbn [evalN]. change (deduce G1 hs) with (deduce G hs). change (deduce G2 hs) with (deduce G hs).
    destruct (m_new MP (deduce G hs) (fst s)) as [c m1].
    apply Hop; [intros s1 E; exact (ng_on_mem _ _ _ _ E)|]. intros s1. eapply loc_bind; [apply IH|]. intros [[r|x] s2]; [|by apply loc_ok].
    destruct (is_val r); [apply Hconst; intros o4 s4 E; exact (ng_deact_leave _ _ _ _ _ _ E)|].
    eapply loc_bind; [apply loc_res_infoN|]. intros [[ei r1] s4].
    eapply loc_bind; [apply IHh; intros; by apply loc_ok|]. intros [[r2|x] s5]; [|by apply loc_ok].
    exact (loc_ths_end G f1 f2 _ (ORet r2) s5).
  - (* PTC *) intros p IH hs IHh s. cbn [evalN]. apply IH.
  - (* PCapture *) intros b p IH s. cbn [evalN]. change (g_capture G1) with (g_capture G). change (g_capture G2) with (g_capture G).
    destruct (negb _); [apply loc_fail|]. destruct (m_new MP [SDA] (fst s)) as [c m1].
    apply Hop; [intros s1 E; exact (ng_on_mem _ _ _ _ E)|]. intros s1. eapply loc_bind; [apply IH|]. intros [[r|x] s2]; [|by apply loc_ok].
    apply Hconst. intros o3 s3 H. destruct b.
    + destruct (is_val r); [|done]. ok_inv H. injection H as <- <-. exact (ng_on_mem _ _ _ _ E).
    + destruct r as [z|id|id l ex|cat v]; [exact (ng_deact_leave _ _ _ _ _ _ H)| | |done].
      all: ok_inv H; ok_inv H; etrans; [exact (ng_leave _ _ _ _ _ _ H)|]; exact (ng_on_mem _ _ _ _ E).
  - intros r k IH s. cbn [evalN]. apply loc_op. intros [r1 s1] E. apply (loc_n _ _ _ _ _ _ _ (ng_unload_retN _ _ _ E)). apply IH.
  - intros r k IH s. cbn [evalN]. destruct r as [z|id|id l ex|cat v]; [apply IH| | |apply loc_fail].
    all: apply loc_op; intros [r1 s1] E; apply (loc_n _ _ _ _ _ _ _ (ng_unload_retN _ _ _ E)); by apply loc_ok.
  - intros r k IH s. cbn [evalN]. eapply loc_bind; [apply loc_err_id|]. intros [i s1]. apply IH.
  - intros cls p IH s. apply loc_fail.
  - intros cat v k IH s. cbn [evalN]. eapply loc_bind; [apply loc_import|]. intros [i s1]. apply IH.
  - intros tup k IH s. cbn [evalN]. change (deduce_list G1 tup) with (deduce_list G tup). change (deduce_list G2 tup) with (deduce_list G tup).
    destruct (m_new MP (deduce_list G tup) (fst s)) as [c m1].
    eapply loc_bind; [apply (IH _ (_, snd s))|]. intros [[r|x] s1]; [|by apply loc_ok]. apply Hconst. intros o2 s2 E. exact (ng_leave _ _ _ _ _ _ E).
  - intros c p IH s. cbn [evalN]. apply loc_op. intros [] _; [apply IH|]. apply Hop; [intros s1 E; exact (ng_on_mem _ _ _ _ E)|].
    intros s1. eapply loc_bind; [apply IH|]. intros [[r|x] s2]; [|by apply loc_ok]. apply loc_op. intros [] _; [|by apply loc_ok].
    apply Hconst. intros o3 s3 E. ok_inv E. injection E as <- <-. exact (ng_on_mem _ _ _ _ E0).
  - intros c id k IH s. cbn [evalN]. apply Hop; [intros s1 E; exact (ng_unload _ _ _ _ _ E)|]. intros. apply IH.
  - intros c id hs IH s. cbn [evalN]. apply loc_op. intros b _. change (assert G1) with (assert G). change (assert G2) with (assert G).
    apply loc_op. intros _ _. apply loc_op. intros loc0 _. apply IH. intros. apply loc_fail.
  - intros c ei d1 d2 s Hd. cbn [evalHN]. apply Hd.
  - intros args w b IHb rest IHr c ei d1 d2 s Hd. cbn [evalHN].
    change (args_getN G1) with (args_getN G). change (args_getN G2) with (args_getN G). apply loc_op. intros [l|] _; [|by apply IHr].
    apply loc_op. intros m1 _. apply (IHb l (m1, snd s)).
  - intros hs IHh rest IHr c ei d1 d2 s Hd. cbn [evalHN]. apply IHh. intros s1. by apply IHr.
Qed.
End locN.

(** The run of a program is determined by the ids it is given while it runs. *)
Theorem run_depends_on_idsN G f1 f2 p m g o m' g' :
  evalN (with_sup f1 G) (pmach (with_sup f1 G)) p (m, g) = Ok (o, (m', g')) -> (forall n, (ngen g <= n < ngen g')%nat -> f1 n = f2 n) ->
  evalN (with_sup f2 G) (pmach (with_sup f2 G)) p (m, g) = Ok (o, (m', g')).
Proof.
  intros H Ha. exact (proj2 (proj1 (loc_evalN G f1 f2) p (m, g) (o, (m', g')) H) Ha).
Qed.
