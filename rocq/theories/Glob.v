(** How a program changes the per-thread state besides storage: the current error, the ids obtained, the exceptions
    thrown, the events. *)
From Verif Require Export View.
Open Scope Z_scope.

(** The things that can happen to it. *)
Inductive glab :=
| LNew                         (* a new error is started *)
| LEv (e : ev)                 (* an event *)
| LUnl (id : Z)                (* a captured result, or a scope that collects, is unloaded for error id *)
| LThrow                       (* a LEAF exception object is created *)
| LPlain                       (* another exception object is created *)
| LSeen (o : nat)              (* a LEAF scope examines LEAF exception o *)
| LGone (o : nat) (id : Z).    (* LEAF exception o, with id id, is destroyed by user code that caught it *)

(** What each does. *)
Definition gdo (G : cfg) (g : glob) (l : glab) : glob :=
  match l with
  | LNew => Glob (g_sup G (ngen g)) (S (ngen g)) (oid g) (clr g) (tr g)
  | LEv e => emit e g
  | LUnl id => set_cur id g
  | LThrow => Glob (cur g) (ngen g) (S (oid g)) (oid g :: clr g) (tr g)
  | LPlain => Glob (cur g) (ngen g) (S (oid g)) (clr g) (tr g)
  | LSeen o => set_clr (drop_oid o (clr g)) g
  | LGone o id => if bool_decide (o ∈ clr g) then set_clr (drop_oid o (clr g)) (if cur g =? id then set_cur 0 g else g) else g
  end.
Definition gplay (G : cfg) (g : glob) (l : list glab) : glob := foldl (gdo G) g l.

(** What a program may use. *)
Record feat := Feat { f_catch : bool; f_unl : bool; f_scope : bool }.

Definition lab_in (F : feat) (l : glab) : Prop :=
  match l with
  | LUnl _ => f_unl F = true
  | LSeen _ => f_scope F = true
  | LGone _ _ => f_catch F = true
  | _ => True
  end.

Definition ret_in (F : feat) (r : ret) : Prop := match r with RCap _ _ _ => f_unl F = true | _ => True end.
Definition out_in (F : feat) (o : out) : Prop := match o with ORet r => ret_in F r | OThrow _ => True end.

Section within.
Context (G : cfg) (F : feat).

Definition tup_in (tup : list sty) : Prop := f_unl F = true \/ SDA ∉ tup.

(** The program uses, besides what is in F: no plain catch; no captured results and no scopes that collect; no scopes. *)
Fixpoint within (p : prog) : Prop :=
  match p with
  | PRet r => ret_in F r
  | PBind p k => within p /\ forall r, ret_in F r -> within (k r)
  | PEmit _ k | PLoad _ _ k | PCtxUnload _ _ k => within k
  | PNewError _ k | PCurErr k | PMonitor k | PCheck _ k | PAssigned _ k | PImport _ _ k => forall z, within (k z)
  | PThrow _ _ _ | PThrowX _ | PRethrow => True
  | PCatch p h => f_catch F = true /\ within p /\ forall x, within (h x)
  | POnError _ p | PE2R _ p | PAct _ p => within p
  | PTHA p hs | PTHS p hs | PTC p hs => f_scope F = true /\ tup_in (deduce G hs) /\ within p /\ withinH hs
  | PCapture _ p => f_scope F = true /\ f_unl F = true /\ within p
  | PUnload r k => ret_in F r /\ forall r, ret_in F r -> within (k r)
  | PValue r k | PErrId r k => ret_in F r /\ forall z, within (k z)
  | PCtx tup k => tup_in (deduce_list G tup) /\ forall c, within (k c)
  | PCtxHandle _ _ hs => withinH hs
  end
with withinH (hs : handlers) : Prop :=
  match hs with
  | HNil => True
  | HMut _ _ b rest => (forall l, within (b l)) /\ withinH rest
  | HTup hs' rest => withinH hs' /\ withinH rest
  end.
End within.

(** Everything allowed. *)
Definition Fall : feat := Feat true true true.
Lemma within_all G : (forall p, within G Fall p) /\ (forall hs, withinH G Fall hs).
Proof.
  assert (forall r, ret_in Fall r) as Hr by (by intros []).
  assert (forall t, tup_in Fall t) as Ht by (by left).
  apply prog_handlers_ind; cbn [within withinH]; intros; repeat split; intros; auto;
    match goal with H : _ |- _ => apply H end.
Qed.

Ltac wfold W := cbn [within withinH] in W; fold within in W; fold withinH in W; idtac.

Section glob.
Context (G : cfg) (M : machine) (F : feat) (Inv : mst M -> Prop).

Definition evs (l : list glab) : Prop := Forall (fun x => exists e, x = LEv e) l.

(** What is asked of the storage. *)
Record mach_inv : Prop := {
  mi_load o id it m g m' g' : m_load M o id it m g = Ok (m', g') -> Inv m -> Inv m' /\ exists l, evs l /\ g' = gplay G g l;
  mi_cap id l m g m' g' : m_capunload M id l m g = Ok (m', g') -> Inv m -> Inv m' /\ g' = set_cur id g;
  mi_new tup m c m' : m_new M tup m = (c, m') -> tup_in F tup -> Inv m -> Inv m';
  mi_act c m m' : m_act M c m = Ok m' -> Inv m -> Inv m';
  mi_deact c m m' : m_deact M c m = Ok m' -> Inv m -> Inv m';
  mi_destroy c m m' : m_destroy M c m = Ok m' -> Inv m -> Inv m';
  mi_drop c m m' : m_drop M c m = Ok m' -> Inv m -> Inv m';
  mi_unl c id m g m' g' : m_unload M c id m g = Ok (m', g') -> Inv m -> Inv m' /\ (g' = g \/ f_unl F = true /\ g' = set_cur id g);
  mi_extract c id b m l m' : m_extract M c id b m = Ok (l, m') -> Inv m -> Inv m';
  mi_set c T id v m m' : m_set M c T id v m = Ok m' -> Inv m -> Inv m' }.

Context (MI : mach_inv).

Definition grun (g g' : glob) : Prop := exists l, Forall (lab_in F) l /\ g' = gplay G g l.

Lemma grun_refl g : grun g g.
Proof. by exists []. Qed.
Lemma grun_trans g1 g2 g3 : grun g1 g2 -> grun g2 g3 -> grun g1 g3.
Proof.
  intros (l1 & H1 & ->) (l2 & H2 & ->). exists (l1 ++ l2). split; [by apply Forall_app|]. unfold gplay. by rewrite foldl_app.
Qed.
Lemma grun_1 g x : lab_in F x -> grun g (gdo G g x).
Proof. exists [x]. by rewrite Forall_singleton. Qed.
Lemma grun_evs g l : evs l -> grun g (gplay G g l).
Proof. intros H. exists l. split; auto. eapply Forall_impl; [exact H|]. by intros x (e & ->). Qed.

Notation st := (st M).
Definition ok_st (s s' : st) : Prop := Inv (fst s) -> Inv (fst s') /\ grun (snd s) (snd s').

Lemma ok_refl s : ok_st s s.
Proof. split; auto using grun_refl. Qed.
Lemma ok_trans s1 s2 s3 : ok_st s1 s2 -> ok_st s2 s3 -> ok_st s1 s3.
Proof. intros H1 H2 HI. destruct (H1 HI) as [? ?]. destruct (H2 ltac:(auto)) as [? ?]. eauto using grun_trans. Qed.
Lemma ok_lab (m : mst M) g x : lab_in F x -> ok_st (m, g) (m, gdo G g x).
Proof. split; auto. by apply grun_1. Qed.
Lemma ok_new m g id g' : gnew G g = (id, g') -> ok_st (m, g) (m, g').
Proof. unfold gnew. intros. simplify_eq. by apply (ok_lab m g LNew). Qed.

Lemma ok_load o id it (s s' : st) : m_load M o id it (fst s) (snd s) = Ok s' -> ok_st s s'.
Proof. destruct s', s. simpl. intros H HI. destruct (mi_load MI _ _ _ _ _ _ _ H HI) as (? & l & ? & ->). split; auto. by apply grun_evs. Qed.
Lemma ok_load_items o id its : forall (s s' : st), load_items M o id its s = Ok s' -> ok_st s s'.
Proof.
  induction its; simpl; intros s s' H; [simplify_eq; apply ok_refl|]. ok_inv H. eapply ok_trans; [by eapply ok_load|]. eauto.
Qed.
Lemma ok_id_load id its (s s' : st) : id_load M id its s = Ok s' -> ok_st s s'.
Proof. unfold id_load. destruct (id =? 0); [intros; simplify_eq; apply ok_refl|]. apply ok_load_items. Qed.
Lemma ok_on_mem f (s s' : st) : (forall m m', f m = Ok m' -> Inv m -> Inv m') -> on_mem M f s = Ok s' -> ok_st s s'.
Proof. intros Hf H. unfold on_mem in H. ok_inv H. simplify_eq. intros HI. split; [eauto|apply grun_refl]. Qed.
Lemma ok_act c (s s' : st) : on_mem M (m_act M c) s = Ok s' -> ok_st s s'.
Proof. apply ok_on_mem. apply MI. Qed.
Lemma ok_deact c (s s' : st) : on_mem M (m_deact M c) s = Ok s' -> ok_st s s'.
Proof. apply ok_on_mem. apply MI. Qed.
Lemma ok_destroy c (s s' : st) : on_mem M (m_destroy M c) s = Ok s' -> ok_st s s'.
Proof. apply ok_on_mem. apply MI. Qed.
Lemma ok_drop c (s s' : st) : on_mem M (m_drop M c) s = Ok s' -> ok_st s s'.
Proof. apply ok_on_mem. apply MI. Qed.
Lemma ok_set_all c id l g : forall (m m' : mst M), set_all M c id l m = Ok m' -> ok_st (m, g) (m', g).
Proof.
  induction l as [|[T v] l IH]; intros m m' H; simpl in H; [simplify_eq; apply ok_refl|]. ok_inv H. eapply ok_trans; [|by apply IH].
  intros HI. split; [|apply grun_refl]. by eapply (mi_set MI).
Qed.
Lemma ok_unl c id (s s' : st) : m_unload M c id (fst s) (snd s) = Ok s' -> ok_st s s'.
Proof.
  destruct s, s'. simpl. intros H HI. destruct (mi_unl MI _ _ _ _ _ _ H HI) as (? & [->|[Hf ->]]); split; auto using grun_refl.
  by apply (grun_1 _ (LUnl id)).
Qed.
Lemma ok_import cat v (s : st) i s' : import_ec G M cat v s = Ok (i, s') -> ok_st s s'.
Proof.
  unfold import_ec. destruct (v =? 0); [intros; simplify_eq; apply ok_refl|]. destruct (cat =? LEAFCAT)%nat.
  - intros H. ok_inv H. simplify_eq. apply ok_refl.
  - destruct (gnew G (snd s)) as [id g] eqn:Hg. intros H. ok_inv H. simplify_eq. destruct s as [m g0]. simpl in *.
    eapply ok_trans; [by eapply ok_new|]. eapply ok_load. exact E.
Qed.
Lemma ok_err_id r (s : st) i s' : err_id_of G M r s = Ok (i, s') -> ok_st s s'.
Proof. destruct r; simpl; [intros; simplify_eq; apply ok_refl..|]. apply ok_import. Qed.
Lemma ok_unload_ret r (s : st) o s' : ret_in F r -> unload_ret M r s = Ok (o, s') -> out_in F o /\ ok_st s s'.
Proof.
  intros Hr. destruct r; simpl; try (intros; simplify_eq; split; [done|apply ok_refl]).
  intros H. ok_inv H. simplify_eq. split; [by destruct ex|]. destruct s, s'. simpl in *.
  intros HI. destruct (mi_cap MI _ _ _ _ _ _ E HI) as [? ->]. split; auto. by apply (grun_1 _ (LUnl _)).
Qed.
Lemma ok_unload_ret_st r (s : st) o s' : ret_in F r -> unload_ret M r s = Ok (o, s') -> ok_st s s'.
Proof. intros. by eapply ok_unload_ret. Qed.
Lemma ok_e2r cls x (s : st) o s' : e2r G M cls x s = Ok (o, s') -> out_in F o /\ ok_st s s'.
Proof.
  unfold e2r. destruct (gnew G (snd s)) as [id g] eqn:Hg. intros H. ok_inv H. simplify_eq. split; [done|]. destruct s as [m g0]. simpl in *.
  eapply ok_trans; [by eapply ok_new|]. eapply ok_id_load. exact E.
Qed.
Lemma ok_catch_info (m : mst M) x g id ex g' : f_scope F = true -> catch_info x g = (id, ex, g') -> ok_st (m, g) (m, g').
Proof.
  unfold catch_info. intros Hf. destruct (x_std x); [destruct (x_leaf x)|]; intros; simplify_eq; try apply ok_refl.
  by apply (ok_lab m g (LSeen _)).
Qed.
Lemma ok_exn_info c x (s : st) ei s' : f_scope F = true -> exn_info M c x s = Ok (ei, s') -> ok_st s s'.
Proof.
  unfold exn_info. intros Hf H. ok_inv H. destruct (catch_info x (snd a)) as [[id ex] g] eqn:Hc. ok_inv H. simplify_eq.
  eapply ok_trans; [by eapply ok_deact|]. destruct a. by eapply ok_catch_info.
Qed.
Lemma ok_leave c o (s : st) o' s' : leave M c o s = Ok (o', s') -> o' = o /\ ok_st s s'.
Proof. unfold leave. intros H. ok_inv H. simplify_eq. split; auto. by eapply ok_destroy. Qed.
Lemma ok_deact_leave c o (s : st) o' s' : deact_leave M c o s = Ok (o', s') -> o' = o /\ ok_st s s'.
Proof. unfold deact_leave. intros H. ok_inv H. apply ok_leave in H as [-> ?]. split; auto. eapply ok_trans; [by eapply ok_deact|]. done. Qed.
Lemma ok_ths_end c o (s : st) o' s' : ths_end G M c o s = Ok (o', s') -> o' = o /\ ok_st s s'.
Proof.
  unfold ths_end. destruct o as [r|x]; [|apply ok_leave]. destruct (is_val r); [apply ok_leave|]. intros H. ok_inv H. destruct a as [i s1].
  ok_inv H. apply ok_leave in H as [-> ?]. split; auto. eapply ok_trans; [by eapply ok_err_id|]. eapply ok_trans; [by eapply ok_unl|]. done.
Qed.
Lemma ok_tha_end c o (s : st) o' s' : tha_end M c o s = Ok (o', s') -> o' = o /\ ok_st s s'.
Proof. unfold tha_end. destruct o as [r|x]; [|apply ok_leave]. destruct (is_val r); [apply ok_leave|done]. Qed.
Lemma ok_res_info c r (s : st) i : ret_in F r -> res_info G M c r s = Ok i ->
  match i with inl (_, r1, s') => ret_in F r1 /\ ok_st s s' | inr (x, s') => ok_st s s' end.
Proof.
  unfold res_info. intros Hr H. ok_inv H. destruct a as [[r1|x] s1]; apply ok_unload_ret in E as [? ?]; auto.
  - ok_inv H. destruct a as [j s2]. ok_inv H. ok_inv H. simplify_eq. split; auto. eapply ok_trans; [eauto|].
    eapply ok_trans; [by eapply ok_err_id|]. by eapply ok_deact.
  - by simplify_eq.
Qed.
Lemma ok_new_ctx tup (m : mst M) g c m' : tup_in F tup -> m_new M tup m = (c, m') -> ok_st (m, g) (m', g).
Proof. intros Ht H HI. split; [|apply grun_refl]. by eapply (mi_new MI). Qed.

Ltac oks := first [exact MI | apply ok_refl | eassumption | eapply ok_trans; [eassumption|] ].

Lemma scope_body (fin : cid -> out -> st -> res (out * st)) c o x hs (s2 s' : st) :
  (forall caught c ei d s o s', (forall s o s', d s = Ok (o, s') -> out_in F o /\ ok_st s s') ->
     evalH G M caught hs c ei d s = Ok (o, s') -> out_in F o /\ ok_st s s') ->
  (forall c o s o' s', fin c o s = Ok (o', s') -> o' = o /\ ok_st s s') -> f_scope F = true ->
  (let! eis := exn_info M c x s2 in
   let! os3 := evalH G M (Some x) hs c (fst eis) (unload_rethrow M c (ei_id (fst eis)) x) (snd eis) in
   fin c (fst os3) (snd os3)) = Ok (o, s') -> out_in F o /\ ok_st s2 s'.
Proof.
  intros IHh Hfin Hf H. ok_inv H. destruct a as [ei s3]. ok_inv H. destruct a as [o3 s4]. apply Hfin in H as [-> ?].
  apply IHh in E0 as [? ?].
  - split; auto. eapply ok_trans; [by eapply ok_exn_info|]. eapply ok_trans; [eassumption|]. done.
  - intros s6 o7 s7 H7. unfold unload_rethrow in H7. ok_inv H7. simplify_eq. split; [done|]. by eapply ok_unl.
Qed.

Lemma eval_glob :
  (forall p caught (s : st) o s', within G F p -> eval G M caught p s = Ok (o, s') -> out_in F o /\ ok_st s s') /\
  (forall hs caught c ei d (s : st) o s', withinH G F hs -> (forall s o s', d s = Ok (o, s') -> out_in F o /\ ok_st s s') ->
     evalH G M caught hs c ei d s = Ok (o, s') -> out_in F o /\ ok_st s s').
Proof.
  apply prog_handlers_ind.
  - intros r caught s o s' W H. wfold W.  cbn in *. simplify_eq. split; [done|apply ok_refl].
  - intros p IH k IHk caught s o s' W H. wfold W. destruct W as [W1 W2]. cbn [eval] in H. ok_inv H. destruct a as [[r|x] s1]; apply IH in E as [? ?]; auto.
    + apply IHk in H as [? ?]; auto. split; auto. by eapply ok_trans.
    + simplify_eq. done.
  - intros z k IH caught s o s' W H. wfold W.  cbn [eval] in H. apply IH in H as [? ?]; auto. split; auto. destruct s as [m g].
    eapply ok_trans; [|eassumption]. by apply (ok_lab m g (LEv _)).
  - intros its k IH caught s o s' W H. wfold W.  cbn [eval] in H. destruct (gnew G (snd s)) as [id g] eqn:Hg. ok_inv H.
    apply IH in H as [? ?]; [|apply W]. split; auto. destruct s as [m g0]. simpl in *. eapply ok_trans; [by eapply ok_new|].
    eapply ok_trans; [eapply ok_id_load; exact E|]. done.
  - intros id its k IH caught s o s' W H. wfold W.  cbn [eval] in H. ok_inv H. apply IH in H as [? ?]; auto. split; auto.
    eapply ok_trans; [eapply ok_id_load; exact E|]. done.
  - intros k IH caught s o s' W H. wfold W.  cbn [eval] in H. eapply IH in H; eauto.
  - intros oi x its caught s o s' _ H. cbn [eval] in H.
    destruct (match oi with Some id => (id, snd s) | None => let '(id, g) := gnew G (snd s) in (mk id, g) end) as [id g] eqn:Hg.
    ok_inv H. unfold throw_leaf in H. simplify_eq. split; [done|]. destruct s as [m g0]. destruct a as [m1 g1]. simpl in *.
    eapply (ok_trans _ (m, g)).
    { destruct oi; [simplify_eq; apply ok_refl|]. destruct (gnew G g0) as [j g'] eqn:Hg'. simplify_eq. by eapply ok_new. }
    eapply ok_trans; [eapply ok_id_load; exact E|]. by apply (ok_lab m1 g1 LThrow).
  - intros x caught [m g] o s' _ H. cbn [eval] in H. unfold throw_plain in H. simplify_eq. split; [done|]. by apply (ok_lab m g LPlain).
  - intros caught s o s' _ H. cbn [eval] in H. destruct caught; simplify_eq. split; [done|apply ok_refl].
  - (* PCatch *) intros p IH h IHh caught s o s' W H. wfold W. destruct W as (Wc & W1 & W2). cbn [eval] in H. ok_inv H. destruct a as [[r|x] s1]; apply IH in E as [? ?]; auto.
    + simplify_eq. auto.
    + ok_inv H. destruct a as [o2 s2]. apply IHh in E as [Ho ?]; auto. 
      assert (ok_st s s2) as Hs by (by eapply ok_trans).
      assert (ok_st s2 (fst s2, exn_destroy x (snd s2))) as Hd.
      { destruct s2 as [m2 g2]. unfold exn_destroy. simpl. destruct (x_leaf x) as [id|]; [|apply ok_refl].
        by apply (ok_lab m2 g2 (LGone (x_oid x) id)). }
      simpl in H. unfold release in H. destruct (_ || _); simplify_eq; (split; [done|]); [by destruct s2|by eapply ok_trans].
  - (* POnError *) intros its p IH caught s o s' W H. wfold W.  cbn [eval] in H. ok_inv H. destruct a as [o1 s1]. apply IH in E as [? ?]; auto.
    match type of H with (let '(_, _) := ?X in _) = _ => destruct X as [id g] eqn:Hg end.
    assert (ok_st s1 (fst s1, g)) as Hs.
    { destruct s1 as [m1 g1]. simpl in *. destruct (negb _); [simplify_eq; apply ok_refl|]. destruct o1; [simplify_eq; apply ok_refl|].
      by eapply ok_new. }
    destruct (id =? 0).
    + simplify_eq. split; auto. by eapply ok_trans.
    + ok_inv H. simplify_eq. split; auto. eapply ok_trans; [eassumption|]. eapply ok_trans; [eassumption|]. eapply ok_load_items. exact E.
  - intros k IH caught s o s' W H. wfold W.  cbn [eval] in H. eapply IH in H; eauto.
  - intros m k IH caught s o s' W H. wfold W.  cbn [eval] in H. eapply IH in H; eauto.
  - intros m k IH caught s o s' W H. wfold W.  cbn [eval] in H. destruct (negb _); [eapply IH in H; eauto|].
    destruct (gnew G (snd s)) as [id g] eqn:Hg. apply IH in H as [? ?]; [|apply W]. split; auto. destruct s as [m1 g0]. simpl in *.
    eapply ok_trans; [by eapply ok_new|]. done.
  - (* PTHA *) intros p IH hs IHh caught s o s' W H. wfold W. destruct W as (Wf & Wt & W1 & W2). cbn [eval] in H.
    destruct (m_new M (deduce G hs) (fst s)) as [c m1] eqn:Hn. ok_inv H. ok_inv H. destruct a0 as [o1 s1]. ok_inv H. destruct a0 as [o2 s2].
    assert (out_in F o2 /\ ok_st s s2) as [Ho2 Hs2].
    { apply IH in E0 as [? Hb]; auto. assert (ok_st s s1).
      { destruct s as [m g]. simpl in *. eapply ok_trans; [by eapply ok_new_ctx|]. eapply ok_trans; [by eapply ok_act|]. done. }
      destruct o1; [|simplify_eq; auto]. apply ok_unload_ret in E1 as [? ?]; auto. split; auto. by eapply ok_trans. }
    destruct o2 as [r|x].
    + destruct (is_val r) eqn:Hv.
      * apply ok_deact_leave in H as [-> ?]. split; auto. by eapply ok_trans.
      * ok_inv H. apply ok_res_info in E2; auto. destruct a0 as [[[ei r1] s3]|[x s3]].
        -- destruct E2. ok_inv H. destruct a0 as [o3 s4]. apply ok_tha_end in H as [-> ?]. apply IHh in E2 as [? ?]; auto.
           ++ split; auto. eapply ok_trans; [eassumption|]. eapply ok_trans; [eassumption|]. eapply ok_trans; [eassumption|]. done.
           ++ done.
        -- apply ok_deact_leave in H as [-> ?]. split; [done|]. eapply ok_trans; [eassumption|]. eapply ok_trans; [eassumption|]. done.
    + apply (scope_body (tha_end M)) in H as [? ?]; auto.
      * split; auto. by eapply ok_trans.
      * eauto.
      * intros *. apply ok_tha_end.
  - (* PTHS *) intros p IH hs IHh caught s o s' W H. wfold W. destruct W as (Wf & Wt & W1 & W2). cbn [eval] in H.
    destruct (m_new M (deduce G hs) (fst s)) as [c m1] eqn:Hn. ok_inv H. ok_inv H. destruct a0 as [o1 s1]. ok_inv H. destruct a0 as [o2 s2].
    assert (out_in F o2 /\ ok_st s s2) as [Ho2 Hs2].
    { apply IH in E0 as [? Hb]; auto. assert (ok_st s s1).
      { destruct s as [m g]. simpl in *. eapply ok_trans; [by eapply ok_new_ctx|]. eapply ok_trans; [by eapply ok_act|]. done. }
      destruct o1; [|simplify_eq; auto]. apply ok_unload_ret in E1 as [? ?]; auto. split; auto. by eapply ok_trans. }
    destruct o2 as [r|x].
    + destruct (is_val r) eqn:Hv.
      * apply ok_deact_leave in H as [-> ?]. split; auto. by eapply ok_trans.
      * ok_inv H. apply ok_res_info in E2; auto. destruct a0 as [[[ei r1] s3]|[x s3]].
        -- destruct E2. ok_inv H. destruct a0 as [o3 s4]. apply ok_ths_end in H as [-> ?]. apply IHh in E2 as [? ?]; auto.
           ++ split; auto. eapply ok_trans; [eassumption|]. eapply ok_trans; [eassumption|]. eapply ok_trans; [eassumption|]. done.
           ++ intros. simplify_eq. split; [done|apply ok_refl].
        -- apply ok_deact_leave in H as [-> ?]. split; [done|]. eapply ok_trans; [eassumption|]. eapply ok_trans; [eassumption|]. done.
    + apply (scope_body (ths_end G M)) in H as [? ?]; auto.
      * split; auto. by eapply ok_trans.
      * eauto.
      * intros *. apply ok_ths_end.
  - (* PTC *) intros p IH hs IHh caught s o s' W H. wfold W. destruct W as (Wf & Wt & W1 & W2). cbn [eval] in H.
    destruct (m_new M (deduce G hs) (fst s)) as [c m1] eqn:Hn. ok_inv H. ok_inv H. destruct a0 as [o2 s2].
    assert (out_in F o2 /\ ok_st s s2) as [Ho2 Hs2].
    { apply IH in E0 as [? Hb]; auto. split; auto. 
      destruct s as [m g]. simpl in *. eapply ok_trans; [by eapply ok_new_ctx|]. eapply ok_trans; [by eapply ok_act|]. done. }
    destruct o2 as [r|x].
    + apply ok_deact_leave in H as [-> ?]. split; auto. by eapply ok_trans.
    + apply (scope_body (leave M)) in H as [? ?]; auto.
      * split; auto. by eapply ok_trans.
      * eauto.
      * intros *. apply ok_leave.
  - (* PCapture *) intros isvoid p IH caught s o s' W H. wfold W. destruct W as (Wf & Wu & W1). cbn [eval] in H. destruct (negb (g_capture G)); [done|].
    destruct (m_new M [SDA] (fst s)) as [c m1] eqn:Hn. ok_inv H. ok_inv H. destruct a0 as [o2 s2].
    assert (out_in F o2 /\ ok_st s s2) as [Ho2 Hs2].
    { apply IH in E0 as [? Hb]; auto. split; auto. 
      destruct s as [m g]. simpl in *. eapply ok_trans; [eapply ok_new_ctx; [by left|done]|]. eapply ok_trans; [by eapply ok_act|]. done. }
    assert (forall id l b g ex (s3 : st), on_mem M (m_deact M c) s2 = Ok s3 -> ok_st (fst s3, snd s3) (fst s3, g) -> m_extract M c id b (fst s3) = Ok l ->
      leave M c (ORet (RCap id (fst l) ex)) (snd l, g) = Ok (o, s') -> out_in F o /\ ok_st s s') as Hfin.
    { intros id [l m5] b g ex s3 Hd Hg He Hl. apply ok_leave in Hl as [-> ?]. split; [done|]. eapply ok_trans; [eassumption|].
      eapply ok_trans; [by eapply ok_deact|]. destruct s3 as [m3 g3]. eapply ok_trans; [exact Hg|]. 
      eapply ok_trans; [|eassumption]. simpl in *. intros HI. split; [|apply grun_refl]. by eapply (mi_extract MI). }
    destruct o2 as [r|x].
    + destruct isvoid.
      * destruct (is_val r); [|done]. ok_inv H. simplify_eq. split; auto. eapply ok_trans; [eassumption|]. by eapply ok_drop.
      * destruct r as [z|id|id l x|cat v]; [|ok_inv H; ok_inv H; eauto using ok_refl|ok_inv H; ok_inv H; eauto using ok_refl|done].
        apply ok_deact_leave in H as [-> ?]. split; auto. by eapply ok_trans.
    + ok_inv H. destruct (catch_info x (snd a0)) as [[id ex] g] eqn:Hc. ok_inv H. eapply Hfin; [done| |exact E2|exact H].
      by eapply ok_catch_info.
  - intros r k IH caught s o s' W H. wfold W. destruct W as [W1 W2]. cbn [eval] in H. ok_inv H. destruct a as [[r1|x] s1]; apply ok_unload_ret in E as [? ?]; auto.
    + apply IH in H as [? ?]; auto. split; auto. by eapply ok_trans.
    + simplify_eq. auto.
  - intros r k IH caught s o s' W H. wfold W. destruct W as [W1 W2]. cbn [eval] in H. destruct r as [z|id|id l x|cat v]; [eapply IH in H; eauto|ok_inv H|ok_inv H|done];
      destruct a as [[r1|y] [m1 g1]]; apply (ok_unload_ret_st _ _ _ _ W1) in E; unfold throw_leaf in H; simplify_eq; (split; [done|]); auto;
      (eapply ok_trans; [eassumption|]; by apply (ok_lab m1 g1 LThrow)).
  - intros r k IH caught s o s' W H. wfold W. destruct W as [W1 W2]. cbn [eval] in H. ok_inv H. destruct a as [i s1]. apply ok_err_id in E. apply IH in H as [? ?]; auto.
    split; auto. by eapply ok_trans.
  - intros cls p IH caught s o s' W H. wfold W.  cbn [eval] in H. ok_inv H. destruct a as [[r1|x] s1]; apply IH in E as [? ?]; auto.
    + by simplify_eq.
    + apply ok_e2r in H as [? ?]. split; auto. by eapply ok_trans.
  - intros cat v k IH caught s o s' W H. wfold W.  cbn [eval] in H. ok_inv H. destruct a as [i s1]. apply ok_import in E. apply IH in H as [? ?]; auto.
    split; auto. by eapply ok_trans.
  - intros tup k IH caught s o s' W H. wfold W. destruct W as [W1 W2]. cbn [eval] in H. destruct (m_new M (deduce_list G tup) (fst s)) as [c m1] eqn:Hn.
    ok_inv H. destruct a as [o1 s1]. apply ok_leave in H as [-> ?]. apply IH in E as [? ?]; auto. split; auto. destruct s as [m g]. simpl in *.
    eapply ok_trans; [by eapply ok_new_ctx|]. eapply ok_trans; [eassumption|]. done.
  - intros c p IH caught s o s' W H. wfold W.  cbn [eval] in H. ok_inv H. destruct a; [eapply IH in H; eauto|]. ok_inv H. ok_inv H. ok_inv H. destruct a0 as [o1 s1].
    apply IH in E1 as [? ?]; auto. assert (ok_st s s1) by (eapply ok_trans; [by eapply ok_act|]; done).
    destruct a1; [|simplify_eq; auto]. ok_inv H. simplify_eq. split; auto. eapply ok_trans; [eassumption|]. eapply ok_deact. exact E1.
  - intros c id k IH caught s o s' W H. wfold W.  cbn [eval] in H. ok_inv H. apply IH in H as [? ?]; auto. split; auto. eapply ok_trans; [by eapply ok_unl|]. done.
  - intros c id hs IH caught s o s' W H. wfold W.  cbn [eval] in H. ok_inv H. ok_inv H. ok_inv H. eapply IH in H; eauto. done.
  - intros caught c ei d s o s' _ Hd H. cbn [evalH] in H. eauto.
  - intros args w b IHb rest IH caught c ei d s o s' W Hd H. wfold W. destruct W as [W1 W2]. cbn [evalH] in H. ok_inv H. destruct a.
    + ok_inv H. destruct (IHb _ _ _ _ _ (W1 _) H) as [? ?]. split; auto. eapply ok_trans; [|exact H1]. destruct s. eapply ok_set_all. exact E0.
    + exact (IH _ _ _ _ _ _ _ W2 Hd H).
  - intros hs IH rest IHr caught c ei d s o s' W Hd H. wfold W. destruct W as [W1 W2]. cbn [evalH] in H. refine (IH _ _ _ _ _ _ _ W1 _ H).
    intros. eapply IHr; eauto.
Qed.
End glob.

(** ** The library's storage *)
Section pm.
Context (G : cfg).

Lemma set_simpl_ctxs m : forall h, ctxs (set_hp h m) = ctxs m.
Proof. done. Qed.

Lemma slot_activate_ctxs a T m m' : slot_activate a T m = Ok m' -> ctxs m' = ctxs m.
Proof. unfold slot_activate. intros H. ok_inv H. by simplify_eq. Qed.
Lemma slot_deactivate_ctxs a T m m' : slot_deactivate a T m = Ok m' -> ctxs m' = ctxs m.
Proof. unfold slot_deactivate. intros H. repeat ok_inv H. by simplify_eq. Qed.
Lemma slot_free_ctxs a T m m' : slot_free G a T m = Ok m' -> ctxs m' = ctxs m.
Proof. unfold slot_free. intros H. repeat ok_inv H. by simplify_eq. Qed.
Lemma slot_load_ctxs a id v m m' : slot_load G a id v m = Ok m' -> ctxs m' = ctxs m.
Proof. unfold slot_load. intros H. repeat ok_inv H. by simplify_eq. Qed.
Lemma slot_reset_ctxs a m m' : slot_reset a m = Ok m' -> ctxs m' = ctxs m.
Proof. unfold slot_reset. intros H. repeat ok_inv H. by simplify_eq. Qed.
Lemma for_nodes_ctxs f l : (forall T n m m', f T n m = Ok m' -> ctxs m' = ctxs m) -> forall m m', for_nodes f l m = Ok m' -> ctxs m' = ctxs m.
Proof.
  intros Hf. induction l as [|[T n] l IH]; simpl; intros m m' H; [by simplify_eq|]. ok_inv H. rewrite (IH _ _ H). by eapply Hf.
Qed.
Lemma for_tup_ctxs f l : (forall t m m', f t m = Ok m' -> ctxs m' = ctxs m) -> forall m m', for_tup f l m = Ok m' -> ctxs m' = ctxs m.
Proof.
  intros Hf. induction l as [|t l IH]; simpl; intros m m' H; [by simplify_eq|]. ok_inv H. rewrite (IH _ _ H). by eapply Hf.
Qed.
Lemma dslot_activate_ctxs c m m' : dslot_activate c m = Ok m' -> ctxs m' = ctxs m.
Proof. unfold dslot_activate. intros H. ok_inv H. by simplify_eq. Qed.
Lemma dslot_deactivate_ctxs c m m' : dslot_deactivate c m = Ok m' -> ctxs m' = ctxs m.
Proof.
  unfold dslot_deactivate. intros H. ok_inv H. ok_inv H. simplify_eq. simpl. destruct (d_key a =? 0); [by simplify_eq|].
  eapply for_nodes_ctxs; [|exact E0]. intros *. apply slot_deactivate_ctxs.
Qed.
Lemma dslot_reset_ctxs c m m' : dslot_reset G c m = Ok m' -> ctxs m' = ctxs m.
Proof.
  unfold dslot_reset. intros H. ok_inv H. ok_inv H. simplify_eq. simpl. destruct (d_key a =? 0); [by simplify_eq|].
  eapply for_nodes_ctxs; [|exact E0]. intros *. apply slot_free_ctxs.
Qed.
Lemma dslot_load_ctxs c id m m' : dslot_load G c id m = Ok m' -> ctxs m' = ctxs m.
Proof. unfold dslot_load. intros H. ok_inv H. ok_inv H. ok_inv H. simplify_eq. simpl. by eapply dslot_reset_ctxs. Qed.
Lemma dslot_free_ctxs c m m' : dslot_free G c m = Ok m' -> ctxs m' = ctxs m.
Proof. unfold dslot_free. intros H. ok_inv H. ok_inv H. ok_inv H. simplify_eq. simpl. by eapply dslot_reset_ctxs. Qed.
Lemma da_load_ctxs c id T v m m' : da_load G c id T v m = Ok m' -> ctxs m' = ctxs m.
Proof. unfold da_load. intros H. ok_inv H. ok_inv H. ok_inv H. ok_inv H. by apply slot_activate_ctxs in H. Qed.
Lemma dyn_load_ctxs id T v m m' : dyn_load G id T v m = Ok m' -> ctxs m' = ctxs m.
Proof.
  unfold dyn_load. destruct (tlsd m); [|intros; by simplify_eq]. intros H. ok_inv H. destruct (negb _); [by eapply da_load_ctxs|].
  ok_inv H. apply da_load_ctxs in H. by rewrite H; eapply dslot_load_ctxs.
Qed.
Lemma dyn_accumulate_ctxs id T tag f m g m' g' : dyn_accumulate G id T tag f m g = Ok (m', g') ->
  ctxs m' = ctxs m /\ (g' = g \/ g' = emit (EvAcc tag) g).
Proof.
  unfold dyn_accumulate. destruct (tlsd m); [|intros; simplify_eq; auto]. intros H. ok_inv H. ok_inv H. ok_inv H. simplify_eq.
  split; auto. apply da_load_ctxs in E1. rewrite E1. destruct (d_key a =? id); [by simplify_eq|]. by eapply dslot_load_ctxs.
Qed.
Lemma mload_ctxs o id it m g m' g' : mload G o id it m g = Ok (m', g') -> ctxs m' = ctxs m /\ (g' = g \/ exists e, g' = emit e g).
Proof.
  destruct it as [T v|T tag gf|T tag f|tag]; simpl.
  - intros H. ok_inv H. simplify_eq. split; auto. unfold load_slot in E. destruct (tls m !! T).
    + ok_inv E. destruct (_ || _); [by eapply slot_load_ctxs|by simplify_eq].
    + destruct (g_capture G); [by eapply dyn_load_ctxs|by simplify_eq].
  - unfold load_slot_deferred. destruct (tls m !! T); intros H.
    + ok_inv H. destruct (_ || _); [|simplify_eq; auto]. ok_inv H. simplify_eq. split; [by eapply slot_load_ctxs|eauto].
    + destruct (g_capture G); [|simplify_eq; auto]. ok_inv H. simplify_eq. split; [by eapply dyn_load_ctxs|eauto].
  - unfold load_slot_accumulate. destruct (tls m !! T); intros H.
    + ok_inv H. ok_inv H. simplify_eq. split; [by eapply slot_load_ctxs|eauto].
    + destruct (g_capture G); [|simplify_eq; auto]. apply dyn_accumulate_ctxs in H as [? [->| ->]]; eauto.
  - intros. simplify_eq. eauto.
Qed.
Lemma unload_to_ctxs id T v m b m' : unload_to G id T v m = Ok (b, m') -> ctxs m' = ctxs m.
Proof.
  unfold unload_to. destruct (tls m !! T); intros H.
  - ok_inv H. destruct (negb _); [|by simplify_eq]. ok_inv H. simplify_eq. by eapply slot_load_ctxs.
  - destruct (g_capture G); [|by simplify_eq]. ok_inv H. simplify_eq. by eapply dyn_load_ctxs.
Qed.
Lemma slot_unload_ctxs a T id m m' : slot_unload G a T id m = Ok m' -> ctxs m' = ctxs m.
Proof.
  unfold slot_unload. intros H. ok_inv H. ok_inv H. destruct (negb (e_key a1 =? id)); [by simplify_eq|]. destruct (_ && _); [done|].
  ok_inv H. destruct a2 as [[] m1]; simpl in H.
  - apply slot_reset_ctxs in H. rewrite H. by eapply unload_to_ctxs.
  - simplify_eq. by eapply unload_to_ctxs.
Qed.
Lemma dslot_unload_ctxs c id m g m' g' : dslot_unload G c id m g = Ok (m', g') -> ctxs m' = ctxs m /\ (g' = g \/ g' = set_cur id g).
Proof.
  unfold dslot_unload. intros H. ok_inv H. ok_inv H. destruct (d_key a0 =? 0); [simplify_eq; auto|]. ok_inv H. ok_inv H. simplify_eq.
  split; auto. apply for_nodes_ctxs in E1, E2; [by rewrite E2, E1|intros *; apply slot_free_ctxs|intros *; apply slot_unload_ctxs].
Qed.
Lemma mcap_unload_ctxs id l m g m' g' : mcap_unload G id l m g = Ok (m', g') -> ctxs m' = ctxs m /\ g' = set_cur id g.
Proof.
  unfold mcap_unload. intros H. ok_inv H. simplify_eq. split; auto. revert m m' E. induction l as [|[T [k v]] l IH]; simpl; intros m m' H; [by simplify_eq|].
  ok_inv H. ok_inv H. rewrite (IH _ _ H). destruct (negb (k =? id)); [by simplify_eq|]. ok_inv E0. destruct a1. simplify_eq. by eapply unload_to_ctxs.
Qed.
Lemma new_slots_ctxs c tup : forall m, ctxs (new_slots G c tup m) = ctxs m.
Proof. induction tup as [|[T|] tup IH]; simpl; intros; auto; by rewrite IH. Qed.
Lemma take_nodes_ctxs l : forall m rm, take_nodes l m = Ok rm -> ctxs (snd rm) = ctxs m.
Proof.
  induction l as [|[T n] l IH]; simpl; intros m rm H; [by simplify_eq|]. ok_inv H. ok_inv H. simplify_eq. simpl. by rewrite (IH _ _ E0).
Qed.
Lemma mextract_ctxs c id b m l m' : mextract G c id b m = Ok (l, m') -> ctxs m' = ctxs m.
Proof.
  unfold mextract. intros H. ok_inv H. ok_inv H. ok_inv H. ok_inv H. ok_inv H. ok_inv H. simplify_eq. simpl.
  rewrite (take_nodes_ctxs _ _ _ E4). destruct (d_key a =? id); [by simplify_eq|]. by eapply dslot_load_ctxs.
Qed.
Lemma tup_unload_ctxs c id tup : forall m g m' g', tup_unload G c id tup m g = Ok (m', g') ->
  ctxs m' = ctxs m /\ (g' = g \/ SDA ∈ tup /\ g' = set_cur id g).
Proof.
  induction tup as [|t tup IH]; simpl; intros m g m' g' H; [by simplify_eq; auto|]. ok_inv H. ok_inv H. destruct a0 as [m1 g1].
  apply IH in H as [H1 H2]. simpl in H1, H2. destruct t as [T|].
  - ok_inv E0. simplify_eq. apply slot_unload_ctxs in E1. rewrite H1, E1. split; auto. destruct H2 as [->|[? ->]]; auto. right. split; auto. by right.
  - apply dslot_unload_ctxs in E0 as [E0 Hg]. rewrite H1, E0. split; auto. destruct H2 as [->|[? ->]], Hg as [->| ->]; auto; right; split; auto; by left.
Qed.
Lemma sty_activate_ctxs c t m m' : sty_activate c t m = Ok m' -> ctxs m' = ctxs m.
Proof. destruct t; simpl; [apply slot_activate_ctxs|apply dslot_activate_ctxs]. Qed.
Lemma sty_deactivate_ctxs c t m m' : sty_deactivate c t m = Ok m' -> ctxs m' = ctxs m.
Proof. destruct t; simpl; [apply slot_deactivate_ctxs|apply dslot_deactivate_ctxs]. Qed.
Lemma sty_free_ctxs c t m m' : sty_free G c t m = Ok m' -> ctxs m' = ctxs m.
Proof. destruct t; simpl; [apply slot_free_ctxs|apply dslot_free_ctxs]. Qed.

(** No context collects, unless unloading such contexts is allowed. *)
Definition no_coll (F : feat) (m : mem) : Prop := forall c k, ctxs m !! c = Some k -> tup_in F (k_tup k).
Lemma no_coll_ext F m m' : ctxs m' = ctxs m -> no_coll F m -> no_coll F m'.
Proof. intros E H c k. rewrite E. apply H. Qed.
Lemma no_coll_upd F m m' c k b : ctxs m' = <[c := CCtx (k_tup k) b]> (ctxs m) -> ctxs m !! c = Some k -> no_coll F m -> no_coll F m'.
Proof.
  intros E Hk H c' k'. rewrite E. destruct (decide (c' = c)) as [->|].
  - rewrite lookup_insert. intros. simplify_eq. simpl. eauto.
  - rewrite lookup_insert_ne by done. eauto.
Qed.
Lemma no_coll_del F m m' c : ctxs m' = delete c (ctxs m) -> no_coll F m -> no_coll F m'.
Proof. intros E H c' k'. rewrite E. intros [? ?]%lookup_delete_Some. eauto. Qed.
Lemma deref_ok {A} (o : option A) a : deref o = Ok a -> o = Some a.
Proof. destruct o; simpl; congruence. Qed.

Lemma pmach_inv F : mach_inv G (pmach G) F (no_coll F).
Proof.
  split; cbn [mst m_load m_capunload m_new m_act m_deact m_destroy m_drop m_unload m_extract pmach].
  - intros * H HI. apply mload_ctxs in H as [E [->|[e ->]]]; split; try by eapply no_coll_ext.
    + exists []. split; [constructor|done].
    + exists [LEv e]. split; auto. apply Forall_singleton. eauto.
  - intros * H HI. apply mcap_unload_ctxs in H as [E ->]. split; [by eapply no_coll_ext|auto].
  - intros * H Ht HI. unfold mnew in H. simplify_eq. intros c k. cbn [ctxs set_ctxs]. destruct (decide (c = nc m)) as [->|].
    + rewrite lookup_insert. intros. by simplify_eq.
    + rewrite lookup_insert_ne by done. eauto.
  - intros * H HI. unfold mact in H. ok_inv H. ok_inv H. ok_inv H. simplify_eq. apply deref_ok in E.
    eapply no_coll_upd; [|exact E|exact HI]. simpl. f_equal. eapply for_tup_ctxs; [|exact E1]. intros *. apply sty_activate_ctxs.
  - intros * H HI. unfold mdeact in H. ok_inv H. ok_inv H. ok_inv H. simplify_eq. apply deref_ok in E.
    eapply no_coll_upd; [|exact E|exact HI]. simpl. f_equal. eapply for_tup_ctxs; [|exact E1]. intros *. apply sty_deactivate_ctxs.
  - intros * H HI. unfold mdestroy in H. ok_inv H. ok_inv H. ok_inv H. simplify_eq.
    eapply no_coll_del; [|exact HI]. simpl. f_equal. eapply for_tup_ctxs; [|exact E1]. intros *. apply sty_free_ctxs.
  - intros * H HI. unfold mdrop in H. ok_inv H. ok_inv H. simplify_eq.
    eapply no_coll_del; [|exact HI]. simpl. f_equal. eapply for_tup_ctxs; [|exact E0]. intros *. apply sty_free_ctxs.
  - intros * H HI. unfold munload in H. ok_inv H. ok_inv H. apply tup_unload_ctxs in H as [Hc Hg]. split; [by eapply no_coll_ext|].
    destruct Hg as [->|[Hin ->]]; auto. right. split; auto. apply deref_ok in E. destruct (HI _ _ E) as [|Hn]; auto.
    exfalso. apply Hn. by apply elem_of_reverse, elem_of_list_In; rewrite rev_alt in Hin; apply elem_of_list_In.
  - intros * H HI. apply mextract_ctxs in H. by eapply no_coll_ext.
  - intros * H HI. eapply no_coll_ext; [|exact HI]. change (mset c T id v m = Ok m') in H. unfold mset in H. ok_inv H. case_bool_decide; [|by simplify_eq]. ok_inv H.
    destruct (_ && _); by simplify_eq.
Qed.
Lemma no_coll_all m : no_coll Fall m.
Proof. intros ? ? _. by left. Qed.

(** Every run of the library is a sequence of such steps. *)
Theorem lib_glob F caught p m g o m' g' : within G F p -> no_coll F m -> lib_run G caught p m g o m' g' ->
  exists l, Forall (lab_in F) l /\ g' = gplay G g l.
Proof.
  intros W HI H. pose proof (proj1 (eval_glob G (pmach G) F (no_coll F) (pmach_inv F)) p caught (m, g) o (m', g') W H) as [_ Hs].
  destruct (Hs HI) as [_ Hg]. exact Hg.
Qed.
Lemma lib_glob_all caught p m g o m' g' : lib_run G caught p m g o m' g' -> exists l, g' = gplay G g l.
Proof. intros H. destruct (lib_glob Fall _ _ _ _ _ _ _ (proj1 (within_all G) p) (no_coll_all m) H) as (l & _ & ?). eauto. Qed.
Lemma lib_no_coll F caught p m g o m' g' : within G F p -> no_coll F m -> lib_run G caught p m g o m' g' -> no_coll F m' /\ out_in F o.
Proof.
  intros W HI H. pose proof (proj1 (eval_glob G (pmach G) F (no_coll F) (pmach_inv F)) p caught (m, g) o (m', g') W H) as [Ho Hs].
  destruct (Hs HI) as [? Hg]. split; auto.
Qed.
End pm.
