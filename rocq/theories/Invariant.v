(** Invariants of the storage are invariants of programs. *)
From Verif Require Export NoExcept.
Open Scope Z_scope.

Section inv.
Context (G : cfg) (M : machine) {X : Type} (ok : list sty -> Prop) (I : X -> mst M -> Prop).
Notation st := (st M).

(** What is required of the operations. The index x may change when a context is created, and changes back when it is destroyed;
    ok: the types of contexts which are created. *)
Record kept : Prop := Kept {
  k_load : forall x b id it m g m' g', id <> 0 -> I x m -> m_load M b id it m g = Ok (m', g') -> I x m';
  k_capunload : forall x id l m g m' g', id <> 0 -> I x m -> m_capunload M id l m g = Ok (m', g') -> I x m';
  k_new : forall x tup m c m', ok tup -> I x m -> m_new M tup m = (c, m') ->
    exists y, I y m' /\ (forall m1 m2, I y m1 -> m_destroy M c m1 = Ok m2 -> I x m2) /\ (forall m1 m2, I y m1 -> m_drop M c m1 = Ok m2 -> I x m2);
  k_acti : forall x c m m', I x m -> m_act M c m = Ok m' -> I x m';
  k_deact : forall x c m m', I x m -> m_deact M c m = Ok m' -> I x m';
  k_unload : forall x c id m g m' g', I x m -> m_unload M c id m g = Ok (m', g') -> I x m';
  k_set : forall x c T id v m m', I x m -> m_set M c T id v m = Ok m' -> I x m';
  k_extract : forall x c id b m l m', I x m -> m_extract M c id b m = Ok (l, m') -> I x m';
  k_sup : forall n, g_sup G n <> 0 }.
Context (K : kept).

Definition kp {A} (p : A -> mst M) (x : X) (r : res A) : Prop := forall a, r = Ok a -> I x (p a).
Definition of_s (s : st) : mst M := fst s.
Definition of_os {A} (x : A * st) : mst M := fst (snd x).
Definition of_ri (i : (einfo * ret * st) + (exn * st)) : mst M := match i with inl (_, s) => fst s | inr (_, s) => fst s end.

Lemma kp_bind {A B} (p : A -> mst M) (q : B -> mst M) x y (r : res A) (k : A -> res B) :
  kp p x r -> (forall a, I x (p a) -> kp q y (k a)) -> kp q y (rbind r k).
Proof. intros H1 H2 b H. destruct r as [a|e]; [|done]. exact (H2 a (H1 a eq_refl) b H). Qed.
Lemma kp_ok {A} (p : A -> mst M) x a : I x (p a) -> kp p x (Ok a).
Proof. by intros H b [= <-]. Qed.
Lemma kp_fail {A} (p : A -> mst M) x e : kp p x (Fail e).
Proof. by intros b. Qed.
(** what is computed without changing the state *)
Lemma kp_pure {A B} (q : B -> mst M) y (r : res A) (k : A -> res B) : (forall a, kp q y (k a)) -> kp q y (rbind r k).
Proof. intros H b Hb. destruct r as [a|e]; [|done]. exact (H a b Hb). Qed.

Lemma mk_nz id : mk id <> 0.
Proof. unfold mk. intros H. apply (f_equal (fun z => Z.testbit z 0)) in H. rewrite Z.lor_spec, Z.bits_0 in H. by rewrite orb_true_r in H. Qed.

Lemma kp_on_mem x f s : I x (fst s) -> (forall m m', I x m -> f m = Ok m' -> I x m') -> kp of_s x (on_mem M f s).
Proof. intros Hs Hf s1 H. unfold on_mem in H. destruct (f (fst s)) as [m|] eqn:E; [|done]. injection H as <-. exact (Hf _ _ Hs E). Qed.
Lemma kp_load_items x b id its : id <> 0 -> forall s, I x (fst s) -> kp of_s x (load_items M b id its s).
Proof.
  intros Hid. induction its as [|it its IH]; intros s Hs; [by apply kp_ok|]. cbn [load_items]. apply (kp_bind fst _ x x); [|intros; by apply IH].
  intros [m' g'] E. exact (k_load K _ _ _ _ _ _ _ _ Hid Hs E).
Qed.
Lemma kp_id_load x id its s : I x (fst s) -> kp of_s x (id_load M id its s).
Proof. intros Hs. unfold id_load. destruct (Z.eqb_spec id 0); [by apply kp_ok|]. by apply kp_load_items. Qed.
Lemma kp_import x cat v s : I x (fst s) -> kp of_os x (import_ec G M cat v s).
Proof.
  intros Hs. unfold import_ec. destruct (v =? 0); [by apply kp_ok|]. destruct (cat =? LEAFCAT)%nat; [apply kp_pure; intros; by apply kp_ok|].
  unfold gnew. apply (kp_bind fst _ x x); [|intros; by apply kp_ok]. intros [m' g'] E. exact (k_load K _ _ _ _ _ _ _ _ (k_sup K _) Hs E).
Qed.
Lemma kp_err_id x r s : I x (fst s) -> kp of_os x (err_id_of G M r s).
Proof. intros Hs. destruct r; try (by apply kp_ok). by apply kp_import. Qed.
Lemma kp_capunload x id l s : I x (fst s) -> kp of_s x (m_capunload M (mk id) l (fst s) (snd s)).
Proof. intros Hs [m' g'] E. exact (k_capunload K _ _ _ _ _ _ _ (mk_nz id) Hs E). Qed.
Lemma kp_unload_ret x r s : I x (fst s) -> kp of_os x (unload_ret M r s).
Proof. intros Hs. destruct r; try (by apply kp_ok). cbn [unload_ret]. apply (kp_bind of_s _ x x); [by apply kp_capunload|]. intros s1 H1. by apply kp_ok. Qed.
Lemma kp_unload x c id s : I x (fst s) -> kp of_s x (m_unload M c id (fst s) (snd s)).
Proof. intros Hs [m' g'] E. exact (k_unload K _ _ _ _ _ _ _ Hs E). Qed.
Lemma kp_act x c s : I x (fst s) -> kp of_s x (on_mem M (m_act M c) s).
Proof. intros Hs. apply kp_on_mem; [done|]. intros m m'. apply (k_acti K). Qed.
Lemma kp_deact x c s : I x (fst s) -> kp of_s x (on_mem M (m_deact M c) s).
Proof. intros Hs. apply kp_on_mem; [done|]. intros m m'. apply (k_deact K). Qed.
Lemma kp_exn_info x c e s : I x (fst s) -> kp of_os x (exn_info M c e s).
Proof.
  intros Hs. unfold exn_info. apply (kp_bind of_s _ x x); [by apply kp_deact|]. intros s1 H1. destruct (catch_info _ _) as [[id ex] g].
  apply kp_pure. intros. by apply kp_ok.
Qed.
Lemma kp_res_info x c r s : I x (fst s) -> kp of_ri x (res_info G M c r s).
Proof.
  intros Hs. unfold res_info. apply (kp_bind of_os _ x x); [by apply kp_unload_ret|]. intros [[r1|e] s1] H1; [|by apply kp_ok].
  apply (kp_bind of_os _ x x); [by apply kp_err_id|]. intros [i s2] H2. apply (kp_bind of_s _ x x); [by apply kp_deact|]. intros s3 H3. apply kp_pure. intros. by apply kp_ok.
Qed.
Lemma kp_set_all x c id l : forall m, I x m -> kp (fun m => m) x (set_all M c id l m).
Proof.
  induction l as [|[T v] l IH]; intros m Hm; [by apply kp_ok|]. cbn [set_all]. apply (kp_bind (fun m => m) _ x x); [|intros; by apply IH].
  intros m' E. exact (k_set K _ _ _ _ _ _ _ Hm E).
Qed.
Lemma kp_unload_rethrow x c id e s : I x (fst s) -> kp of_os x (unload_rethrow M c id e s).
Proof. intros Hs. apply (kp_bind of_s _ x x); [by apply kp_unload|]. intros. by apply kp_ok. Qed.
Lemma kp_e2r x cls e s : I x (fst s) -> kp of_os x (e2r G M cls e s).
Proof. intros Hs. unfold e2r, gnew. apply (kp_bind of_s _ x x); [by apply kp_id_load|]. intros. by apply kp_ok. Qed.

(** All contexts a program creates have types for which ok holds. *)
Fixpoint creates (p : prog) : Prop :=
  match p with
  | PRet _ | PThrow _ _ _ | PThrowX _ | PRethrow => True
  | PBind p k => creates p /\ forall r, creates (k r)
  | PEmit _ k | PLoad _ _ k | PCtxUnload _ _ k => creates k
  | PNewError _ k | PCurErr k | PMonitor k | PCheck _ k | PAssigned _ k | PValue _ k | PErrId _ k | PImport _ _ k => forall z, creates (k z)
  | PCatch p h => creates p /\ forall x, creates (h x)
  | POnError _ p | PE2R _ p | PAct _ p => creates p
  | PTHA p hs | PTHS p hs | PTC p hs => ok (deduce G hs) /\ creates p /\ createsH hs
  | PCapture _ p => ok [SDA] /\ creates p
  | PUnload _ k => forall r, creates (k r)
  | PCtx tup k => ok (deduce_list G tup) /\ forall c, creates (k c)
  | PCtxHandle _ _ hs => createsH hs
  end
with createsH (hs : handlers) : Prop :=
  match hs with
  | HNil => True
  | HMut _ _ b rest => (forall l, creates (b l)) /\ createsH rest
  | HTup hs' rest => createsH hs' /\ createsH rest
  end.
Lemma creates_all : (forall tup, ok tup) -> (forall p, creates p) /\ (forall hs, createsH hs).
Proof. intros H. apply prog_handlers_ind; simpl; auto. Qed.

(** The end of the scope of context c takes index y back to x. *)
Definition back (c : cid) (y x : X) : Prop :=
  (forall m1 m2, I y m1 -> m_destroy M c m1 = Ok m2 -> I x m2) /\ (forall m1 m2, I y m1 -> m_drop M c m1 = Ok m2 -> I x m2).
Lemma kp_leave x y c o s : back c y x -> I y (fst s) -> kp of_os x (leave M c o s).
Proof.
  intros [Hb _] Hs [o' s'] H. unfold leave, on_mem in H. destruct (m_destroy M c (fst s)) as [m|] eqn:E; [|done]. injection H as <- <-. exact (Hb _ _ Hs E).
Qed.
Lemma kp_deact_leave x y c o s : back c y x -> I y (fst s) -> kp of_os x (deact_leave M c o s).
Proof. intros Hb Hs. unfold deact_leave. apply (kp_bind of_s _ y x); [by apply kp_deact|]. intros. by apply (kp_leave x y). Qed.
Lemma kp_ths_end x y c o s : back c y x -> I y (fst s) -> kp of_os x (ths_end G M c o s).
Proof.
  intros Hb Hs. destruct o as [r|e]; [|by apply (kp_leave x y)]. cbn [ths_end]. destruct (is_val r); [by apply (kp_leave x y)|].
  apply (kp_bind of_os _ y x); [by apply kp_err_id|]. intros [i s1] H1. apply (kp_bind of_s _ y x); [by apply kp_unload|]. intros. by apply (kp_leave x y).
Qed.
Lemma kp_tha_end x y c o s : back c y x -> I y (fst s) -> kp of_os x (tha_end M c o s).
Proof. intros Hb Hs. destruct o as [r|e]; [|by apply (kp_leave x y)]. cbn [tha_end]. destruct (is_val r); [by apply (kp_leave x y)|apply kp_fail]. Qed.

Theorem kept_eval :
  (forall p, creates p -> forall caught s x, I x (fst s) -> kp of_os x (eval G M caught p s)) /\
  (forall hs, createsH hs -> forall caught c ei d s x, I x (fst s) -> (forall s, I x (fst s) -> kp of_os x (d s)) -> kp of_os x (evalH G M caught hs c ei d s)).
Proof.
  apply prog_handlers_ind.
  - intros r Hp caught s x Hs. by apply kp_ok.
  - intros p IH k IHk [Hp Hk] caught s x Hs. cbn [eval]. apply (kp_bind of_os _ x x); [by apply IH|]. intros [[r|e] s1] H1; [by apply IHk|by apply kp_ok].
  - intros z k IH Hp caught s x Hs. cbn [eval]. by apply IH.
  - intros its k IH Hp caught s x Hs. cbn [eval]. unfold gnew. apply (kp_bind of_s _ x x); [by apply kp_id_load|]. intros. by apply IH.
  - intros id its k IH Hp caught s x Hs. cbn [eval]. apply (kp_bind of_s _ x x); [by apply kp_id_load|]. intros. by apply IH.
  - intros k IH Hp caught s x Hs. cbn [eval]. by apply IH.
  - intros oi e its Hp caught s x Hs. cbn [eval]. destruct oi as [id|]; [|unfold gnew]; (apply (kp_bind of_s _ x x); [by apply kp_id_load|]; intros; by apply kp_ok).
  - intros e Hp caught s x Hs. by apply kp_ok.
  - intros Hp caught s x Hs. cbn [eval]. destruct caught; [by apply kp_ok|apply kp_fail].
  - intros p IH h IHh [Hp Hk] caught s x Hs. cbn [eval]. apply (kp_bind of_os _ x x); [by apply IH|]. intros [[r|e] s1] H1; [by apply kp_ok|].
    apply (kp_bind of_os _ x x); [by apply IHh|]. intros [o s2] H2. by apply kp_ok.
  - intros its p IH Hp caught s x Hs. cbn [eval]. apply (kp_bind of_os _ x x); [by apply IH|]. intros [o s1] H1.
    destruct (if negb _ then _ else _) as [id g]. destruct (Z.eqb_spec id 0); [by apply kp_ok|].
    apply (kp_bind of_s _ x x); [by apply kp_load_items|]. intros. by apply kp_ok.
  - intros k IH Hp caught s x Hs. cbn [eval]. by apply IH.
  - intros m k IH Hp caught s x Hs. cbn [eval]. by apply IH.
  - intros m k IH Hp caught s x Hs. cbn [eval]. destruct (negb _); [by apply IH|]. unfold gnew. by apply IH.
  - (* PTHA *) intros p IH hs IHh (Ho & Hp & Hk) caught s x Hs. cbn [eval]. destruct (m_new M (deduce G hs) (fst s)) as [c m1] eqn:En.
    destruct (k_new K _ _ _ _ _ Ho Hs En) as (y & Hy & Hb). apply (kp_bind of_s _ y x); [by apply kp_act|]. intros s1 H1.
    apply (kp_bind of_os _ y x); [by apply IH|]. intros [o2 s2] H2.
    apply (kp_bind of_os _ y x). { destruct o2; [by apply kp_unload_ret|by apply kp_ok]. }
    intros [[r|e] s3] H3.
    + destruct (is_val r); [by apply (kp_deact_leave x y)|]. apply (kp_bind of_ri _ y x); [by apply kp_res_info|]. intros [[[ei r1] s4]|[e s4]] H4; [|by apply (kp_deact_leave x y)].
      apply (kp_bind of_os _ y x). { apply IHh; [done|done|]. intros. apply kp_fail. } intros. by apply (kp_tha_end x y).
    + apply (kp_bind of_os _ y x); [by apply kp_exn_info|]. intros [ei s4] H4.
      apply (kp_bind of_os _ y x). { apply IHh; [done|done|]. intros. by apply kp_unload_rethrow. } intros. by apply (kp_tha_end x y).
  - (* PTHS *) intros p IH hs IHh (Ho & Hp & Hk) caught s x Hs. cbn [eval]. destruct (m_new M (deduce G hs) (fst s)) as [c m1] eqn:En.
    destruct (k_new K _ _ _ _ _ Ho Hs En) as (y & Hy & Hb). apply (kp_bind of_s _ y x); [by apply kp_act|]. intros s1 H1.
    apply (kp_bind of_os _ y x); [by apply IH|]. intros [o2 s2] H2.
    apply (kp_bind of_os _ y x). { destruct o2; [by apply kp_unload_ret|by apply kp_ok]. }
    intros [[r|e] s3] H3.
    + destruct (is_val r); [by apply (kp_deact_leave x y)|]. apply (kp_bind of_ri _ y x); [by apply kp_res_info|]. intros [[[ei r1] s4]|[e s4]] H4; [|by apply (kp_deact_leave x y)].
      apply (kp_bind of_os _ y x). { apply IHh; [done|done|]. intros. by apply kp_ok. } intros. by apply (kp_ths_end x y).
    + apply (kp_bind of_os _ y x); [by apply kp_exn_info|]. intros [ei s4] H4.
      apply (kp_bind of_os _ y x). { apply IHh; [done|done|]. intros. by apply kp_unload_rethrow. } intros. by apply (kp_ths_end x y).
  - (* PTC *) intros p IH hs IHh (Ho & Hp & Hk) caught s x Hs. cbn [eval]. destruct (m_new M (deduce G hs) (fst s)) as [c m1] eqn:En.
    destruct (k_new K _ _ _ _ _ Ho Hs En) as (y & Hy & Hb). apply (kp_bind of_s _ y x); [by apply kp_act|]. intros s1 H1.
    apply (kp_bind of_os _ y x); [by apply IH|]. intros [[r|e] s2] H2; [by apply (kp_deact_leave x y)|].
    apply (kp_bind of_os _ y x); [by apply kp_exn_info|]. intros [ei s4] H4.
    apply (kp_bind of_os _ y x). { apply IHh; [done|done|]. intros. by apply kp_unload_rethrow. } intros. by apply (kp_leave x y).
  - (* PCapture *) intros b p IH [Ho Hp] caught s x Hs. cbn [eval]. destruct (negb _); [apply kp_fail|]. destruct (m_new M [SDA] (fst s)) as [c m1] eqn:En.
    destruct (k_new K _ _ _ _ _ Ho Hs En) as (y & Hy & Hb). apply (kp_bind of_s _ y x); [by apply kp_act|]. intros s1 H1.
    apply (kp_bind of_os _ y x); [by apply IH|].
    assert (forall (s2 : st) id b, I y (fst s2) -> kp snd y (m_extract M c id b (fst s2))) as Hx. { intros s2 id b' H2 [l m'] E. exact (k_extract K _ _ _ _ _ _ _ H2 E). }
    intros [[r|e] s2] H2.
    + destruct b.
      * destruct (is_val r); [|apply kp_fail]. intros [o' s'] H. unfold on_mem in H. destruct (m_drop M c (fst s2)) as [m|] eqn:E; [|done]. injection H as <- <-. exact (proj2 Hb _ _ H2 E).
      * destruct r as [z|id|id l ex|cat v]; [by apply (kp_deact_leave x y)| | |apply kp_fail].
        all: apply (kp_bind of_s _ y x); [by apply kp_deact|]; intros s3 H3; apply (kp_bind snd _ y x); [by apply Hx|]; intros; by apply (kp_leave x y).
    + apply (kp_bind of_s _ y x); [by apply kp_deact|]. intros s3 H3. destruct (catch_info _ _) as [[id ex] g]. apply (kp_bind snd _ y x); [by apply Hx|]. intros. by apply (kp_leave x y).
  - intros r k IH Hp caught s x Hs. cbn [eval]. apply (kp_bind of_os _ x x); [by apply kp_unload_ret|]. intros [[r1|e] s1] H1; [by apply IH|by apply kp_ok].
  - intros r k IH Hp caught s x Hs. cbn [eval]. destruct r as [z|id|id l ex|cat v]; [by apply IH| | |apply kp_fail].
    all: apply (kp_bind of_os _ x x); [by apply kp_unload_ret|]; intros [[r1|e] s1] H1; by apply kp_ok.
  - intros r k IH Hp caught s x Hs. cbn [eval]. apply (kp_bind of_os _ x x); [by apply kp_err_id|]. intros [i s1] H1. by apply IH.
  - intros cls p IH Hp caught s x Hs. cbn [eval]. apply (kp_bind of_os _ x x); [by apply IH|]. intros [[r|e] s1] H1; [by apply kp_ok|by apply kp_e2r].
  - intros cat v k IH Hp caught s x Hs. cbn [eval]. apply (kp_bind of_os _ x x); [by apply kp_import|]. intros [i s1] H1. by apply IH.
  - intros tup k IH [Ho Hp] caught s x Hs. cbn [eval]. destruct (m_new M (deduce_list G tup) (fst s)) as [c m1] eqn:En.
    destruct (k_new K _ _ _ _ _ Ho Hs En) as (y & Hy & Hb). apply (kp_bind of_os _ y x); [by apply IH|]. intros. by apply (kp_leave x y).
  - intros c p IH Hp caught s x Hs. cbn [eval]. apply kp_pure. intros []; [by apply IH|]. apply (kp_bind of_s _ x x); [by apply kp_act|]. intros s1 H1.
    apply (kp_bind of_os _ x x); [by apply IH|]. intros [o s2] H2. apply kp_pure. intros []; [|by apply kp_ok].
    apply (kp_bind of_s _ x x); [by apply kp_deact|]. intros. by apply kp_ok.
  - intros c id k IH Hp caught s x Hs. cbn [eval]. apply (kp_bind of_s _ x x); [by apply kp_unload|]. intros. by apply IH.
  - intros c id hs IH Hp caught s x Hs. cbn [eval]. apply kp_pure. intros b. apply kp_pure. intros _. apply kp_pure. intros loc0. apply IH; [done|done|]. intros. apply kp_fail.
  - intros Hp caught c ei d s x Hs Hd. cbn [evalH]. by apply Hd.
  - intros args w b IHb rest IHr [Hp Hk] caught c ei d s x Hs Hd. cbn [evalH]. apply kp_pure. intros [l|]; [|by apply IHr].
    apply (kp_bind (fun m => m) _ x x); [by apply kp_set_all|]. intros. by apply IHb.
  - intros hs IHh rest IHr [Hp Hk] caught c ei d s x Hs Hd. cbn [evalH]. apply IHh; [done|done|]. intros. by apply IHr.
Qed.

(** Builds without exceptions: what a program returns it returns with the invariant (a program that would throw does not return, and nothing is destroyed). *)
Definition kr (x : X) (r : res (out * st)) : Prop := forall v s', r = Ok (ORet v, s') -> I x (fst s').
Lemma kp_kr x r : kp of_os x r -> kr x r.
Proof. intros H v s' E. exact (H _ E). Qed.
Lemma kr_pbind {A} (p : A -> mst M) x y (r : res A) (k : A -> res (out * st)) :
  kp p x r -> (forall a, I x (p a) -> kr y (k a)) -> kr y (rbind r k).
Proof. intros H1 H2 v s' H. destruct r as [a|e]; [|done]. exact (H2 a (H1 a eq_refl) v s' H). Qed.
Lemma kr_pure {A} y (r : res A) (k : A -> res (out * st)) : (forall a, kr y (k a)) -> kr y (rbind r k).
Proof. intros H v s' E. destruct r as [a|e]; [|done]. exact (H a v s' E). Qed.
Lemma kr_bind x y r (k : ret -> st -> res (out * st)) :
  kr x r -> (forall v s, I x (fst s) -> kr y (k v s)) -> kr y (let! os := r in match os with (ORet v, s1) => k v s1 | (OThrow e, s1) => Ok (OThrow e, s1) end).
Proof. intros H1 H2 v s' H. destruct r as [[[v0|e] s0]|]; [|done..]. exact (H2 _ _ (H1 _ _ eq_refl) v s' H). Qed.
Lemma kr_fail x e : kr x (Fail e).
Proof. by intros v s'. Qed.
Lemma kr_throw x e s : kr x (Ok (OThrow e, s)).
Proof. by intros v s'. Qed.
Lemma kr_ret x v s : I x (fst s) -> kr x (Ok (ORet v, s)).
Proof. by intros H v' s' [= _ <-]. Qed.
Lemma kp_unload_retN x r s : I x (fst s) -> kp of_os x (unload_retN M r s).
Proof.
  intros Hs. destruct r as [| |id l [e|]|]; try (by apply kp_ok); [apply kp_fail|]. cbn [unload_retN]. apply (kp_bind of_s _ x x); [by apply kp_capunload|]. intros. by apply kp_ok.
Qed.
Lemma kp_res_infoN x c r s : I x (fst s) -> kp of_os x (res_infoN G M c r s).
Proof.
  intros Hs. unfold res_infoN. apply (kp_bind of_os _ x x); [by apply kp_unload_retN|]. intros [r1 s1] H1.
  apply (kp_bind of_os _ x x); [by apply kp_err_id|]. intros [i s2] H2. apply (kp_bind of_s _ x x); [by apply kp_deact|]. intros s3 H3.
  apply kp_pure. intros. apply kp_pure. intros. apply kp_pure. intros. by apply kp_ok.
Qed.

Theorem kept_evalN :
  (forall p, creates p -> forall s x, I x (fst s) -> kr x (evalN G M p s)) /\
  (forall hs, createsH hs -> forall c ei d s x, I x (fst s) -> (forall s, I x (fst s) -> kr x (d s)) -> kr x (evalHN G M hs c ei d s)).
Proof.
  apply prog_handlers_ind.
  - intros r Hp s x Hs. by apply kr_ret.
  - intros p IH k IHk [Hp Hk] s x Hs. cbn [evalN]. apply (kr_bind x x); [by apply IH|]. intros. by apply IHk.
  - intros z k IH Hp s x Hs. cbn [evalN]. by apply IH.
  - intros its k IH Hp s x Hs. cbn [evalN]. unfold gnew. apply (kr_pbind of_s x x); [by apply kp_id_load|]. intros. by apply IH.
  - intros id its k IH Hp s x Hs. cbn [evalN]. apply (kr_pbind of_s x x); [by apply kp_id_load|]. intros. by apply IH.
  - intros k IH Hp s x Hs. cbn [evalN]. by apply IH.
  - intros oi e its Hp s x Hs. cbn [evalN]. destruct oi as [id|]; [|unfold gnew]; apply kr_pure; intros; apply kr_throw.
  - intros e Hp s x Hs. apply kr_fail.
  - intros Hp s x Hs. apply kr_fail.
  - intros p IH h IHh [Hp Hk] s x Hs. apply kr_fail.
  - intros its p IH Hp s x Hs. cbn [evalN]. intros v s' H. destruct (evalN G M p s) as [[[r|e] s1]|] eqn:E; [|done..]. simpl in H. pose proof (IH Hp _ _ Hs _ _ E) as H1.
    revert H. generalize (if negb (cur (snd s1) =? cur (snd s)) then cur (snd s1) else 0). intros id H. destruct (Z.eqb_spec id 0) as [Hz|Hz]; [by injection H as <- <-|].
    revert v s' H. apply (kr_pbind of_s x x); [by apply kp_load_items|]. intros. by apply kr_ret.
  - intros k IH Hp s x Hs. cbn [evalN]. by apply IH.
  - intros m k IH Hp s x Hs. cbn [evalN]. by apply IH.
  - intros m k IH Hp s x Hs. cbn [evalN]. destruct (negb _); [by apply IH|]. unfold gnew. by apply IH.
  - (* PTHA *) intros p IH hs IHh (Ho & Hp & Hk) s x Hs. cbn [evalN]. destruct (m_new M (deduce G hs) (fst s)) as [c m1] eqn:En.
    destruct (k_new K _ _ _ _ _ Ho Hs En) as (y & Hy & Hb). apply (kr_pbind of_s y x); [by apply kp_act|]. intros s1 H1.
    apply (kr_bind y x); [by apply IH|]. intros r s2 H2. destruct (is_val r); [apply kp_kr; by apply (kp_deact_leave x y)|].
    apply (kr_pbind of_os y x); [by apply kp_res_infoN|]. intros [[ei r1] s3] H3. apply (kr_bind y x).
    { apply IHh; [done|done|]. intros. apply kr_fail. }
    intros r' s4 H4. destruct (is_val r'); [|apply kr_fail]. apply kp_kr. by apply (kp_leave x y).
  - (* PTHS *) intros p IH hs IHh (Ho & Hp & Hk) s x Hs. cbn [evalN]. destruct (m_new M (deduce G hs) (fst s)) as [c m1] eqn:En.
    destruct (k_new K _ _ _ _ _ Ho Hs En) as (y & Hy & Hb). apply (kr_pbind of_s y x); [by apply kp_act|]. intros s1 H1.
    apply (kr_bind y x); [by apply IH|]. intros r s2 H2. destruct (is_val r); [apply kp_kr; by apply (kp_deact_leave x y)|].
    apply (kr_pbind of_os y x); [by apply kp_res_infoN|]. intros [[ei r1] s3] H3. apply (kr_bind y x).
    { apply IHh; [done|done|]. intros. by apply kr_ret. }
    intros r' s4 H4. destruct (is_val r'); [apply kp_kr; by apply (kp_leave x y)|].
    apply (kr_pbind of_os y x); [by apply kp_err_id|]. intros [i s5] H5. apply (kr_pbind of_s y x); [by apply kp_unload|]. intros s6 H6. apply kp_kr. by apply (kp_leave x y).
  - intros p IH hs IHh (Ho & Hp & Hk) s x Hs. cbn [evalN]. by apply IH.
  - (* PCapture *) intros b p IH [Ho Hp] s x Hs. cbn [evalN]. destruct (negb _); [apply kr_fail|]. destruct (m_new M [SDA] (fst s)) as [c m1] eqn:En.
    destruct (k_new K _ _ _ _ _ Ho Hs En) as (y & Hy & Hb). apply (kr_pbind of_s y x); [by apply kp_act|]. intros s1 H1.
    apply (kr_bind y x); [by apply IH|]. intros r s2 H2. destruct b.
    + destruct (is_val r); [|apply kr_fail]. intros v s' H. unfold on_mem in H. destruct (m_drop M c (fst s2)) as [m|] eqn:E; [|done]. injection H as <- <-. exact (proj2 Hb _ _ H2 E).
    + assert (forall (s2 : st) id b, I y (fst s2) -> kp snd y (m_extract M c id b (fst s2))) as Hx. { intros s3 id b' H3 [l m'] E. exact (k_extract K _ _ _ _ _ _ _ H3 E). }
      destruct r as [z|id|id l ex|cat v]; [apply kp_kr; by apply (kp_deact_leave x y)| | |apply kr_fail].
      all: apply (kr_pbind of_s y x); [by apply kp_deact|]; intros s3 H3; apply (kr_pbind snd y x); [by apply Hx|]; intros; apply kp_kr; by apply (kp_leave x y).
  - intros r k IH Hp s x Hs. cbn [evalN]. apply (kr_pbind of_os x x); [by apply kp_unload_retN|]. intros [r1 s1] H1. by apply IH.
  - intros r k IH Hp s x Hs. cbn [evalN]. destruct r as [z|id|id l ex|cat v]; [by apply IH| | |apply kr_fail].
    all: apply kr_pure; intros; apply kr_throw.
  - intros r k IH Hp s x Hs. cbn [evalN]. apply (kr_pbind of_os x x); [by apply kp_err_id|]. intros [i s1] H1. by apply IH.
  - intros cls p IH Hp s x Hs. apply kr_fail.
  - intros cat v k IH Hp s x Hs. cbn [evalN]. apply (kr_pbind of_os x x); [by apply kp_import|]. intros [i s1] H1. by apply IH.
  - intros tup k IH [Ho Hp] s x Hs. cbn [evalN]. destruct (m_new M (deduce_list G tup) (fst s)) as [c m1] eqn:En.
    destruct (k_new K _ _ _ _ _ Ho Hs En) as (y & Hy & Hb). apply (kr_bind y x); [by apply IH|]. intros. apply kp_kr. by apply (kp_leave x y).
  - intros c p IH Hp s x Hs. cbn [evalN]. apply kr_pure. intros []; [by apply IH|]. apply (kr_pbind of_s x x); [by apply kp_act|]. intros s1 H1.
    apply (kr_bind x x); [by apply IH|]. intros r s2 H2. apply kr_pure. intros []; [|by apply kr_ret].
    apply (kr_pbind of_s x x); [by apply kp_deact|]. intros. by apply kr_ret.
  - intros c id k IH Hp s x Hs. cbn [evalN]. apply (kr_pbind of_s x x); [by apply kp_unload|]. intros. by apply IH.
  - intros c id hs IH Hp s x Hs. cbn [evalN]. apply kr_pure. intros b. apply kr_pure. intros _. apply kr_pure. intros loc0. apply IH; [done|done|]. intros. apply kr_fail.
  - intros Hp c ei d s x Hs Hd. cbn [evalHN]. by apply Hd.
  - intros args w b IHb rest IHr [Hp Hk] c ei d s x Hs Hd. cbn [evalHN]. apply kr_pure. intros [l|]; [|by apply IHr].
    apply (kr_pbind (fun m => m) x x); [by apply kp_set_all|]. intros. by apply IHb.
  - intros hs IHh rest IHr [Hp Hk] c ei d s x Hs Hd. cbn [evalHN]. apply IHh; [done|done|]. intros. by apply IHr.
Qed.
End inv.
