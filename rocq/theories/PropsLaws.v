(** C60: different ways to write the same program. *)
From Verif Require Export PropsConv PropsCapture PropsThreads PropsNoExcept.
Open Scope Z_scope.

(** ** Specification: what may be exchanged for what, anywhere in a program. *)

(** All handlers of hs, then those of rest, without the tuple *)
Fixpoint happ (hs rest : handlers) : handlers :=
  match hs with
  | HNil => rest
  | HMut args w b hs' => HMut args w b (happ hs' rest)
  | HTup t hs' => HTup t (happ hs' rest)
  end.
Definition bad_result : xspec := XSpec true [T_STDEX; T_BADRES] 0 None None.

Section rules.
(** Whether the build has exceptions *)
Context (exc : bool).

Inductive law : prog -> prog -> Prop :=
(* new_error(a...) is new_error().load(a...) *)
| law_new its1 its2 k : law (PNewError (its1 ++ its2) k) (PNewError its1 (fun id => PLoad id its2 (k id)))
(* id.load(a..., b...) is id.load(a...).load(b...) *)
| law_load id its1 its2 k : law (PLoad id (its1 ++ its2) k) (PLoad id its1 (PLoad id its2 k))
| law_load_nil id k : law (PLoad id [] k) k
(* throw_exception(x, a...) is throw_exception(new_error(a...), x); with an id, the objects may be loaded first *)
| law_throw x its : law (PThrow None x its) (PNewError its (fun id => PThrow (Some id) x []))
| law_throw_id id x its1 its2 : law (PThrow (Some id) x (its1 ++ its2)) (PLoad id its1 (PThrow (Some id) x its2))
(* value() of an error throws bad_result for it *)
| law_value id k : law (PValue (RErr id) k) (PThrow (Some (mk id)) bad_result [])
(* try { p } catch(...) { throw; } (does not compile without exceptions) *)
| law_rethrow p : exc = true -> law (PCatch p (fun _ => PRethrow)) p
(* BOOST_LEAF_CHECK: of a value; of a function which checks; the last statement *)
| law_check_value z k : law (leaf_check (PRet (RVal z)) k) (k z)
| law_check_check p k1 k2 : law (leaf_check (leaf_check p k1) k2) (leaf_check p (fun z => leaf_check (k1 z) k2))
| law_check_last p : law (leaf_check p (fun z => PRet (RVal z))) (PBind p (fun r => PRet (fwd r)))
(* calling a function which calls another *)
| law_bind p k1 k2 : law (PBind (PBind p k1) k2) (PBind p (fun r => PBind (k1 r) k2))
| law_bind_ret r k : law (PBind (PRet r) k) (k r)
| law_bind_last p : law (PBind p PRet) p.

Inductive lawH : handlers -> handlers -> Prop :=
(* handlers passed in a std::tuple *)
| law_tuple hs rest : lawH (HTup hs rest) (happ hs rest).

Inductive same : prog -> prog -> Prop :=
| same_law p q : law p q -> same p q
| same_refl p : same p p
| same_sym p q : same p q -> same q p
| same_trans p q r : same p q -> same q r -> same p r
| same_bind p p' k k' : same p p' -> (forall r, same (k r) (k' r)) -> same (PBind p k) (PBind p' k')
| same_emit z k k' : same k k' -> same (PEmit z k) (PEmit z k')
| same_new its k k' : (forall id, same (k id) (k' id)) -> same (PNewError its k) (PNewError its k')
| same_load id its k k' : same k k' -> same (PLoad id its k) (PLoad id its k')
| same_cur k k' : (forall id, same (k id) (k' id)) -> same (PCurErr k) (PCurErr k')
| same_catch p p' h h' : same p p' -> (forall x, same (h x) (h' x)) -> same (PCatch p h) (PCatch p' h')
| same_onerr its p p' : same p p' -> same (POnError its p) (POnError its p')
| same_monitor k k' : (forall id, same (k id) (k' id)) -> same (PMonitor k) (PMonitor k')
| same_chk m k k' : (forall id, same (k id) (k' id)) -> same (PCheck m k) (PCheck m k')
| same_assigned m k k' : (forall id, same (k id) (k' id)) -> same (PAssigned m k) (PAssigned m k')
| same_tha p p' hs hs' : same p p' -> sameH hs hs' -> same (PTHA p hs) (PTHA p' hs')
| same_ths p p' hs hs' : same p p' -> sameH hs hs' -> same (PTHS p hs) (PTHS p' hs')
| same_tc p p' hs hs' : same p p' -> sameH hs hs' -> same (PTC p hs) (PTC p' hs')
| same_capture v p p' : same p p' -> same (PCapture v p) (PCapture v p')
| same_unload r k k' : (forall r, same (k r) (k' r)) -> same (PUnload r k) (PUnload r k')
| same_value r k k' : (forall z, same (k z) (k' z)) -> same (PValue r k) (PValue r k')
| same_errid r k k' : (forall z, same (k z) (k' z)) -> same (PErrId r k) (PErrId r k')
| same_e2r cls p p' : same p p' -> same (PE2R cls p) (PE2R cls p')
| same_import c v k k' : (forall z, same (k z) (k' z)) -> same (PImport c v k) (PImport c v k')
| same_ctx tup k k' : (forall c, same (k c) (k' c)) -> same (PCtx tup k) (PCtx tup k')
| same_act c p p' : same p p' -> same (PAct c p) (PAct c p')
| same_cunload c id k k' : same k k' -> same (PCtxUnload c id k) (PCtxUnload c id k')
| same_handle c id hs hs' : sameH hs hs' -> same (PCtxHandle c id hs) (PCtxHandle c id hs')
with sameH : handlers -> handlers -> Prop :=
| sameH_law hs hs' : lawH hs hs' -> sameH hs hs'
| sameH_refl hs : sameH hs hs
| sameH_sym hs hs' : sameH hs hs' -> sameH hs' hs
| sameH_trans h1 h2 h3 : sameH h1 h2 -> sameH h2 h3 -> sameH h1 h3
| sameH_mut args w b b' rest rest' : (forall l, same (b l) (b' l)) -> sameH rest rest' -> sameH (HMut args w b rest) (HMut args w b' rest')
| sameH_tup hs hs' rest rest' : sameH hs hs' -> sameH rest rest' -> sameH (HTup hs rest) (HTup hs' rest').

End rules.

Scheme same_mind := Minimality for same Sort Prop with sameH_mind := Minimality for sameH Sort Prop.
Combined Scheme same_sameH_ind from same_mind, sameH_mind.

(** ** Proof *)
Section laws.
Context (G : cfg) (M : machine).
Notation st := (st M).

Lemma load_items_app e id l1 l2 (s : st) : load_items M e id (l1 ++ l2) s = let! s1 := load_items M e id l1 s in load_items M e id l2 s1.
Proof. revert s. induction l1 as [|it l1 IH]; intros s; [done|]. cbn [app load_items]. destruct (m_load M e id it (fst s) (snd s)); cbn [rbind]; [apply IH|done]. Qed.
Lemma id_load_app id l1 l2 (s : st) : id_load M id (l1 ++ l2) s = let! s1 := id_load M id l1 s in id_load M id l2 s1.
Proof. unfold id_load. destruct (id =? 0); [done|]. apply load_items_app. Qed.
Lemma id_load_nil id (s : st) : id_load M id [] s = Ok s.
Proof. unfold id_load. by destruct (id =? 0). Qed.
Lemma same_exn_refl x : same_exn x (Some x) = true.
Proof. simpl. apply Nat.eqb_refl. Qed.
Lemma fwd_fwd r : fwd (fwd r) = fwd r.
Proof. destruct r; simpl; by rewrite ?mk_mk. Qed.

Lemma evalH_dflt hs : forall caught c ei (d d' : st -> res (out * st)) s, (forall s, d s = d' s) -> evalH G M caught hs c ei d s = evalH G M caught hs c ei d' s.
Proof.
  induction hs as [|args w b rest IH|hs IH1 rest IH2]; intros caught c ei d d' s H; cbn [evalH]; [apply H| |].
  - destruct (args_get G M args c ei (fst s)) as [[l|]|]; cbn [rbind]; [done|by apply IH|done].
  - apply IH1. intros s'. by apply IH2.
Qed.
Lemma evalH_happ hs rest : forall caught c ei (d : st -> res (out * st)) s,
  evalH G M caught (happ hs rest) c ei d s = evalH G M caught hs c ei (evalH G M caught rest c ei d) s.
Proof.
  induction hs as [|args w b hs' IH|hs IH1 hs' IH2]; intros caught c ei d s; cbn [happ evalH]; [done| |].
  - destruct (args_get G M args c ei (fst s)) as [[l|]|]; cbn [rbind]; [done|apply IH|done].
  - apply evalH_dflt. intros s'. apply IH2.
Qed.

Lemma law_ok exc p q : law exc p q -> forall caught s, eval G M caught p s = eval G M caught q s.
Proof.
  destruct 1; intros caught s; unfold leaf_check; cbn [eval].
  - destruct (gnew G (snd s)) as [id g]. rewrite id_load_app. by destruct (id_load M (mk id) its1 (fst s, g)).
  - rewrite id_load_app. by destruct (id_load M id its1 s).
  - by rewrite id_load_nil.
  - destruct (gnew G (snd s)) as [id g]. destruct (id_load M (mk id) its (fst s, g)) as [[m1 g1]|]; cbn [rbind]; [|done]. cbn [fst snd]. by rewrite id_load_nil.
  - destruct s as [m g]. cbn [fst snd]. rewrite id_load_app. destruct (id_load M id its1 (m, g)) as [[m1 g1]|]; done.
  - cbn [unload_ret rbind]. by rewrite id_load_nil; destruct s.
  - destruct (eval G M caught p s) as [[[r|x] [m1 g1]]|]; cbn [rbind]; try done. cbn [fst snd]. unfold release. cbn [held_exn]. by rewrite same_exn_refl, orb_true_r.
  - done.
  - destruct (eval G M caught p s) as [[[r|x] s1]|]; cbn [rbind]; try done. destruct r; cbn [is_val eval fwd rbind]; rewrite ?mk_mk; done.
  - destruct (eval G M caught p s) as [[[r|x] s1]|]; cbn [rbind]; try done. by destruct r.
  - by destruct (eval G M caught p s) as [[[r|x] s1]|]; cbn [rbind].
  - done.
  - by destruct (eval G M caught p s) as [[[r|x] s1]|]; cbn [rbind].
Qed.

Lemma handlers_args_happ hs rest : handlers_args (happ hs rest) = handlers_args hs ++ handlers_args rest.
Proof. induction hs as [|args w b hs' IH|hs IH1 hs' IH2]; cbn [happ handlers_args]; [done| |]; by rewrite ?IH, ?IH2, app_assoc. Qed.

Definition eqp p q := forall caught s, eval G M caught p s = eval G M caught q s.
Definition eqh hs hs' := handlers_args hs = handlers_args hs' /\ forall caught c ei d s, evalH G M caught hs c ei d s = evalH G M caught hs' c ei d s.

Ltac step := match goal with
  | |- rbind ?x _ = rbind ?x _ => destruct x as [?|] eqn:?; cbn [rbind]; [|done]
  | |- context [match ?x with ORet _ => _ | OThrow _ => _ end] => destruct x
  end.

Lemma same_ok exc : (forall p q, same exc p q -> eqp p q) /\ (forall hs hs', sameH exc hs hs' -> eqh hs hs').
Proof.
  apply same_sameH_ind; unfold eqp, eqh; intros; repeat match goal with X : same _ _ _ |- _ => clear X | X : sameH _ _ _ |- _ => clear X | X : forall _, same _ _ _ |- _ => clear X end.
  - by apply (law_ok exc).
  - done.
  - done.
  - by rewrite H0.
  - cbn [eval]. rewrite H0. step. destruct a as [[r|x] s9]; [apply H2|done].
  - cbn [eval]. apply H0.
  - cbn [eval]. destruct (gnew G (snd s)). step. apply H0.
  - cbn [eval]. step. apply H0.
  - cbn [eval]. apply H0.
  - cbn [eval]. rewrite H0. step. destruct a as [[r|x] s9]; [done|]. by rewrite H2.
  - cbn [eval]. by rewrite H0.
  - cbn [eval]. apply H0.
  - cbn [eval]. apply H0.
  - cbn [eval]. destruct (negb _); [apply H0|]. destruct (gnew G (snd s)). apply H0.
  - destruct H2 as [Ea Eh]. cbn [eval]. unfold deduce. rewrite Ea. destruct (m_new M _ (fst s)) as [c m1]. step. rewrite H0. step. step.
    destruct a1 as [[r|x] s8]; [destruct (is_val r); [done|]|]; step.
    + destruct a1 as [[[ei r1] s7]|[x s7]]; [by rewrite Eh|done].
    + by rewrite Eh.
  - destruct H2 as [Ea Eh]. cbn [eval]. unfold deduce. rewrite Ea. destruct (m_new M _ (fst s)) as [c m1]. step. rewrite H0. step. step.
    destruct a1 as [[r|x] s8]; [destruct (is_val r); [done|]|]; step.
    + destruct a1 as [[[ei r1] s7]|[x s7]]; [by rewrite Eh|done].
    + by rewrite Eh.
  - destruct H2 as [Ea Eh]. cbn [eval]. unfold deduce. rewrite Ea. destruct (m_new M _ (fst s)) as [c m1]. step. rewrite H0. step.
    destruct a0 as [[r|x] s8]; [done|]. step. by rewrite Eh.
  - cbn [eval]. destruct (negb _); [done|]. destruct (m_new M _ (fst s)) as [c m1]. step. by rewrite H0.
  - cbn [eval]. step. destruct a as [[r1|x] s9]; [apply H0|done].
  - cbn [eval]. destruct r; try done; apply H0.
  - cbn [eval]. step. apply H0.
  - cbn [eval]. by rewrite H0.
  - cbn [eval]. step. apply H0.
  - cbn [eval]. destruct (m_new M _ (fst s)) as [c m1]. by rewrite H0.
  - cbn [eval]. step. destruct a; [apply H0|]. step. by rewrite H0.
  - cbn [eval]. step. apply H0.
  - destruct H0 as [Ea Eh]. cbn [eval]. step. step. step. apply Eh.
  - destruct H. split; [by rewrite handlers_args_happ|]. intros. cbn [evalH]. by rewrite evalH_happ.
  - done.
  - destruct H0 as [Ea Eh]. split; [done|]. intros. by rewrite Eh.
  - destruct H0 as [Ea Eh], H2 as [Ea' Eh']. split; [congruence|]. intros. by rewrite Eh.
  - destruct H2 as [Ea Eh]. split; [cbn [handlers_args]; by rewrite Ea|]. intros. cbn [evalH]. step. destruct a; [|apply Eh]. step. apply H0.
  - destruct H0 as [Ea Eh], H2 as [Ea' Eh']. split; [cbn [handlers_args]; by rewrite Ea, Ea'|]. intros. cbn [evalH]. rewrite Eh. apply evalH_dflt. intros. apply Eh'.
Qed.

(** Without exceptions *)
Lemma evalHN_dflt hs : forall c ei (d d' : st -> res (out * st)) s, (forall s, d s = d' s) -> evalHN G M hs c ei d s = evalHN G M hs c ei d' s.
Proof.
  induction hs as [|args w b rest IH|hs IH1 rest IH2]; intros c ei d d' s H; cbn [evalHN]; [apply H| |].
  - destruct (args_getN G M args c ei (fst s)) as [[l|]|]; cbn [rbind]; [done|by apply IH|done].
  - apply IH1. intros s'. by apply IH2.
Qed.
Lemma evalHN_happ hs rest : forall c ei (d : st -> res (out * st)) s,
  evalHN G M (happ hs rest) c ei d s = evalHN G M hs c ei (evalHN G M rest c ei d) s.
Proof.
  induction hs as [|args w b hs' IH|hs IH1 hs' IH2]; intros c ei d s; cbn [happ evalHN]; [done| |].
  - destruct (args_getN G M args c ei (fst s)) as [[l|]|]; cbn [rbind]; [done|apply IH|done].
  - apply evalHN_dflt. intros s'. apply IH2.
Qed.
Lemma law_okN p q : law false p q -> forall s, evalN G M p s = evalN G M q s.
Proof.
  destruct 1; intros s; unfold leaf_check; cbn [evalN].
  - destruct (gnew G (snd s)) as [id g]. rewrite id_load_app. by destruct (id_load M (mk id) its1 (fst s, g)).
  - rewrite id_load_app. by destruct (id_load M id its1 s).
  - by rewrite id_load_nil.
  - destruct (gnew G (snd s)) as [id g]. destruct (id_load M (mk id) its (fst s, g)) as [[m1 g1]|]; cbn [rbind]; [|done]. cbn [fst snd]. by rewrite id_load_nil.
  - destruct s as [m g]. cbn [fst snd]. rewrite id_load_app. destruct (id_load M id its1 (m, g)) as [[m1 g1]|]; done.
  - cbn [unload_retN rbind]. by rewrite id_load_nil; destruct s.
  - done.
  - done.
  - destruct (evalN G M p s) as [[[r|x] s1]|]; cbn [rbind]; try done. destruct r; cbn [is_val evalN fwd rbind]; rewrite ?mk_mk; done.
  - destruct (evalN G M p s) as [[[r|x] s1]|]; cbn [rbind]; try done. by destruct r.
  - by destruct (evalN G M p s) as [[[r|x] s1]|]; cbn [rbind].
  - done.
  - by destruct (evalN G M p s) as [[[r|x] s1]|]; cbn [rbind].
Qed.

Definition eqpN p q := forall s, evalN G M p s = evalN G M q s.
Definition eqhN hs hs' := handlers_args hs = handlers_args hs' /\ forall c ei d s, evalHN G M hs c ei d s = evalHN G M hs' c ei d s.

Lemma same_okN : (forall p q, same false p q -> eqpN p q) /\ (forall hs hs', sameH false hs hs' -> eqhN hs hs').
Proof.
  apply same_sameH_ind; unfold eqpN, eqhN; intros; repeat match goal with X : same _ _ _ |- _ => clear X | X : sameH _ _ _ |- _ => clear X | X : forall _, same _ _ _ |- _ => clear X end.
  - by apply law_okN.
  - done.
  - done.
  - by rewrite H0.
  - cbn [evalN]. rewrite H0. step. destruct a as [[r|x] s9]; [apply H2|done].
  - cbn [evalN]. apply H0.
  - cbn [evalN]. destruct (gnew G (snd s)). step. apply H0.
  - cbn [evalN]. step. apply H0.
  - cbn [evalN]. apply H0.
  - done.
  - cbn [evalN]. by rewrite H0.
  - cbn [evalN]. apply H0.
  - cbn [evalN]. apply H0.
  - cbn [evalN]. destruct (negb _); [apply H0|]. destruct (gnew G (snd s)). apply H0.
  - destruct H2 as [Ea Eh]. cbn [evalN]. unfold deduce. rewrite Ea. destruct (m_new M _ (fst s)) as [c m1]. step. rewrite H0. step.
    destruct a0 as [[r|x] s8]; [destruct (is_val r); [done|]|done]. step. by rewrite Eh.
  - destruct H2 as [Ea Eh]. cbn [evalN]. unfold deduce. rewrite Ea. destruct (m_new M _ (fst s)) as [c m1]. step. rewrite H0. step.
    destruct a0 as [[r|x] s8]; [destruct (is_val r); [done|]|done]. step. by rewrite Eh.
  - cbn [evalN]. apply H0.
  - cbn [evalN]. destruct (negb _); [done|]. destruct (m_new M _ (fst s)) as [c m1]. step. by rewrite H0.
  - cbn [evalN]. step. apply H0.
  - cbn [evalN]. destruct r; try done; apply H0.
  - cbn [evalN]. step. apply H0.
  - done.
  - cbn [evalN]. step. apply H0.
  - cbn [evalN]. destruct (m_new M _ (fst s)) as [c m1]. by rewrite H0.
  - cbn [evalN]. step. destruct a; [apply H0|]. step. by rewrite H0.
  - cbn [evalN]. step. apply H0.
  - destruct H0 as [Ea Eh]. cbn [evalN]. step. step. step. apply Eh.
  - destruct H. split; [by rewrite handlers_args_happ|]. intros. cbn [evalHN]. by rewrite evalHN_happ.
  - done.
  - destruct H0 as [Ea Eh]. split; [done|]. intros. by rewrite Eh.
  - destruct H0 as [Ea Eh], H2 as [Ea' Eh']. split; [congruence|]. intros. by rewrite Eh.
  - destruct H2 as [Ea Eh]. split; [cbn [handlers_args]; by rewrite Ea|]. intros. cbn [evalHN]. step. destruct a; [|apply Eh]. step. apply H0.
  - destruct H0 as [Ea Eh], H2 as [Ea' Eh']. split; [cbn [handlers_args]; by rewrite Ea, Ea'|]. intros. cbn [evalHN]. rewrite Eh. apply evalHN_dflt. intros. apply Eh'.
Qed.
End laws.

(** Exchanging one for the other, in any number of places, changes nothing: not the outcome, the state, the ids, the order of events nor whether
    the program is rejected or undefined; in every configuration, state and on both machines. *)
Theorem C60_equal_programs :
  forall p q, same true p q -> forall G M caught (s : st M), eval G M caught p s = eval G M caught q s.
Proof. intros p q H G M. by apply (same_ok G M true). Qed.
Print Assumptions C60_equal_programs.
(** The same in builds without exceptions. *)
Theorem C60_equal_programs_without_exceptions :
  forall p q, same false p q -> forall G M (s : st M), evalN G M p s = evalN G M q s.
Proof. intros p q H G M. by apply (same_okN G M). Qed.
Print Assumptions C60_equal_programs_without_exceptions.

(** Not vacuous: a function written twice, differently throughout; it is the try block of a scope whose handlers are in tuples. *)
Definition ex60_p (f : Z -> prog) : prog :=
  PTHS (leaf_check (leaf_check (PRet (RVal 1)) (fun z => PNewError [IVal TA (VZ z); IVal TB (VZ 2)] (fun id => PRet (RErr id)))) f)
    (HTup (HCons [AE TC] (fun _ => PRet (RVal 1)) HNil) (HTup (HCons [AE TA; AE TB] (fun _ => PThrow None bad_result [IVal TA (VZ 3)]) HNil) HNil)).
Definition ex60_q (f : Z -> prog) : prog :=
  PTHS (leaf_check (PNewError [] (fun id => PLoad id [IVal TA (VZ 1)] (PLoad id [IVal TB (VZ 2)] (PRet (RErr id))))) f)
    (HCons [AE TC] (fun _ => PRet (RVal 1)) (HCons [AE TA; AE TB] (fun _ => PNewError [IVal TA (VZ 3)] (fun id => PThrow (Some id) bad_result [])) HNil)).
Example ex60_same exc f : same exc (ex60_p f) (ex60_q f).
Proof.
  apply same_ths.
  - unfold leaf_check at 1 3. apply same_bind; [|intros r; apply same_refl].
    eapply same_trans; [apply same_law, law_check_value|]. eapply same_trans; [apply same_law, (law_new exc [] [IVal TA (VZ 1); IVal TB (VZ 2)])|].
    apply same_new. intros id. apply same_law, (law_load exc id [IVal TA (VZ 1)]).
  - eapply sameH_trans; [apply sameH_law, law_tuple|]. cbn [happ]. apply sameH_mut; [intros l; apply same_refl|].
    eapply sameH_trans; [apply sameH_law, law_tuple|]. cbn [happ]. apply sameH_mut; [intros l|apply sameH_refl]. apply same_law, law_throw.
Qed.
Example ex60_run :
  match eval GX (pmach GX) None (ex60_p (fun z => PRet (RVal z))) (out_m, glob0) with Ok (OThrow x, (_, g')) => Some (x_leaf x, ngen g') | _ => None end = Some (Some 9, 2%nat).
Proof. vm_compute. reflexivity. Qed.

(** ** on_error objects in the same scope
    auto _ = on_error(a...); auto _ = on_error(b...); does what auto _ = on_error(b..., a...); does, provided that the current error's id is not handed
    out once more (ids repeat after 2^30). *)
Lemma mload_items_cur G e id its : forall s s', load_items (pmach G) e id its s = Ok s' -> cur (snd s') = cur (snd s).
Proof.
  induction its as [|it its IH]; intros s s' H; cbn [load_items] in H; [by injection H as <-|].
  destruct (m_load (pmach G) e id it (fst s) (snd s)) as [[m1 g1]|] eqn:E; cbn [rbind] in H; [|done].
  rewrite (IH _ _ H). cbn [snd]. apply mload_ctxs in E as [_ [->|[ev ->]]]; done.
Qed.
Theorem C60_on_error_nested :
  forall G caught its1 its2 p m g, (forall n, (ngen g <= n)%nat -> g_sup G n <> cur g) ->
    eval G (pmach G) caught (POnError its1 (POnError its2 p)) (m, g) = eval G (pmach G) caught (POnError (its2 ++ its1) p) (m, g).
Proof.
  intros G caught its1 its2 p m g Hn. cbn [eval fst snd].
  destruct (eval G (pmach G) caught p (m, g)) as [[o [m1 g1]]|] eqn:E; cbn [rbind]; [|done]. cbn [fst snd].
  destruct (cur g1 =? cur g) eqn:Ec; cbn [negb].
  - destruct o as [r|x]; [by cbn [Z.eqb rbind snd]; rewrite Ec|].
    assert (ngen g <= ngen g1)%nat as Hle by exact (run_ngen _ _ _ _ _ _ _ _ E).
    unfold gnew. pose proof (Hn _ Hle) as Hne. set (id := g_sup G (ngen g1)) in *. set (g2 := Glob id _ _ _ _).
    assert (cur g2 =? cur g = false) as Ec2 by (apply Z.eqb_neq; done).
    destruct (id =? 0) eqn:E0; cbn [rbind snd fst]; [rewrite Ec2; cbn [negb]; unfold g2 at 1; cbn [cur]; by rewrite E0|].
    rewrite load_items_app. destruct (load_items (pmach G) true id its2 (m1, g2)) as [[m3 g3]|] eqn:E3; cbn [rbind]; [|done].
    apply mload_items_cur in E3. cbn [snd fst] in E3 |- *. rewrite E3, Ec2. unfold g2 at 1. cbn [negb cur]. rewrite E0. done.
  - destruct (cur g1 =? 0) eqn:E0; cbn [rbind snd fst]; [by rewrite Ec; cbn [negb]; rewrite E0|].
    rewrite load_items_app. destruct (load_items (pmach G) true (cur g1) its2 (m1, g1)) as [[m3 g3]|] eqn:E3; cbn [rbind]; [|done].
    apply mload_items_cur in E3. cbn [snd fst] in E3 |- *. rewrite E3, Ec. cbn [negb]. rewrite E0. done.
Qed.
Print Assumptions C60_on_error_nested.
Example ex60_on_error :
  (forall n, (ngen glob0 <= n)%nat -> g_sup GX n <> cur glob0) /\
  match eval GX (pmach GX) None (POnError [IVal TA (VZ 1)] (POnError [IVal TA (VZ 2); IVal TB (VZ 3)] (PThrowX (XSpec true [T_STDEX] 0 None None)))) (out_m, glob0) with
  | Ok (OThrow _, (m', g')) => mget GX 0%nat TA 5 m' = Ok (Some (VZ 2)) /\ mget GX 0%nat TB 5 m' = Ok (Some (VZ 3)) /\ ngen g' = 1%nat | _ => False end.
Proof. split; [intros n _; simpl; lia|]. vm_compute. done. Qed.

(** ** What may not be exchanged *)
(** on_error without items is not nothing: it gives an exception which passes an id. *)
Theorem C60_empty_on_error_refuted : exists G caught p m g, eval G (pmach G) caught (POnError [] p) (m, g) <> eval G (pmach G) caught p (m, g).
Proof. exists GX, None, (PThrowX (XSpec true [T_STDEX] 0 None None)), out_m, glob0. vm_compute. discriminate. Qed.
Print Assumptions C60_empty_on_error_refuted.

(** Handlers of one scope put into two, one around the other, although no handler fails: the function g's own error, handled in full, deletes
    an object of the error f is about to report. *)
Definition ex60_g : prog := PNewError [IVal TA (VZ 20)] (fun id => PRet (RErr id)).
Definition ex60_f (g : prog) : prog :=
  PTHS (PNewError [IVal TA (VZ 10)] (fun id => PBind g (fun _ => PRet (RErr id)))) (HCons [AE TA] (fun _ => PRet (RVal 3)) HNil).
Definition outcome (x : res (out * st (pmach GX))) : option out := match x with Ok (o, _) => Some o | _ => None end.
Theorem C60_split_handlers_refuted : exists args1 z1 args2 z2 p C,
  let h1 rest := HCons args1 (fun _ => PRet (RVal z1)) rest in
  let h2 := HCons args2 (fun _ => PRet (RVal z2)) HNil in
  outcome (eval GX (pmach GX) None (C (PTHS p (h1 h2))) (mem0, glob0)) = Some (ORet (RVal 3)) /\
  outcome (eval GX (pmach GX) None (C (PTHS (PTHS p (h1 HNil)) h2)) (mem0, glob0)) = Some (ORet (RErr 5)).
Proof. exists [AE TA; AE TC], 1, [], 2, ex60_g, ex60_f. split; vm_compute; reflexivity. Qed.
Print Assumptions C60_split_handlers_refuted.
