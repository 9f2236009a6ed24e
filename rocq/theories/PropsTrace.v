(** C67: the path an error takes (example/error_trace.cpp, example/error_log.cpp). *)
From Verif Require Export PropsCurrent PropsHandle.
Open Scope Z_scope.

(** ** Specification *)
(** A function which has an on_error object with a function that takes the trace by reference (the macro ERROR_TRACE, example/error_trace.cpp:52),
    and calls another one; what it does with the other one's result: *)
Record level := Level { l_tag : Z; l_fun : val -> val; l_next : ret -> prog }.
Definition forwards (l : level) : Prop := forall r, is_val r = false -> l_next l r = PRet r.   (* BOOST_LEAF_CHECK, BOOST_LEAF_AUTO, return f() *)
(** p, called by the last of these functions, which was called by the one before it, ... *)
Fixpoint called_by (T : ety) (ls : list level) (p : prog) : prog :=
  match ls with
  | [] => p
  | l :: ls => POnError [IAcc T (l_tag l) (l_fun l)] (PBind (called_by T ls p) (l_next l))
  end.
(** The trace: the functions are applied from the innermost to the outermost. *)
Fixpoint trace (ls : list level) (v : val) : val := match ls with [] => v | l :: ls => l_fun l (trace ls v) end.
Definition failure (o : out) : Prop := match o with ORet r => is_val r = false | OThrow _ => True end.

(** ** Proof *)
Lemma forward_bind G caught p k m g o m1 g1 : (forall r, is_val r = false -> k r = PRet r) -> failure o ->
  lib_run G caught p m g o m1 g1 -> lib_run G caught (PBind p k) m g o m1 g1.
Proof.
  intros Hk Hf H. cbn [eval]. eapply rb_ok; [exact H|]. destruct o as [r|x]; [|done]. cbn [failure] in Hf. by rewrite (Hk _ Hf).
Qed.

Lemma acc_step G id T tag f m s g c : R m s -> id <> 0 -> usable m -> serves m T c ->
  exists m' g' s', load_items (pmach G) true id [IAcc T tag f] (m, g) = Ok (m', g') /\ R m' s' /\ usable m' /\ serves m' T c /\
    held m' c T = Some (id, f (match sees id (held m c T) with Some v => v | None => g_def G T end)) /\
    tr g' = EvAcc tag :: tr g /\ quiet_glob g g' /\ (forall c' T', ~ (c' = c /\ T' = T) -> held m' c' T' = held m c' T').
Proof.
  intros HR Hid Hu Hs. destruct (C17_accumulate_once G true id T tag f m s g c HR Hid Hu Hs) as (m' & g' & s' & E & HR' & Hu' & Hh & Ht & Hs' & Ho).
  exists m', g', s'. split; [cbn [load_items]; eapply rb_ok; [exact E|done]|]. do 5 (split; [done|]). split; [|done].
  apply mload_ctxs in E as [_ [->|[e ->]]]; done.
Qed.

Lemma trace_run G caught T c : forall ls p m g o m1 s1 g1,
  lib_run G caught p m g o m1 g1 -> R m1 s1 -> failure o -> cur g1 <> cur g -> cur g1 <> 0 -> Forall forwards ls -> usable m1 -> serves m1 T c ->
  exists m' s' g', lib_run G caught (called_by T ls p) m g o m' g' /\ R m' s' /\ usable m' /\ serves m' T c /\
    (match sees (cur g1) (held m' c T) with Some v => v | None => g_def G T end) =
      trace ls (match sees (cur g1) (held m1 c T) with Some v => v | None => g_def G T end) /\
    (ls <> [] -> held m' c T = Some (cur g1, trace ls (match sees (cur g1) (held m1 c T) with Some v => v | None => g_def G T end))) /\
    tr g' = map (fun l => EvAcc (l_tag l)) ls ++ tr g1 /\ quiet_glob g1 g' /\
    (forall c' T', ~ (c' = c /\ T' = T) -> held m' c' T' = held m1 c' T').
Proof.
  induction ls as [|l ls IH]; intros p m g o m1 s1 g1 H HR Hf Hc H0 HF Hu Hs.
  - exists m1, s1, g1. by repeat (split; [done|]).
  - apply Forall_cons in HF as [Hl HF]. destruct (IH p m g o m1 s1 g1 H HR Hf Hc H0 HF Hu Hs) as (m2 & s2 & g2 & E2 & HR2 & Hu2 & Hs2 & Hv2 & _ & Ht2 & Hq2 & Ho2).
    pose proof Hq2 as (Hcur & Hng & Hoi & Hcl).
    destruct (acc_step G (cur g1) T (l_tag l) (l_fun l) m2 s2 g2 c HR2 H0 Hu2 Hs2) as (m3 & g3 & s3 & E3 & HR3 & Hu3 & Hs3 & Hh3 & Ht3 & Hq3 & Ho3).
    rewrite Hv2 in Hh3. exists m3, s3, g3. split; [|split; [done|split; [done|split; [done|split; [|split; [done|split; [|split]]]]]]].
    + cbn [called_by]. cbn [eval]. eapply rb_ok; [exact (forward_bind _ _ _ _ _ _ _ _ _ Hl Hf E2)|]. cbn [snd fst].
      rewrite Hcur, (proj2 (Z.eqb_neq _ _) Hc). cbn [negb]. rewrite (proj2 (Z.eqb_neq _ _) H0). eapply rb_ok; [exact E3|done].
    + rewrite Hh3. simpl. by rewrite Z.eqb_refl.
    + rewrite Ht3, Ht2. done.
    + destruct Hq3 as (? & ? & ? & ?). repeat split; congruence.
    + intros c' T' Hn. rewrite Ho3 by done. by apply Ho2.
Qed.

Lemma called_by_app T l1 l2 p : called_by T (l1 ++ l2) p = called_by T l1 (called_by T l2 p).
Proof. induction l1 as [|l l1 IH]; [done|]. cbn [app called_by]. by rewrite IH. Qed.
Lemma trace_app l1 l2 v : trace (l1 ++ l2) v = trace l1 (trace l2 v).
Proof. induction l1 as [|l l1 IH]; [done|]. cbn [app trace]. by rewrite IH. Qed.

(** An error was started in p, which fails: all the functions are called for it, innermost first, each once. *)
Theorem C67_trace :
  forall G caught T ls p m g o m1 g1 c,
    runs G caught p m g o m1 g1 -> failure o -> cur g1 <> cur g -> cur g1 <> 0 -> Forall forwards ls -> ls <> [] ->
    usable m1 -> serves m1 T c ->
    exists m' g', lib_run G caught (called_by T ls p) m g o m' g' /\
      held m' c T = Some (cur g1, trace ls (match sees (cur g1) (held m1 c T) with Some v => v | None => g_def G T end)) /\
      tr g' = map (fun l => EvAcc (l_tag l)) ls ++ tr g1 /\ quiet_glob g1 g' /\
      (forall c' T', ~ (c' = c /\ T' = T) -> held m' c' T' = held m1 c' T').
Proof.
  intros G caught T ls p m g o m1 g1 c [H (s & s1 & _ & HR & _)] Hf Hc H0 HF Hn Hu Hs.
  destruct (trace_run G caught T c ls p m g o m1 s1 g1 H HR Hf Hc H0 HF Hu Hs) as (m' & _ & g' & E & _ & _ & _ & _ & Hh & Ht & Hq & Ho).
  exists m', g'. auto 10.
Qed.
Print Assumptions C67_trace.

(** An exception leaves p which no error was started for: the innermost on_error gives it a new id, which the others use, too. *)
Theorem C67_trace_exception :
  forall G caught T ls p m g x m1 g1 c,
    runs G caught p m g (OThrow x) m1 g1 -> good_sup G -> cur g1 = cur g -> g_sup G (ngen g1) <> cur g -> Forall forwards ls -> ls <> [] ->
    usable m1 -> serves m1 T c ->
    exists m' g', lib_run G caught (called_by T ls p) m g (OThrow x) m' g' /\
      held m' c T = Some (g_sup G (ngen g1), trace ls (match sees (g_sup G (ngen g1)) (held m1 c T) with Some v => v | None => g_def G T end)) /\
      tr g' = map (fun l => EvAcc (l_tag l)) ls ++ tr g1 /\ ngen g' = S (ngen g1) /\ cur g' = g_sup G (ngen g1) /\
      (forall c' T', ~ (c' = c /\ T' = T) -> held m' c' T' = held m1 c' T').
Proof.
  intros G caught T ls p m g x m1 g1 c [H (s & s1 & _ & HR & _)] Hg Hc Hid HF Hn Hu Hs. set (id := g_sup G (ngen g1)) in *.
  assert (id <> 0) as H0 by (apply good_nz, Hg).
  destruct (rev ls) as [|l rl] eqn:Er; [destruct Hn; rewrite <- (rev_involutive ls), Er; done|].
  assert (ls = rev rl ++ [l]) as -> by (rewrite <- (rev_involutive ls), Er; done). set (l0 := rev rl) in *. clearbody l0.
  apply Forall_app in HF as [HF1 HF2]. apply Forall_cons in HF2 as [Hl _].
  destruct (acc_step G id T (l_tag l) (l_fun l) m1 s1 (snd (gnew G g1)) c HR H0 Hu Hs) as (m3 & g3 & s3 & E3 & HR3 & Hu3 & Hs3 & Hh3 & Ht3 & (Hc3 & Hn3 & _) & Ho3).
  cbn [gnew snd cur ngen tr] in Hc3, Hn3, Ht3. fold id in Hc3.
  assert (lib_run G caught (called_by T [l] p) m g (OThrow x) m3 g3) as E.
  { cbn [called_by]. cbn [eval]. eapply rb_ok; [exact (forward_bind G caught p (l_next l) m g (OThrow x) m1 g1 Hl I H)|]. cbn [snd fst]. rewrite Hc, Z.eqb_refl. cbn [negb gnew].
    change (g_sup G (ngen g1)) with id. rewrite (proj2 (Z.eqb_neq _ _) H0). unfold gnew in E3. cbn [snd] in E3. change (g_sup G (ngen g1)) with id in E3. eapply rb_ok; [rewrite <- Hc in *; exact E3|done]. }
  destruct (trace_run G caught T c l0 (called_by T [l] p) m g (OThrow x) m3 s3 g3 E HR3 I) as (m' & _ & g' & E' & _ & _ & _ & Hv & Hh & Ht & (Hq1 & Hq2 & _) & Ho); try done; [congruence..|].
  exists m', g'. rewrite called_by_app, trace_app. split; [done|]. rewrite Hc3 in *. split; [|split; [|split; [congruence|split; [congruence|]]]].
  - rewrite Hh3 in Hv, Hh. cbn [sees] in Hv, Hh. rewrite Z.eqb_refl in Hv, Hh. destruct l0 as [|l1 l0].
    + change (called_by T [] (called_by T [l] p)) with (called_by T [l] p) in E'. pose proof (eq_trans (eq_sym E) E') as X. by simplify_eq.
    + by apply Hh.
  - rewrite Ht, Ht3, map_app, <- app_assoc. done.
  - intros c' T' Hne. rewrite Ho by done. by apply Ho3.
Qed.
Print Assumptions C67_trace_exception.

(** Nobody is interested: no handler around takes a trace, nothing collects. None of the functions is called, nothing is stored; if an exception
    passes which no error was started for, it gets an id. *)
Lemma quiet_run G caught T : forall ls p m g o m1 g1,
  lib_run G caught p m g o m1 g1 -> failure o -> cur g1 <> cur g -> Forall forwards ls ->
  unserved m1 T -> (g_capture G = false \/ tlsd m1 = None) -> lib_run G caught (called_by T ls p) m g o m1 g1.
Proof.
  induction ls as [|l ls IH]; intros p m g o m1 g1 H Hf Hc HF Hu Hd; [done|]. apply Forall_cons in HF as [Hl HF].
  cbn [called_by]. cbn [eval]. eapply rb_ok; [exact (forward_bind _ _ _ _ _ _ _ _ _ Hl Hf (IH _ _ _ _ _ _ H Hf Hc HF Hu Hd))|]. cbn [snd fst].
  rewrite (proj2 (Z.eqb_neq _ _) Hc). cbn [negb]. destruct (cur g1 =? 0); [done|].
  assert (mload G true (cur g1) (IAcc T (l_tag l) (l_fun l)) m1 g1 = Ok (m1, g1)) as E.
  { unfold mload, load_slot_accumulate. rewrite Hu. destruct Hd as [-> |Hd]; [done|]. destruct (g_capture G); [|done]. unfold dyn_accumulate. by rewrite Hd. }
  cbn [load_items]. eapply rb_ok; [eapply rb_ok; [exact E|done]|done].
Qed.
Theorem C67_nobody_interested :
  forall G caught T ls p m g o m1 g1,
    lib_run G caught p m g o m1 g1 -> failure o -> Forall forwards ls -> ls <> [] ->
    unserved m1 T -> (g_capture G = false \/ tlsd m1 = None) ->
    (cur g1 <> cur g -> lib_run G caught (called_by T ls p) m g o m1 g1) /\
    (forall x, o = OThrow x -> cur g1 = cur g -> g_sup G (ngen g1) <> cur g -> lib_run G caught (called_by T ls p) m g o m1 (snd (gnew G g1))).
Proof.
  intros G caught T ls p m g o m1 g1 H Hf HF Hn Hu Hd. split; [intros Hc; by apply quiet_run|].
  intros x -> Hc Hid. destruct (rev ls) as [|l rl] eqn:Er; [destruct Hn; rewrite <- (rev_involutive ls), Er; done|].
  assert (ls = rev rl ++ [l]) as -> by (rewrite <- (rev_involutive ls), Er; done). set (l0 := rev rl) in *. clearbody l0.
  apply Forall_app in HF as [HF1 HF2]. apply Forall_cons in HF2 as [Hl _]. rewrite called_by_app. apply quiet_run; try done.
  cbn [called_by]. cbn [eval]. eapply rb_ok; [exact (forward_bind G caught p (l_next l) m g (OThrow x) m1 g1 Hl I H)|]. cbn [snd fst]. rewrite Hc, Z.eqb_refl. cbn [negb].
  destruct (gnew G g1) as [id g2] eqn:Eg. cbn [snd]. destruct (id =? 0); [done|].
  assert (mload G true id (IAcc T (l_tag l) (l_fun l)) m1 g2 = Ok (m1, g2)) as E.
  { unfold mload, load_slot_accumulate. rewrite Hu. destruct Hd as [-> |Hd]; [done|]. destruct (g_capture G); [|done]. unfold dyn_accumulate. by rewrite Hd. }
  cbn [load_items]. eapply rb_ok; [eapply rb_ok; [exact E|done]|done].
Qed.
Print Assumptions C67_nobody_interested.

(** No error was started and there is no exception: nothing is called, whoever is interested. *)
Theorem C67_no_error :
  forall G caught T ls p m g r m1 g1,
    lib_run G caught p m g (ORet r) m1 g1 -> cur g1 = cur g -> Forall (fun l => l_next l r = PRet r) ls ->
    lib_run G caught (called_by T ls p) m g (ORet r) m1 g1.
Proof.
  intros G caught T ls p m g r m1 g1 H Hc. induction ls as [|l ls IH]; intros HF; [done|]. apply Forall_cons in HF as [Hl HF].
  cbn [called_by]. cbn [eval]. eapply rb_ok; [eapply rb_ok; [exact (IH HF)|]; cbn [fst snd]; rewrite Hl; reflexivity|]. cbn [snd fst]. by rewrite Hc, Z.eqb_refl.
Qed.
Print Assumptions C67_no_error.

(** example/error_trace.cpp: the functions f5, ..., f1 (each records its number), of which the one numbered [n] fails; and main, with the
    handler for the trace or without. *)
Definition TRACE : ety := 50%nat.
Definition rec_ (k : Z) : val -> val := fun v => match v with VZ z => VZ (z * 10 + k) | _ => v end.
Definition lev (k : Z) : level := Level k (rec_ k) PRet.
Definition et_main (handler : bool) (ks : list Z) (p : prog) : prog :=
  PTHA (PBind (called_by TRACE (map lev ks) p) (fun r => match r with RVal _ => PEmit 100 (PRet (RVal 0)) | _ => PRet r end))
    (let last := HCons [] (fun _ => PRet (RVal (-1))) HNil in
     if handler then HCons [AE TRACE] (fun l => match l with VE (VZ z) :: _ => PRet (RVal z) | _ => PRet (RVal (-2)) end) last else last).
Definition et_fail : prog := PNewError [] (fun id => PRet (RErr id)).
Definition et_obs (x : res (out * st (pmach GX))) : option (out * list ev) := match x with Ok (o, (_, g)) => Some (o, tr g) | _ => None end.
Example ex67_f1_fails : et_obs (eval GX (pmach GX) None (et_main true [5; 4; 3; 2; 1] et_fail) (mem0, glob0)) =
  Some (ORet (RVal 12345), map EvAcc [5; 4; 3; 2; 1]).
Proof. vm_compute. reflexivity. Qed.
Example ex67_f3_fails : et_obs (eval GX (pmach GX) None (et_main true [5; 4; 3] et_fail) (mem0, glob0)) = Some (ORet (RVal 345), map EvAcc [5; 4; 3]).
Proof. vm_compute. reflexivity. Qed.
Example ex67_exception : et_obs (eval GX (pmach GX) None (et_main true [5; 4; 3] (PThrowX (XSpec true [T_STDEX] 0 None None))) (mem0, glob0)) =
  Some (ORet (RVal 345), map EvAcc [5; 4; 3]).
Proof. vm_compute. reflexivity. Qed.
Example ex67_disabled : et_obs (eval GX (pmach GX) None (et_main false [5; 4; 3] et_fail) (mem0, glob0)) = Some (ORet (RVal (-1)), []).
Proof. vm_compute. reflexivity. Qed.
Example ex67_success : et_obs (eval GX (pmach GX) None (et_main true [5; 4; 3] (PRet (RVal 1))) (mem0, glob0)) = Some (ORet (RVal 0), [EvUser 100]).
Proof. vm_compute. reflexivity. Qed.
(** The hypotheses of C67_trace are met inside a scope with storage for TB. *)
Example ex67_hyps : exists o m1 g1, runs GX None et_fail ex06_ctx glob0 o m1 g1 /\ failure o /\ cur g1 <> cur glob0 /\ cur g1 <> 0 /\ usable m1 /\ serves m1 TB 0%nat /\
  Forall forwards (map lev [5; 4; 3]).
Proof.
  exists (ORet (RErr 5)), ex06_ctx, (snd (gnew GX glob0)). destruct ex06_hyps as (Hu & _ & Hb). split; [|split; [done|split; [done|split; [done|split; [done|split; [done|]]]]]].
  - split; [vm_compute; reflexivity|]. exists (nest_s [[SE TA; SE TB]; [SE TA]]), (nest_s [[SE TA; SE TB]; [SE TA]]). split; [exact ex06_R|]. split; [exact ex06_R|]. vm_compute. reflexivity.
  - by repeat constructor.
Qed.
