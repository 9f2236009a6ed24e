(** C43: builds with and without exceptions. *)
From Verif Require Export NoExcept PropsOwn.
Open Scope Z_scope.

(** try_catch is not used. *)
Fixpoint no_tc (p : prog) : Prop :=
  match p with
  | PRet _ | PThrow _ _ _ | PThrowX _ | PRethrow => True
  | PBind p k => no_tc p /\ forall r, no_tc (k r)
  | PEmit _ k | PLoad _ _ k | PCtxUnload _ _ k => no_tc k
  | PNewError _ k | PCurErr k | PMonitor k | PCheck _ k | PAssigned _ k | PValue _ k | PErrId _ k | PImport _ _ k => forall i, no_tc (k i)
  | PCatch p h => no_tc p /\ forall x, no_tc (h x)
  | POnError _ p | PCapture _ p | PE2R _ p | PAct _ p => no_tc p
  | PTHA p hs | PTHS p hs => no_tc p /\ no_tcH hs
  | PTC _ _ => False
  | PUnload _ k => forall r, no_tc (k r)
  | PCtx _ k => forall c, no_tc (k c)
  | PCtxHandle _ _ hs => no_tcH hs
  end
with no_tcH (hs : handlers) : Prop :=
  match hs with
  | HNil => True
  | HMut _ _ b rest => (forall l, no_tc (b l)) /\ no_tcH rest
  | HTup hs' rest => no_tcH hs' /\ no_tcH rest
  end.

(** The run without exceptions compiles and does not call boost::throw_exception. *)
Definition quiet {S} (x : res (out * S)) : Prop := match x with Ok (OThrow _, _) | Fail IllTyped => False | _ => True end.

Section proofs.
Context (G : cfg).
Local Notation M := (pmach G).
Local Notation agrees x y := (quiet x -> y = x).

Lemma cap_twice id l m g m1 g1 : mcap_unload G id l m g = Ok (m1, g1) -> set_cur id g1 = g1.
Proof. unfold mcap_unload. intros H. ok_inv H. injection H as <- <-. done. Qed.

Lemma unload_agrees r s :
  match unload_retN M r s with
  | Ok (r1, s1) => unload_ret M r s = Ok (ORet r1, s1) /\ unload_ret M r1 s1 = Ok (ORet r1, s1) /\ is_val r1 = is_val r
  | Fail IllTyped => True
  | Fail e => unload_ret M r s = Fail e
  end.
Proof.
  destruct r as [z|id|id l [x|]|cat v]; simpl; try done.
  destruct s as [m g]. simpl. destruct (mcap_unload G (mk id) l m g) as [[m1 g1]|e] eqn:E; simpl; [|by destruct e].
  by rewrite (cap_twice _ _ _ _ _ _ E).
Qed.

Lemma mdeact_isact c m m' : mdeact G c m = Ok m' -> misact c m' = Ok false.
Proof. unfold mdeact, misact. intros H. ok_inv H. ok_inv H. ok_inv H. injection H as <-. cbn. by rewrite lookup_insert. Qed.

Lemma res_info_agrees c r s :
  match res_infoN G M c r s with
  | Ok (ei, r1, s3) => exists s1, unload_ret M r s = Ok (ORet r1, s1) /\ is_val r1 = is_val r /\ res_info G M c r1 s1 = Ok (inl (EInfo (eiN_id ei) None (eiN_loc ei), r1, s3))
  | Fail IllTyped => True
  | Fail e => unload_ret M r s = Fail e \/ exists r1 s1, unload_ret M r s = Ok (ORet r1, s1) /\ is_val r1 = is_val r /\ res_info G M c r1 s1 = Fail e
  end.
Proof.
  unfold res_infoN. pose proof (unload_agrees r s) as H. destruct (unload_retN M r s) as [[r1 s1]|e]; cbn [rbind fst snd]; [|by destruct e; auto].
  destruct H as (H1 & H2 & H3).
  unfold res_info.
  destruct (err_id_of G M r1 s1) as [[id s2]|e] eqn:E1; cbn [rbind fst snd].
  2: { destruct e; auto; right; exists r1, s1; rewrite H2; cbn [rbind]; rewrite E1; done. }
  unfold on_mem at 1. cbn [fst snd]. destruct (m_deact M c (fst s2)) as [m3|e] eqn:E2; cbn [rbind fst snd].
  2: { destruct e; auto; right; exists r1, s1; rewrite H2; cbn [rbind]; rewrite E1; cbn [rbind fst snd]; unfold on_mem; rewrite E2; done. }
  change (m_isact M c m3) with (misact c m3). rewrite (mdeact_isact _ _ _ E2). cbn [rbind].
  assert (assert G (negb false) = Ok tt) as -> by (unfold assert; by rewrite andb_false_r). cbn [rbind].
  destruct (m_get M c T_LOC id m3) as [loc|e] eqn:E3; cbn [rbind fst snd eiN_id eiN_loc].
  - exists s1. rewrite H2. cbn [rbind]. rewrite E1. cbn [rbind fst snd]. unfold on_mem. rewrite E2. cbn [rbind fst snd]. rewrite E3. done.
  - destruct e; auto; right; exists r1, s1; rewrite H2; cbn [rbind]; rewrite E1; cbn [rbind fst snd]; unfold on_mem; rewrite E2; cbn [rbind fst snd]; rewrite E3; done.
Qed.

Lemma agrees_same {A S} (x : res A) (fN f : A -> res (out * S)) : (forall a, agrees (fN a) (f a)) -> agrees (rbind x fN) (rbind x f).
Proof. intros H. destruct x as [a|e]; simpl; [apply H|done]. Qed.
Lemma agrees_run {S} (x y : res (out * S)) (fN f : out * S -> res (out * S)) :
  agrees x y -> (forall r s, agrees (fN (ORet r, s)) (f (ORet r, s))) -> (forall z s, fN (OThrow z, s) = Ok (OThrow z, s)) -> agrees (rbind x fN) (rbind y f).
Proof.
  intros H1 H2 H3. destruct x as [[[r|z] s]|e]; simpl.
  - rewrite H1 by done. apply H2.
  - by rewrite H3.
  - intros H. by rewrite H1.
Qed.

Lemma peek_agrees T c ei (m : mem) : peek G M T c (EInfo (eiN_id ei) None (eiN_loc ei)) m = peekN M T c ei m.
Proof. unfold peek, peekN. cbn [ei_id ei_ex peek_exn]. destruct (eiN_id ei =? 0); [done|]. destruct (m_get M c T (eiN_id ei) m) as [[v|]|]; done. Qed.
Lemma arg_agrees a c ei m : (arg_getN G M a c ei m = Fail IllTyped) \/ arg_get G M a c (EInfo (eiN_id ei) None (eiN_loc ei)) m = arg_getN G M a c ei m.
Proof. destruct a; unfold arg_get, arg_getN, shown; cbn [ei_id ei_ex ei_loc]; rewrite ?peek_agrees; auto. Qed.
Lemma args_agree l c ei m : (args_getN G M l c ei m = Fail IllTyped) \/ args_get G M l c (EInfo (eiN_id ei) None (eiN_loc ei)) m = args_getN G M l c ei m.
Proof.
  induction l as [|a l IH]; [by right|]. cbn [args_get args_getN].
  destruct (arg_agrees a c ei m) as [-> | ->]; [by left|]. destruct (arg_getN G M a c ei m) as [[v|]|e]; cbn [rbind]; auto.
  destruct IH as [-> | ->]; auto.
Qed.

Lemma eval_agrees :
  (forall p, no_tc p -> forall s, agrees (evalN G M p s) (eval G M None p s)) /\
  (forall hs, no_tcH hs -> forall c ei dN d s, (forall s, agrees (dN s) (d s)) ->
     agrees (evalHN G M hs c ei dN s) (evalH G M None hs c (EInfo (eiN_id ei) None (eiN_loc ei)) d s)).
Proof.
  apply prog_handlers_ind; cbn [no_tc no_tcH evalN eval evalHN evalH].
  - done.
  - intros p IH k IHk [Hp Hk] s. apply agrees_run; [auto| |done]. intros r s1. by apply IHk.
  - auto.
  - intros its k IH H s. destruct (gnew G (snd s)) as [id g]. apply agrees_same. auto.
  - intros id its k IH H s. apply agrees_same. auto.
  - auto.
  - intros [id|] x its _ s; [|destruct (gnew G (snd s)) as [id g]]; by apply agrees_same.
  - by intros.
  - by intros.
  - by intros.
  - intros its p IH H s. apply agrees_run; [auto| |done]. intros r [m1 g1]. cbn [fst snd].
    destruct (negb _); cbn [fst snd]; [|done]. destruct (_ =? 0); [done|]. by apply agrees_same.
  - auto.
  - auto.
  - intros m k IH H s. destruct (negb _); [auto|]. destruct (gnew G (snd s)). auto.
  - intros p IH hs IHh [Hp Hh] s. destruct (m_new M (deduce G hs) (fst s)) as [c m1]. apply agrees_same. intros s1.
    intros Q. pose proof (IH Hp s1) as E. destruct (evalN G M p s1) as [[[r|x] s2]|e]; cbn [rbind] in Q |- *; [|done|].
    2: { rewrite E by done. done. }
    rewrite E by done. cbn [rbind]. destruct (is_val r) eqn:Hv.
    { destruct r; try discriminate Hv. done. }
    pose proof (res_info_agrees c r s2) as RI. destruct (res_infoN G M c r s2) as [[[ei r1] s3]|e]; cbn [rbind fst snd] in Q |- *.
    + destruct RI as (s1' & -> & Ev & RI). cbn [rbind]. rewrite Ev, Hv, RI. cbn [rbind].
      revert Q. apply agrees_run; [by apply IHh|..].
      * intros r' s4. unfold tha_end. cbn [fst snd]. by destruct (is_val r').
      * done.
    + destruct e; try done; (destruct RI as [-> | (r1 & s1' & -> & Ev & RI)]; [done|]; cbn [rbind]; by rewrite Ev, Hv, RI).
  - intros p IH hs IHh [Hp Hh] s. destruct (m_new M (deduce G hs) (fst s)) as [c m1]. apply agrees_same. intros s1.
    intros Q. pose proof (IH Hp s1) as E. destruct (evalN G M p s1) as [[[r|x] s2]|e]; cbn [rbind] in Q |- *; [|done|].
    2: { rewrite E by done. done. }
    rewrite E by done. cbn [rbind]. destruct (is_val r) eqn:Hv.
    { destruct r; try discriminate Hv. done. }
    pose proof (res_info_agrees c r s2) as RI. destruct (res_infoN G M c r s2) as [[[ei r1] s3]|e]; cbn [rbind fst snd] in Q |- *.
    + destruct RI as (s1' & -> & Ev & RI). cbn [rbind]. rewrite Ev, Hv, RI. cbn [rbind].
      revert Q. apply agrees_run; [by apply IHh|..].
      * intros r' s4. unfold ths_end. cbn [fst snd]. by destruct (is_val r').
      * done.
    + destruct e; try done; (destruct RI as [-> | (r1 & s1' & -> & Ev & RI)]; [done|]; cbn [rbind]; by rewrite Ev, Hv, RI).
  - done.
  - intros v p IH H s. destruct (negb _); [done|]. destruct (m_new M [SDA] (fst s)) as [c m1]. apply agrees_same. intros s1.
    apply agrees_run; [auto| |done]. intros r s2. destruct v; [done|]. destruct r; done.
  - intros r k IH H s. pose proof (unload_agrees r s) as U. destruct (unload_retN M r s) as [[r1 s1]|e]; cbn [rbind fst snd].
    + destruct U as (-> & _). cbn [rbind]. by apply IH.
    + destruct e; try done; by rewrite U.
  - intros r k IH H s. destruct r as [z|id|id l ex|cat v]; [by apply IH|done| |done].
    pose proof (unload_agrees (RCap id l ex) s) as U. destruct (unload_retN M (RCap id l ex) s) as [[r1 s1]|e]; cbn [rbind fst snd]; [done|].
    destruct e; try done; by rewrite U.
  - intros r k IH H s. apply agrees_same. intros a. by apply IH.
  - done.
  - intros cat v k IH H s. apply agrees_same. intros a. by apply IH.
  - intros tup k IH H s. destruct (m_new M (deduce_list G tup) (fst s)) as [c m1]. apply agrees_run; [by apply IH| |done]. done.
  - intros c p IH H s. apply agrees_same. intros [|]; [auto|]. apply agrees_same. intros s1. apply agrees_run; [auto| |done]. done.
  - intros c id k IH H s. apply agrees_same. auto.
  - intros c id hs IH H s. do 3 (apply agrees_same; intros ?). by apply (IH H c (EInfoN id _)).
  - auto.
  - intros args w b IH rest IHr [Hb Hr] c ei dN d s Hd. destruct (args_agree args c ei (fst s)) as [-> | ->]; [done|].
    apply agrees_same. intros [l|]; [|by apply IHr]. apply agrees_same. intros m1. by apply IH.
  - intros hs IH rest IHr [H1 H2] c ei dN d s Hd. apply IH; [done|]. intros s1. by apply IHr.
Qed.
End proofs.

(** Whenever the build without exceptions runs a program without calling boost::throw_exception, the build with exceptions
    runs it with the same outcome, the same storage of error objects, the same current error and the same observable actions,
    and if one fails (assertion, access to a dead object) so does the other. *)
Theorem C43_same_behaviour_partial :
  forall G p m g, no_tc p ->
    quiet (evalN G (pmach G) p (m, g)) ->
    eval G (pmach G) None p (m, g) = evalN G (pmach G) p (m, g).
Proof. intros G p m g Ht Hq. by apply (proj1 (eval_agrees G) p Ht). Qed.
Print Assumptions C43_same_behaviour_partial.

(** Programs which have no way to throw: they do not throw or rethrow, ask for the value only of results which have one, and do
    not use what exists only with exceptions. *)
Definition noex (r : ret) : Prop := match r with RCap _ _ (Some _) => False | _ => True end.
Fixpoint plain (p : prog) : Prop :=
  match p with
  | PRet r => noex r
  | PBind p k => plain p /\ forall r, noex r -> plain (k r)
  | PEmit _ k | PLoad _ _ k | PCtxUnload _ _ k => plain k
  | PNewError _ k | PCurErr k | PMonitor k | PCheck _ k | PAssigned _ k | PErrId _ k | PImport _ _ k => forall i, plain (k i)
  | PThrow _ _ _ | PThrowX _ | PRethrow | PCatch _ _ | PE2R _ _ | PTC _ _ => False
  | POnError _ p | PCapture _ p | PAct _ p => plain p
  | PTHA p hs | PTHS p hs => plain p /\ plainH hs
  | PUnload r k => noex r /\ forall r, noex r -> plain (k r)
  | PValue r k => match r with RVal z => plain (k z) | _ => False end
  | PCtx _ k => forall c, plain (k c)
  | PCtxHandle _ _ hs => plainH hs
  end
with plainH (hs : handlers) : Prop :=
  match hs with
  | HNil => True
  | HMut args _ b rest => (forall cls, ACatch cls ∉ args) /\ (forall l, plain (b l)) /\ plainH rest
  | HTup hs' rest => plainH hs' /\ plainH rest
  end.

Section plain.
Context (G : cfg).
Local Notation M := (pmach G).
Definition alike {S} (x y : res (out * S)) : Prop :=
  y = x /\ match x with Ok (ORet r, _) => noex r | Ok (OThrow _, _) => False | Fail _ => True end.

Lemma alike_same {A S} (x : res A) (fN f : A -> res (out * S)) : (forall a, x = Ok a -> alike (fN a) (f a)) -> alike (rbind x fN) (rbind x f).
Proof. intros H. destruct x as [a|e]; simpl; [by apply H|done]. Qed.
Lemma alike_run {S} (x y : res (out * S)) (fN f : out * S -> res (out * S)) :
  alike x y -> (forall r s, noex r -> alike (fN (ORet r, s)) (f (ORet r, s))) -> alike (rbind x fN) (rbind y f).
Proof. intros [-> H1] H2. destruct x as [[[r|z] s]|e]; simpl; [by apply H2|done|done]. Qed.
Lemma alike_leave c r (s : st M) : noex r -> alike (leave M c (ORet r) s) (leave M c (ORet r) s).
Proof. intros H. apply alike_same. intros a _. done. Qed.
Lemma alike_deact_leave c r (s : st M) : noex r -> alike (deact_leave M c (ORet r) s) (deact_leave M c (ORet r) s).
Proof. intros H. apply alike_same. intros a _. by apply alike_leave. Qed.

Lemma unload_plain r s : noex r ->
  (unload_ret M r s = let! rs := unload_retN M r s in Ok (ORet (fst rs), snd rs)) /\
  forall r1 s1, unload_retN M r s = Ok (r1, s1) -> unload_ret M r1 s1 = Ok (ORet r1, s1) /\ is_val r1 = is_val r /\ noex r1.
Proof.
  intros Hr. destruct r as [z|id|id l [x|]|cat v]; simpl; try (split; [done|intros r1 s1 H; by injection H as <- <-]); [done|].
  destruct s as [m g]. simpl. destruct (mcap_unload G (mk id) l m g) as [[m1 g1]|e] eqn:E; simpl; [|done].
  split; [done|]. intros r1 s1 H. injection H as <- <-. simpl. by rewrite (cap_twice _ _ _ _ _ _ _ E).
Qed.

Lemma args_plain l c ei m : (forall cls, ACatch cls ∉ l) -> args_get G M l c (EInfo (eiN_id ei) None (eiN_loc ei)) m = args_getN G M l c ei m.
Proof.
  induction l as [|a l IH]; intros H; [done|]. cbn [args_get args_getN].
  assert (arg_get G M a c (EInfo (eiN_id ei) None (eiN_loc ei)) m = arg_getN G M a c ei m) as ->.
  { destruct a as [T|T|T f|cls|info f| | |]; unfold arg_get, arg_getN, shown; cbn [ei_id ei_ex ei_loc]; rewrite ?peek_agrees; auto.
    exfalso. apply (H cls). constructor. }
  destruct (arg_getN G M a c ei m) as [[v|]|e]; cbn [rbind]; [|done|done]. rewrite IH; [done|]. intros cls X. apply (H cls). by constructor.
Qed.

(** What both builds do with the result of the try block. *)
Lemma body_plain c r s (kN : einfoN -> ret -> st M -> res (out * st M)) (k : einfo -> ret -> st M -> res (out * st M)) (kx : exn -> st M -> res (out * st M)) :
  noex r -> (forall ei r1 s3, noex r1 -> alike (kN ei r1 s3) (k (EInfo (eiN_id ei) None (eiN_loc ei)) r1 s3)) ->
  alike (if is_val r then deact_leave M c (ORet r) s
         else let! i := res_infoN G M c r s in kN (fst (fst i)) (snd (fst i)) (snd i))
    (let! os := unload_ret M r s in
     match os with
     | (OThrow x, s2) => kx x s2
     | (ORet r, s2) =>
         if is_val r then deact_leave M c (ORet r) s2
         else let! i := res_info G M c r s2 in
              match i with
              | inr (x, s3) => deact_leave M c (OThrow x) s3
              | inl (ei, r1, s3) => k ei r1 s3
              end
     end).
Proof.
  intros Hr Hk. destruct (unload_plain r s Hr) as [-> HU]. destruct (is_val r) eqn:Hv.
  { destruct r; try discriminate Hv. by apply alike_deact_leave. }
  unfold res_infoN. destruct (unload_retN M r s) as [[r1 s1]|e]; cbn [rbind fst snd]; [|done].
  destruct (HU _ _ eq_refl) as (H2 & Ev & Hn). rewrite Ev. unfold res_info. rewrite H2. cbn [rbind fst snd].
  destruct (err_id_of G M r1 s1) as [[id s2]|e]; cbn [rbind fst snd]; [|done].
  unfold on_mem. destruct (m_deact M c (fst s2)) as [m3|e] eqn:E2; cbn [rbind fst snd]; [|done].
  change (m_isact M c m3) with (misact c m3). rewrite (mdeact_isact _ _ _ _ E2). cbn [rbind].
  assert (assert G (negb false) = Ok tt) as -> by (unfold assert; by rewrite andb_false_r). cbn [rbind].
  destruct (m_get M c T_LOC id m3) as [loc|e]; cbn [rbind fst snd]; [|done]. by apply (Hk (EInfoN id loc)).
Qed.

Lemma eval_plain :
  (forall p, plain p -> forall s, alike (evalN G M p s) (eval G M None p s)) /\
  (forall hs, plainH hs -> forall c ei dN d s, (forall s, alike (dN s) (d s)) ->
     alike (evalHN G M hs c ei dN s) (evalH G M None hs c (EInfo (eiN_id ei) None (eiN_loc ei)) d s)).
Proof.
  apply prog_handlers_ind; cbn [plain plainH evalN eval evalHN evalH].
  - done.
  - intros p IH k IHk [Hp Hk] s. apply alike_run; [auto|]. intros r s1 Hn. apply IHk. by apply Hk.
  - auto.
  - intros its k IH H s. destruct (gnew G (snd s)) as [id g]. apply alike_same. auto.
  - intros id its k IH H s. apply alike_same. auto.
  - auto.
  - done.
  - done.
  - done.
  - done.
  - intros its p IH H s. apply alike_run; [auto|]. intros r [m1 g1] Hn. cbn [fst snd].
    destruct (negb _); cbn [fst snd]; [|done]. destruct (_ =? 0); [done|]. by apply alike_same.
  - auto.
  - auto.
  - intros m k IH H s. destruct (negb _); [auto|]. destruct (gnew G (snd s)). auto.
  - intros p IH hs IHh [Hp Hh] s. destruct (m_new M (deduce G hs) (fst s)) as [c m1]. apply alike_same. intros s1 _.
    destruct (IH Hp s1) as [-> Hn]. destruct (evalN G M p s1) as [[[r|x] s2]|e]; cbn [rbind]; [|done|done].
    refine (body_plain c r s2
      (fun ei r1 s3 => let! os3 := evalHN G M hs c ei (fun _ => Fail IllTyped) s3 in
            match os3 with
            | (OThrow x, s4) => Ok (OThrow x, s4)
            | (ORet r', s4) => if is_val r' then leave M c (ORet r') s4 else Fail IllTyped
            end)
      (fun ei r1 s3 => let! os3 := evalH G M None hs c ei (fun _ => Fail IllTyped) s3 in tha_end M c (fst os3) (snd os3)) _ Hn _).
    intros ei r1 s3 _. apply alike_run; [by apply IHh|]. intros r' s4 Hr'. unfold tha_end. cbn [fst snd]. destruct (is_val r'); [by apply alike_leave|done].
  - intros p IH hs IHh [Hp Hh] s. destruct (m_new M (deduce G hs) (fst s)) as [c m1]. apply alike_same. intros s1 _.
    destruct (IH Hp s1) as [-> Hn]. destruct (evalN G M p s1) as [[[r|x] s2]|e]; cbn [rbind]; [|done|done].
    refine (body_plain c r s2
      (fun ei r1 s3 => let! os3 := evalHN G M hs c ei (fun s => Ok (ORet r1, s)) s3 in
            match os3 with
            | (OThrow x, s4) => Ok (OThrow x, s4)
            | (ORet r', s4) =>
                if is_val r' then leave M c (ORet r') s4
                else let! is5 := err_id_of G M r' s4 in
                     let! s6 := m_unload M c (fst is5) (fst (snd is5)) (snd (snd is5)) in
                     leave M c (ORet r') s6
            end)
      (fun ei r1 s3 => let! os3 := evalH G M None hs c ei (fun s => Ok (ORet r1, s)) s3 in ths_end G M c (fst os3) (snd os3)) _ Hn _).
    intros ei r1 s3 Hr1. apply alike_run; [by apply IHh|]. intros r' s4 Hr'. unfold ths_end. cbn [fst snd]. destruct (is_val r'); [by apply alike_leave|].
    apply alike_same. intros a _. apply alike_same. intros b _. by apply alike_leave.
  - done.
  - intros v p IH H s. destruct (negb _); [done|]. destruct (m_new M [SDA] (fst s)) as [c m1]. apply alike_same. intros s1 _.
    apply alike_run; [auto|]. intros r s2 Hn. destruct v.
    { destruct (is_val r); [|done]. apply alike_same. intros a _. done. }
    destruct r; [by apply alike_deact_leave| | |done].
    + apply alike_same. intros a _. apply alike_same. intros b _. by apply alike_leave.
    + apply alike_same. intros a _. apply alike_same. intros b _. by apply alike_leave.
  - intros r k IH [Hr H] s. destruct (unload_plain r s Hr) as [-> HU]. destruct (unload_retN M r s) as [[r1 s1]|e]; cbn [rbind fst snd]; [|done].
    destruct (HU _ _ eq_refl) as (_ & _ & Hn). apply IH. by apply H.
  - intros r k IH H s. destruct r; try done. by apply IH.
  - intros r k IH H s. apply alike_same. intros a _. by apply IH.
  - done.
  - intros cat v k IH H s. apply alike_same. intros a _. by apply IH.
  - intros tup k IH H s. destruct (m_new M (deduce_list G tup) (fst s)) as [c m1]. apply alike_run; [by apply IH|]. intros r s1 Hn. by apply alike_leave.
  - intros c p IH H s. apply alike_same. intros [|] _; [auto|]. apply alike_same. intros s1 _. apply alike_run; [auto|].
    intros r s2 Hn. apply alike_same. intros [|] _; [|done]. apply alike_same. intros a _. done.
  - intros c id k IH H s. apply alike_same. auto.
  - intros c id hs IH H s. do 3 (apply alike_same; intros ? _). by apply (IH H c (EInfoN id _)).
  - auto.
  - intros args w b IH rest IHr (Ha & Hb & Hr) c ei dN d s Hd. rewrite args_plain by done.
    apply alike_same. intros [l|] _; [|by apply IHr]. apply alike_same. intros m1 _. by apply IH.
  - intros hs IH rest IHr [H1 H2] c ei dN d s Hd. apply IH; [done|]. intros s1. by apply IHr.
Qed.
End plain.

(** Programs which cannot throw behave the same, and indeed do not throw. *)
Theorem C43_programs_that_cannot_throw :
  forall G p m g, plain p ->
    eval G (pmach G) None p (m, g) = evalN G (pmach G) p (m, g) /\
    forall x m' g', ~ lib_run G None p m g (OThrow x) m' g'.
Proof.
  intros G p m g Hp. destruct (proj1 (eval_plain G) p Hp (m, g)) as [E H]. split; [done|]. intros x m' g' E'. rewrite <- E, E' in H. done.
Qed.
Print Assumptions C43_programs_that_cannot_throw.

(** An error with objects crosses a try_handle_some with a captured result on the way, handled in the end: both builds agree. *)
Definition ex43 : prog :=
  PTHA (PTHS (PBind (PCapture false (PNewError [IVal TA (VZ 3); IVal TB (VZ 4)] (fun i => PRet (RErr i)))) (fun r => PEmit 5 (PRet r)))
          (HCons [AE TC] (fun _ => PRet (RVal 9)) HNil))
    (HCons [AE TA; ADiag] (fun l => PEmit 7 (match l with VE (VZ z) :: _ => PRet (RVal z) | _ => PRet (RVal 0) end)) (HCons [] (fun _ => PRet (RVal 1)) HNil)).
Example ex43_plain : plain ex43 /\ no_tc ex43 /\
  quiet (evalN GX (pmach GX) ex43 (mem0, glob0)) /\
  match evalN GX (pmach GX) ex43 (mem0, glob0) with Ok (o, (m, g)) => o = ORet (RVal 3) /\ tr g = [EvUser 7; EvUser 5] | _ => False end /\
  eval GX (pmach GX) None ex43 (mem0, glob0) = evalN GX (pmach GX) ex43 (mem0, glob0).
Proof.
  assert (plain ex43) as Hp.
  { cbn [ex43 plain plainH]. split; [split; [split; [done|by intros r H]|]|].
    - split; [intros cls H; inversion H as [|? ? ? H']; inversion H'|done].
    - split; [|split; [|split; [intros cls H; inversion H|done]]].
      + intros cls H. inversion H as [|? ? ? H']; subst; inversion H' as [|? ? ? H'']; subst; inversion H''.
      + intros [|[[]| | | | |]]; done. }
  split; [done|]. split; [repeat split; try done; intros [|[[]| | | | |]]; done|].
  split; [vm_compute; exact I|]. split; [vm_compute; done|]. by apply C43_programs_that_cannot_throw.
Qed.

(** With try_catch the builds differ although nothing is ever thrown: without exceptions try_catch has no context, so that objects
    its handlers take go to the enclosing scope; with exceptions they go to the context of try_catch and are lost when it returns
    a failed result. *)
Definition ex43_tc : prog :=
  PTHA (PTC (PNewError [IVal TA (VZ 3)] (fun i => PRet (RErr i))) (HCons [AE TA] (fun _ => PRet (RVal 9)) HNil))
    (HCons [AE TA] (fun _ => PRet (RVal 2)) (HCons [] (fun _ => PRet (RVal 1)) HNil)).
Theorem C43_try_catch_refuted : exists p, exists m1 g1 m2 g2,
  evalN GX (pmach GX) p (mem0, glob0) = Ok (ORet (RVal 2), (m1, g1)) /\ eval GX (pmach GX) None p (mem0, glob0) = Ok (ORet (RVal 1), (m2, g2)).
Proof. exists ex43_tc. eexists _, _, _, _. split; vm_compute; reflexivity. Qed.
Print Assumptions C43_try_catch_refuted.
