(** C61: errors are recognised correctly also by code that runs while an exception is in flight. *)
From Verif Require Export Unwind.
Open Scope Z_scope.

(** ** Specification
    No counting of exceptions. For every monitor in scope: the id that was current when it was made, and whether an exception which was
    thrown after that is passing (the code being run is then in a destructor called because of it). *)
Record vst := VSt { v_cur : Z; v_gen : nat; v_log : list uev }.
Section spec.
Context (sup : nat -> Z).
Definition vlog (e : uev) (s : vst) : vst := VSt (v_cur s) (v_gen s) (e :: v_log s).
Definition vnew (s : vst) : vst := VSt (sup (v_gen s)) (S (v_gen s)) (v_log s).
(** The error since the id was [err]; [passing]: an exception thrown since is leaving *)
Definition verror (err : Z) (passing : bool) (s : vst) : Z * vst :=
  if decide (v_cur s = err) then if passing then (sup (v_gen s), vnew s) else (0, s) else (v_cur s, s).

Fixpoint vrun (env : list (Z * bool)) (p : uprog) (s : vst) : uout * vst :=
  match p with
  | UNop => (UOk, s)
  | USeq p q => let '(o, s1) := vrun env p s in match o with UOk => vrun env q s1 | _ => (o, s1) end
  | UNew => (UOk, vnew s)
  | USetCur id => (UOk, VSt id (v_gen s) (v_log s))
  | UThrow => (UThrew, s)
  | UTry p h => let '(o, s1) := vrun env p s in match o with UThrew => vrun env h s1 | _ => (o, s1) end
  | UGuard d p =>
      let '(o, s1) := vrun env p s in
      match o with
      | UOk => let '(o2, s2) := vrun env d s1 in (match o2 with UThrew => UTerm | _ => o2 end, s2)
      | UThrew => (* p's exception is newer than every monitor d can refer to *)
          let '(o2, s2) := vrun (map (fun m => (fst m, true)) env) d s1 in
          (match o2 with UThrew => UTerm | UOk => UThrew | _ => o2 end, s2)
      | _ => (o, s1)
      end
  | UOnError n p =>
      let '(o, s1) := vrun env p s in
      match o with
      | UOk | UThrew =>
          let '(id, s2) := verror (v_cur s) (match o with UThrew => true | _ => false end) s1 in
          (o, if decide (id = 0) then s2 else vlog (EvTrigger n id) s2)
      | _ => (o, s1)
      end
  | UMonitor p => vrun ((v_cur s, false) :: env) p s
  | UCheck i => match env !! i with Some m => let '(id, s1) := verror (fst m) (snd m) s in (UOk, vlog (EvCheck id) s1) | None => (UIll, s) end
  | UAssigned i => match env !! i with Some m => let '(id, s1) := verror (fst m) true s in (UOk, vlog (EvAssigned id) s1) | None => (UIll, s) end
  end.
End spec.
Definition seen (s : ust) : vst := VSt (u_cur s) (u_gen s) (u_log s).

(** Where there is only std::uncaught_exception: destructors neither use on_error nor make monitors. *)
Fixpoint no_mon (p : uprog) : Prop :=
  match p with
  | UOnError _ _ | UMonitor _ => False
  | USeq p q | UTry p q | UGuard p q => no_mon p /\ no_mon q
  | _ => True
  end.
Fixpoint quiet_dtors (p : uprog) : Prop :=
  match p with
  | USeq p q | UTry p q => quiet_dtors p /\ quiet_dtors q
  | UGuard d p => no_mon d /\ quiet_dtors p
  | UOnError _ p | UMonitor p => quiet_dtors p
  | _ => True
  end.

(** ** Proof *)
Definition plus (o : uout) : nat := match o with UThrew => 1 | _ => 0 end%nat.
Lemma seen_new sup s : seen (snd (unew sup s)) = vnew sup (seen s).
Proof. done. Qed.
Lemma check_eq std17 sup m s : let '(id, s1) := ucheck std17 sup m s in
  verror sup (fst m) (if std17 then snd m <? u_unc s else 0 <? u_unc s)%nat (seen s) = (id, seen s1) /\ u_unc s1 = u_unc s.
Proof.
  unfold ucheck, verror. cbn [seen v_cur]. destruct (Z.eqb_spec (u_cur s) (fst m)); cbn [negb]; [rewrite decide_True by done|by rewrite decide_False].
  by destruct (if std17 then _ else _).
Qed.
Lemma get_eq sup m s : let '(id, s1) := uget sup m s in verror sup (fst m) true (seen s) = (id, seen s1) /\ u_unc s1 = u_unc s.
Proof. unfold uget, verror. cbn [seen v_cur]. destruct (Z.eqb_spec (u_cur s) (fst m)); cbn [negb]; [by rewrite decide_True by done|by rewrite decide_False]. Qed.

Section proof.
Context (sup : nat -> Z).
(** With std::uncaught_exceptions *)
Definition flags (u : nat) (env : list (Z * nat)) : list (Z * bool) := map (fun m => (fst m, (snd m <? u)%nat)) env.
Definition old (u : nat) (env : list (Z * nat)) : Prop := Forall (fun m => snd m <= u)%nat env.
Lemma flags_lookup u env i : flags u env !! i = (fun m => (fst m, (snd m <? u)%nat)) <$> env !! i.
Proof. apply list_lookup_fmap. Qed.
Lemma flags_thrown u env : old u env -> flags (S u) env = map (fun m => (fst m, true)) (flags u env).
Proof.
  intros H. unfold flags. rewrite map_map. induction H as [|m l Hm Hl IH]; [done|]. cbn [map fst]. rewrite IH. by rewrite (proj2 (Nat.ltb_lt _ _)) by lia.
Qed.
Lemma old_S u env : old u env -> old (S u) env.
Proof. intros H. eapply Forall_impl; [exact H|]. simpl. lia. Qed.

Lemma run17 p : forall env s, old (u_unc s) env ->
  let '(o, s1) := urun true sup env p s in
  vrun sup (flags (u_unc s) env) p (seen s) = (o, seen s1) /\ match o with UOk => u_unc s1 = u_unc s | UThrew => u_unc s1 = S (u_unc s) | _ => True end.
Proof.
  induction p as [|p IHp q IHq| |id| |p IHp h IHh|d IHd p IHp|n p IHp|p IHp|i|i]; intros env s Ho; cbn [urun vrun].
  - done.
  - specialize (IHp env s Ho). destruct (urun true sup env p s) as [o s1]. destruct IHp as [-> Hu]. destruct o; try done.
    specialize (IHq env s1). rewrite Hu in IHq. by apply IHq.
  - done.
  - done.
  - done.
  - specialize (IHp env s Ho). destruct (urun true sup env p s) as [o s1]. destruct IHp as [-> Hu]. destruct o; try done.
    specialize (IHh env (uset_unc (Nat.pred (u_unc s1)) s1)). cbn [uset_unc u_unc] in IHh. rewrite Hu in IHh |- *. cbn [Nat.pred] in *. by apply IHh.
  - specialize (IHp env s Ho). destruct (urun true sup env p s) as [o s1]. destruct IHp as [-> Hu]. destruct o; try done.
    + specialize (IHd env s1). rewrite Hu in IHd. specialize (IHd Ho). destruct (urun true sup env d s1) as [o2 s2]. destruct IHd as [-> Hd]. by destruct o2.
    + specialize (IHd env s1). rewrite Hu in IHd. specialize (IHd (old_S _ _ Ho)). destruct (urun true sup env d s1) as [o2 s2].
      rewrite (flags_thrown _ _ Ho) in IHd. destruct IHd as [-> Hd]. by destruct o2.
  - specialize (IHp env s Ho). destruct (urun true sup env p s) as [o s1]. destruct IHp as [-> Hu]. destruct o; try done.
    + pose proof (check_eq true sup (umon s) s1) as Hc. destruct (ucheck true sup (umon s) s1) as [id s2]. cbn [umon fst snd] in Hc. rewrite Hu, Nat.ltb_irrefl in Hc.
      destruct Hc as [Hc Hu2]. cbn [seen v_cur] in Hc |- *. rewrite Hc. destruct (Z.eqb_spec id 0); [rewrite decide_True by done|rewrite decide_False by done]; split; done.
    + pose proof (check_eq true sup (umon s) s1) as Hc. destruct (ucheck true sup (umon s) s1) as [id s2]. cbn [umon fst snd] in Hc.
      rewrite Hu, (proj2 (Nat.ltb_lt (u_unc s) (S (u_unc s)))) in Hc by lia.
      destruct Hc as [Hc Hu2]. cbn [seen v_cur] in Hc |- *. rewrite Hc. destruct (Z.eqb_spec id 0); [rewrite decide_True by done|rewrite decide_False by done]; split; done.
  - specialize (IHp (umon s :: env) s). cbn [flags map umon fst snd] in IHp. rewrite Nat.ltb_irrefl in IHp. apply IHp. constructor; [done|exact Ho].
  - rewrite flags_lookup. destruct (env !! i) as [m|]; [|done]. cbn [fmap option_fmap option_map fst snd].
    pose proof (check_eq true sup m s) as Hc. cbn match in Hc. destruct (ucheck true sup m s) as [id s1]. destruct Hc as [-> Hu]. done.
  - rewrite flags_lookup. destruct (env !! i) as [m|]; [|done]. cbn [fmap option_fmap option_map fst snd].
    pose proof (get_eq sup m s) as Hc. destruct (uget sup m s) as [id s1]. destruct Hc as [-> Hu]. done.
Qed.

(** With std::uncaught_exception only *)
Definition flags14 (u : nat) (env : list (Z * nat)) : list (Z * bool) := map (fun m => (fst m, (0 <? u)%nat)) env.
Lemma flags14_lookup u env i : flags14 u env !! i = (fun m => (fst m, (0 <? u)%nat)) <$> env !! i.
Proof. apply list_lookup_fmap. Qed.
Lemma flags14_thrown u env : flags14 (S u) env = map (fun m => (fst m, true)) (flags14 u env).
Proof. unfold flags14. by rewrite map_map. Qed.

Ltac crush14 env i s := rewrite flags14_lookup; destruct (env !! i) as [m|]; [|done]; cbn [fmap option_fmap option_map fst snd].
Lemma run14_dtor p : no_mon p -> forall env s,
  let '(o, s1) := urun false sup env p s in
  vrun sup (flags14 (u_unc s) env) p (seen s) = (o, seen s1) /\ match o with UOk => u_unc s1 = u_unc s | UThrew => u_unc s1 = S (u_unc s) | _ => True end.
Proof.
  induction p as [|p IHp q IHq| |id| |p IHp h IHh|d IHd p IHp|n p IHp|p IHp|i|i]; intros Hp env s; cbn [urun vrun]; try done.
  - destruct Hp as [Hp Hq]. specialize (IHp Hp env s). destruct (urun false sup env p s) as [o s1]. destruct IHp as [-> Hu]. destruct o; try done.
    specialize (IHq Hq env s1). rewrite Hu in IHq. by apply IHq.
  - destruct Hp as [Hp Hq]. specialize (IHp Hp env s). destruct (urun false sup env p s) as [o s1]. destruct IHp as [-> Hu]. destruct o; try done.
    specialize (IHh Hq env (uset_unc (Nat.pred (u_unc s1)) s1)). cbn [uset_unc u_unc] in IHh. rewrite Hu in IHh |- *. cbn [Nat.pred] in *. by apply IHh.
  - destruct Hp as [Hd Hp]. specialize (IHp Hp env s). destruct (urun false sup env p s) as [o s1]. destruct IHp as [-> Hu]. destruct o; try done.
    + specialize (IHd Hd env s1). rewrite Hu in IHd. destruct (urun false sup env d s1) as [o2 s2]. destruct IHd as [-> Hd2]. by destruct o2.
    + specialize (IHd Hd env s1). rewrite Hu in IHd. destruct (urun false sup env d s1) as [o2 s2].
      rewrite flags14_thrown in IHd. destruct IHd as [-> Hd2]. by destruct o2.
  - crush14 env i s. pose proof (check_eq false sup m s) as Hc. cbn match in Hc. destruct (ucheck false sup m s) as [id s1]. destruct Hc as [-> Hu]. done.
  - crush14 env i s. pose proof (get_eq sup m s) as Hc. destruct (uget sup m s) as [id s1]. destruct Hc as [-> Hu]. done.
Qed.

Lemma run14 p : quiet_dtors p -> forall env s, u_unc s = 0%nat ->
  let '(o, s1) := urun false sup env p s in
  vrun sup (flags14 0 env) p (seen s) = (o, seen s1) /\ match o with UOk => u_unc s1 = 0%nat | UThrew => u_unc s1 = 1%nat | _ => True end.
Proof.
  induction p as [|p IHp q IHq| |id| |p IHp h IHh|d IHd p IHp|n p IHp|p IHp|i|i]; intros Hp env s H0; cbn [urun vrun]; try (split; [done|]; simpl; congruence).
  - destruct Hp as [Hp Hq]. specialize (IHp Hp env s H0). destruct (urun false sup env p s) as [o s1]. destruct IHp as [-> Hu]. destruct o; try done.
    by apply IHq.
  - destruct Hp as [Hp Hq]. specialize (IHp Hp env s H0). destruct (urun false sup env p s) as [o s1]. destruct IHp as [-> Hu]. destruct o; try done.
    specialize (IHh Hq env (uset_unc (Nat.pred (u_unc s1)) s1)). cbn [uset_unc u_unc] in IHh. rewrite Hu in IHh |- *. cbn [Nat.pred] in *. by apply IHh.
  - destruct Hp as [Hd Hp]. specialize (IHp Hp env s H0). destruct (urun false sup env p s) as [o s1]. destruct IHp as [-> Hu]. destruct o; try done.
    + pose proof (run14_dtor d Hd env s1) as Hr. rewrite Hu in Hr. destruct (urun false sup env d s1) as [o2 s2]. destruct Hr as [-> Hd2]. by destruct o2.
    + pose proof (run14_dtor d Hd env s1) as Hr. rewrite Hu in Hr. destruct (urun false sup env d s1) as [o2 s2].
      rewrite (flags14_thrown 0) in Hr. destruct Hr as [-> Hd2]. by destruct o2.
  - specialize (IHp Hp env s H0). destruct (urun false sup env p s) as [o s1]. destruct IHp as [-> Hu]. destruct o; try done;
      pose proof (check_eq false sup (umon s) s1) as Hc; destruct (ucheck false sup (umon s) s1) as [id s2]; cbn [umon fst snd] in Hc; rewrite Hu in Hc; cbn [Nat.ltb Nat.leb] in Hc;
      destruct Hc as [Hc Hu2]; cbn [seen v_cur] in Hc |- *; rewrite Hc; (destruct (Z.eqb_spec id 0); [rewrite decide_True by done|rewrite decide_False by done]); split; done.
  - specialize (IHp Hp (umon s :: env) s H0). by apply IHp.
  - crush14 env i s. pose proof (check_eq false sup m s) as Hc. cbn match in Hc. rewrite H0 in Hc. destruct (ucheck false sup m s) as [id s1]. destruct Hc as [-> Hu].
    split; [done|]. by cbn [ulog u_unc].
  - crush14 env i s. pose proof (get_eq sup m s) as Hc. rewrite H0 in Hc. destruct (uget sup m s) as [id s1]. destruct Hc as [-> Hu]. split; [done|]. by cbn [ulog u_unc].
Qed.
End proof.

(** With std::uncaught_exceptions: wherever a function is called, and however many exceptions are in flight there, it does what the specification says. *)
Theorem C61_in_flight :
  forall sup p s, let '(o, s1) := urun true sup [] p s in vrun sup [] p (seen s) = (o, seen s1).
Proof. intros sup p s. pose proof (run17 sup p [] s (Forall_nil_2 _)) as H. destruct (urun true sup [] p s) as [o s1]. exact (proj1 H). Qed.
Print Assumptions C61_in_flight.

(** With std::uncaught_exception only: if no exception is in flight at the beginning, and no destructor uses on_error or makes a monitor. *)
Theorem C61_in_flight_partial :
  forall sup p s, u_unc s = 0%nat -> quiet_dtors p -> let '(o, s1) := urun false sup [] p s in vrun sup [] p (seen s) = (o, seen s1).
Proof. intros sup p s H0 Hp. pose proof (run14 sup p Hp [] s H0) as H. destruct (urun false sup [] p s) as [o s1]. exact (proj1 H). Qed.
Print Assumptions C61_in_flight_partial.

(** Otherwise not: a destructor which calls a function that uses on_error and succeeds. It is run because of an exception which is not
    related; on_error's items are loaded, into a new error. *)
Definition ex61_dtor : uprog := UOnError 1 UNop.
Definition ex61_p : uprog := UTry (UGuard ex61_dtor (USeq UNew UThrow)) UNop.
Definition ex61_s : ust := USt 0 0 0 [].
Theorem C61_in_flight_refuted : exists sup p s, u_unc s = 0%nat /\
  u_log (snd (urun false sup [] p s)) = [EvTrigger 1 9] /\ u_gen (snd (urun false sup [] p s)) = 2%nat /\ u_cur (snd (urun false sup [] p s)) = 9 /\
  vrun sup [] p (seen s) = (UOk, VSt 5 1 []).
Proof. exists (fun n => 4 * Z.of_nat n + 5), ex61_p, ex61_s. repeat split. Qed.
Print Assumptions C61_in_flight_refuted.

(** on_errors around and inside destructors, at two levels of exceptions in flight; a monitor of the function checked in a destructor. *)
Definition ex61_q : uprog :=
  UTry (UMonitor (UOnError 0
    (UGuard (USeq (UCheck 0) (USeq (UOnError 1 UNop) (UTry (UOnError 2 (UGuard (UOnError 3 UNop) UThrow)) (UMonitor (UCheck 0)))))
       (UOnError 4 UThrow)))) UNop.
Example ex61 :
  urun true (fun n => 4 * Z.of_nat n + 5) [] ex61_q ex61_s = (UOk, USt 9 2 0 [EvTrigger 0 9; EvCheck 0; EvTrigger 2 9; EvCheck 5; EvTrigger 4 5]) /\
  quiet_dtors (UMonitor (UOnError 0 (UGuard (UCheck 0) UThrow))) /\
  urun false (fun n => 4 * Z.of_nat n + 5) [] (UMonitor (UOnError 0 (UGuard (UCheck 0) UThrow))) ex61_s = (UThrew, USt 5 1 1 [EvTrigger 0 5; EvCheck 5]).
Proof. repeat split. Qed.
