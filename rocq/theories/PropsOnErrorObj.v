(** C44: moving an on_error object does not duplicate or lose its effect. *)
From Verif Require Export OnErrorObj.
Open Scope Z_scope.

(** ** Specification *)
(** How often on_error was called *)
Fixpoint calls (ops : list pop) : nat := match ops with [] => 0 | OCreate _ :: l => S (calls l) | _ :: l => calls l end%nat.
(** The object that o's contents are in after ops; None: destroyed *)
Fixpoint follow (o : nat) (ops : list pop) : option nat :=
  match ops with
  | [] => Some o
  | OMove o2 o1 :: l => follow (if Nat.eqb o1 o then o2 else o) l
  | ODestroy o1 :: l => if Nat.eqb o1 o then None else follow o l
  | _ :: l => follow o l
  end.
(** Is there an error since the current id was [err] and there were [unc] uncaught exceptions; if so its id ([next]: the next new id) *)
Definition since (err : Z) (unc : nat) (cur : Z) (uncn : nat) (next : Z) : Z :=
  if cur =? err then if (unc <? uncn)%nat then next else 0 else cur.
(** New objects are created in unused places, only objects that exist and were not moved from are moved, only existing ones are destroyed. *)
Definition pallowed (op : pop) (s : pstate) : Prop :=
  match op with
  | OCreate o => p_objs s !! o = None
  | OMove o' o => p_objs s !! o' = None /\ exists x, p_objs s !! o = Some x /\ b_moved x = false
  | ODestroy o => is_Some (p_objs s !! o)
  | _ => True
  end.
Inductive pexec (sup : nat -> Z) (s0 : pstate) : list pop -> pstate -> Prop :=
| pexec_nil : pexec sup s0 [] s0
| pexec_snoc ops op s s' : pexec sup s0 ops s -> pallowed op s -> pstep sup op s = Some s' -> pexec sup s0 (ops ++ [op]) s'.

(** Call number n of on_error: the contents arrive in o after ops *)
Definition lives (sup : nat -> Z) (s0 : pstate) (n : nat) (ops : list pop) (o : nat) (err : Z) (unc : nat) : Prop :=
  exists ops1 o0 ops2 s1, ops = ops1 ++ OCreate o0 :: ops2 /\ calls ops1 = n /\ pexec sup s0 ops1 s1 /\ follow o0 ops2 = Some o /\ err = p_cur s1 /\ unc = p_unc s1.

Lemma follow_app o l1 l2 : follow o (l1 ++ l2) = match follow o l1 with Some o' => follow o' l2 | None => None end.
Proof. revert o. induction l1 as [|[]]; intros; simpl; try done. by destruct (Nat.eqb _ _). Qed.
Lemma calls_app l1 l2 : calls (l1 ++ l2) = (calls l1 + calls l2)%nat.
Proof. induction l1 as [|[]]; simpl; auto. Qed.
Lemma pexec_snoc_inv sup s0 ops op s' : pexec sup s0 (ops ++ [op]) s' -> exists s, pexec sup s0 ops s /\ pallowed op s /\ pstep sup op s = Some s'.
Proof. inversion 1 as [E|ops1 op1 s1 s2 H1 H2 H3 E]; [by destruct ops|]. apply app_inj_tail in E as [-> ->]. eauto. Qed.
Lemma pexec_nil_inv sup s0 s : pexec sup s0 [] s -> s = s0.
Proof. intros H. remember [] as l eqn:E. destruct H as [|ops]; [done|]. by destruct ops. Qed.
Lemma pexec_prefix sup s0 ops1 ops2 s : pexec sup s0 (ops1 ++ ops2) s -> exists s1, pexec sup s0 ops1 s1.
Proof.
  revert s. induction ops2 as [|op ops2 IH] using rev_ind; intros s; [rewrite app_nil_r; eauto|]. rewrite app_assoc. intros (s1 & H & _)%pexec_snoc_inv. eauto.
Qed.
Lemma pexec_fun sup s0 ops s1 s2 : pexec sup s0 ops s1 -> pexec sup s0 ops s2 -> s1 = s2.
Proof.
  revert s1 s2. induction ops as [|op ops IH] using rev_ind; intros s1 s2 H1 H2.
  - apply pexec_nil_inv in H1, H2. congruence.
  - apply pexec_snoc_inv in H1 as (t1 & H1 & _ & E1), H2 as (t2 & H2 & _ & E2). assert (t1 = t2) as -> by eauto. congruence.
Qed.

Section run.
Context (sup : nat -> Z) (cur0 : Z) (unc0 gen0 : nat).
Notation s0 := (pinit cur0 unc0 gen0).
Notation exec := (pexec sup s0).
Notation lives' := (lives sup s0).

Lemma lives_snoc n ops op o err unc : lives' n (ops ++ [op]) o err unc <->
  (exists o1, lives' n ops o1 err unc /\ follow o1 [op] = Some o) \/
  (op = OCreate o /\ calls ops = n /\ exists s, exec ops s /\ err = p_cur s /\ unc = p_unc s).
Proof.
  unfold lives. split.
  - intros (ops1 & oo & ops2 & s1 & E & Hn & He & Hf & H1 & H2). destruct ops2 as [|op2 ops2 _] using rev_ind.
    + apply app_inj_tail in E as [<- ->]. right. simpl in Hf. injection Hf as ->. eauto 8.
    + rewrite app_comm_cons, app_assoc in E. apply app_inj_tail in E as [-> ->]. left. rewrite follow_app in Hf. destruct (follow oo ops2) as [o1|] eqn:Ef; [|done].
      exists o1. split; [|done]. exists ops1, oo, ops2, s1. done.
  - intros [(o1 & (ops1 & oo & ops2 & s1 & -> & Hn & He & Hf & H1 & H2) & H3)|(-> & Hn & s & He & H1 & H2)].
    + exists ops1, oo, (ops2 ++ [op]), s1. rewrite <- app_assoc. split; [done|]. split; [done|]. split; [done|]. rewrite follow_app, Hf. done.
    + exists ops, o, [], s. done.
Qed.

Record pinv (ops : list pop) (s : pstate) : Prop := {
  i_calls : p_calls s = calls ops;
  i_obj : forall n o err unc, p_objs s !! o = Some (PObj n false err unc) <-> lives' n ops o err unc;
  i_old : forall o x, p_objs s !! o = Some x -> (b_serial x < p_calls s)%nat;
  i_uniq : forall n o o' x x', p_objs s !! o = Some x -> p_objs s !! o' = Some x' -> b_moved x = false -> b_moved x' = false -> b_serial x = n -> b_serial x' = n -> o = o';
  i_log_old : forall n id, (n, id) ∈ p_log s -> (n < p_calls s)%nat;
  i_log_dead : forall n id, (n, id) ∈ p_log s -> forall o x, p_objs s !! o = Some x -> b_moved x = false -> b_serial x <> n;
  i_log_nodup : NoDup (p_log s).*1 }.

Lemma lives_alive ops s n o err unc : pinv ops s -> lives' n ops o err unc -> p_objs s !! o = Some (PObj n false err unc).
Proof. intros I H. by apply (i_obj _ _ I). Qed.

Lemma pinv_exec ops s : exec ops s -> pinv ops s.
Proof.
  induction 1 as [|ops op s s' He I Ha Hs].
  - constructor; simpl; try done.
    + intros n o err unc. rewrite lookup_empty. split; [done|]. intros (ops1 & oo & ops2 & s1 & E & _). by destruct ops1.
    + intros n id H. by apply elem_of_nil in H.
    + constructor.
  - destruct op as [o|o' o|o|id|k]; cbn [pstep pallowed] in *.
    + injection Hs as <-. pose proof I as [I1 I2 I3 I4 I5 I6 I7]. constructor; simpl.
      * rewrite calls_app. simpl. lia.
      * intros n o1 err unc. rewrite lives_snoc. simpl. destruct (decide (o1 = o)) as [->|Hne].
        -- rewrite lookup_insert. split.
           ++ intros [= <- <- <-]. right. eauto 8.
           ++ intros [(o2 & H & [= ->])|(_ & <- & s1 & He1 & -> & ->)].
              ** apply (lives_alive _ _ _ _ _ _ I) in H. congruence.
              ** rewrite (pexec_fun _ _ _ _ _ He1 He). by rewrite I1.
        -- rewrite lookup_insert_ne by done. rewrite I2. split; [intros H; left; eauto|]. intros [(o2 & H & [= ->])|([= ->] & _)]; done.
      * intros o1 x. destruct (decide (o1 = o)) as [->|]; [rewrite lookup_insert; intros [= <-]; simpl; lia|]. rewrite lookup_insert_ne by done. intros H%I3. lia.
      * intros n o1 o2 x1 x2. destruct (decide (o1 = o)) as [->|], (decide (o2 = o)) as [->|]; try done; rewrite ?lookup_insert; rewrite ?lookup_insert_ne by done.
        -- intros [= <-] H _ _ <- E. simpl in E. apply I3 in H. lia.
        -- intros H [= <-] _ _ <- E. simpl in E. apply I3 in H. lia.
        -- apply I4.
      * intros n id H%I5. lia.
      * intros n id H o1 x. destruct (decide (o1 = o)) as [->|]; [rewrite lookup_insert; intros [= <-] _; simpl; apply I5 in H; lia|]. rewrite lookup_insert_ne by done. eauto.
      * done.
    + destruct Ha as (Hn & x & Hx & Hm). rewrite Hx in Hs. injection Hs as <-. destruct x as [n0 mv err0 unc0']. simpl in Hm. subst mv. simpl.
      pose proof I as [I1 I2 I3 I4 I5 I6 I7]. assert (o <> o') as Hne by congruence.
      assert (forall o1 x1, <[o := PObj n0 true err0 unc0']> (<[o' := PObj n0 false err0 unc0']> (p_objs s)) !! o1 = Some x1 -> b_moved x1 = false ->
        (o1 = o' /\ x1 = PObj n0 false err0 unc0') \/ (o1 <> o /\ o1 <> o' /\ p_objs s !! o1 = Some x1)) as K.
      { intros o1 x1. destruct (decide (o1 = o)) as [->|]; [rewrite lookup_insert; by intros [= <-]|]. rewrite lookup_insert_ne by done.
        destruct (decide (o1 = o')) as [->|]; [rewrite lookup_insert; intros [= <-]; by left|]. rewrite lookup_insert_ne by done. by right. }
      constructor; simpl.
      * rewrite calls_app. simpl. lia.
      * intros n o1 err unc. rewrite lives_snoc. simpl. split.
        -- intros H. left. destruct (K _ _ H eq_refl) as [[-> [= -> -> ->]]|(H1 & H2 & H3)].
           ++ exists o. rewrite Nat.eqb_refl. split; [|done]. by apply I2.
           ++ exists o1. rewrite (proj2 (Nat.eqb_neq _ _)) by done. split; [|done]. by apply I2.
        -- intros [(o2 & H & E)|[? _]]; [|done]. injection E as E. apply I2 in H. destruct (Nat.eqb_spec o o2) as [->|Hno].
           ++ subst o1. rewrite lookup_insert_ne, lookup_insert by done. congruence.
           ++ subst o1. rewrite lookup_insert_ne by done. rewrite lookup_insert_ne; [done|]. congruence.
      * intros o1 x1. destruct (decide (o1 = o)) as [->|]; [rewrite lookup_insert; intros [= <-]; simpl; by apply I3 in Hx|]. rewrite lookup_insert_ne by done.
        destruct (decide (o1 = o')) as [->|]; [rewrite lookup_insert; intros [= <-]; simpl; by apply I3 in Hx|]. rewrite lookup_insert_ne by done. apply I3.
      * intros n o1 o2 x1 x2 H1 H2 M1 M2 E1 E2. destruct (K _ _ H1 M1) as [[-> ->]|(A1 & A2 & A3)], (K _ _ H2 M2) as [[-> ->]|(B1 & B2 & B3)]; try done; simpl in *.
        -- exfalso. apply B1. eapply I4; eauto. 
        -- exfalso. apply A1. eapply I4; eauto.
        -- eauto.
      * done.
      * intros n id Hl o1 x1 H1 M1. destruct (K _ _ H1 M1) as [[-> ->]|(A1 & A2 & A3)]; [|eauto]. simpl. eapply (I6 _ _ Hl _ _ Hx). done.
      * done.
    + destruct Ha as [x Hx]. rewrite Hx in Hs. pose proof I as [I1 I2 I3 I4 I5 I6 I7].
      assert (forall o1 x1, delete o (p_objs s) !! o1 = Some x1 -> o1 <> o /\ p_objs s !! o1 = Some x1) as K.
      { intros o1 x1 [? ?]%lookup_delete_Some. done. }
      assert (forall n o1 err unc, delete o (p_objs s) !! o1 = Some (PObj n false err unc) <-> lives' n (ops ++ [ODestroy o]) o1 err unc) as J2.
      { intros n o1 err unc. rewrite lives_snoc. simpl. split.
        - intros [H1 H2]%K. left. exists o1. rewrite (proj2 (Nat.eqb_neq _ _)) by done. split; [|done]. by apply I2.
        - intros [(o2 & H & E)|[? _]]; [|done]. destruct (Nat.eqb_spec o o2); [done|]. injection E as ->. apply I2 in H. by rewrite lookup_delete_ne. }
      assert (calls (ops ++ [ODestroy o]) = p_calls s) as Ec by (rewrite calls_app; simpl; lia).
      assert (forall s2, p_calls s2 = p_calls s -> p_objs s2 = delete o (p_objs s) -> p_log s2 = p_log s -> pinv (ops ++ [ODestroy o]) s2) as Done.
      { intros s2 E1 E2 E3. constructor; rewrite ?E1, ?E2, ?E3; auto.
        - intros o1 x1 [_ H]%K. eauto.
        - intros n o1 o2 x1 x2 [_ H1]%K [_ H2]%K. eauto.
        - intros n id Hl o1 x1 [_ H]%K. eauto. }
      destruct (b_moved x) eqn:Em; [injection Hs as <-; by apply Done|].
      destruct (check_id sup x (with_obj (delete o (p_objs s)) s)) as [id s2] eqn:Eck. injection Hs as <-.
      assert (p_calls s2 = p_calls s /\ p_objs s2 = delete o (p_objs s) /\ p_log s2 = p_log s) as (F1 & F2 & F3).
      { unfold check_id in Eck. simpl in Eck. repeat case_match; simplify_eq; done. }
      destruct (id =? 0); [by apply Done|]. destruct (Done _ F1 F2 F3) as [D1 D2 D3 D4 D5 D6 D7]. constructor; simpl; auto.
      * intros n id0 [[= -> ->]|H]%elem_of_cons; [rewrite F1; eauto|eauto].
      * intros n id0 [[= -> ->]|H]%elem_of_cons; [|eauto]. rewrite F2. intros o1 x1 [H1 H2]%K M1 E. apply H1. eauto.
      * constructor; [|done]. rewrite F3. intros ([n id0] & E & H)%elem_of_list_fmap. simpl in E. subst n. eapply I6; eauto.
    + injection Hs as <-. destruct I as [I1 I2 I3 I4 I5 I6 I7]. constructor; simpl; auto; [rewrite calls_app; simpl; lia|]. intros. rewrite lives_snoc, I2. simpl. naive_solver.
    + injection Hs as <-. destruct I as [I1 I2 I3 I4 I5 I6 I7]. constructor; simpl; auto; [rewrite calls_app; simpl; lia|]. intros. rewrite lives_snoc, I2. simpl. naive_solver.
Qed.
End run.

(** The items of call number n of on_error are triggered with id exactly if: the contents of the object returned by that call were, through any
    number of moves, in an object o which was destroyed when there was an error, with this id, since the call. And at most once. *)
Theorem C44_on_error_moves : forall sup cur unc gen ops s, pexec sup (pinit cur unc gen) ops s ->
  NoDup (p_log s).*1 /\
  forall n id, (n, id) ∈ p_log s <->
    exists ops1 ops2 o err un s1, ops = ops1 ++ ODestroy o :: ops2 /\ lives sup (pinit cur unc gen) n ops1 o err un /\
      pexec sup (pinit cur unc gen) ops1 s1 /\ id = since err un (p_cur s1) (p_unc s1) (sup (p_gen s1)) /\ id <> 0.
Proof.
  intros sup cur unc gen ops s He. split; [apply (i_log_nodup _ _ _ _ _ _ (pinv_exec _ _ _ _ _ _ He))|]. intros n id.
  induction He as [|ops op s s' He IH Ha Hs].
  - simpl. split; [intros H; by apply elem_of_nil in H|]. intros (ops1 & ops2 & o & err & un & s1 & E & _). by destruct ops1.
  - pose proof (pinv_exec _ _ _ _ _ _ He) as I.
    assert ((n, id) ∈ p_log s' <-> (n, id) ∈ p_log s \/ exists o err un, op = ODestroy o /\ p_objs s !! o = Some (PObj n false err un) /\
      id = since err un (p_cur s) (p_unc s) (sup (p_gen s)) /\ id <> 0) as ->.
    { destruct op as [o|o' o|o|i|k]; cbn [pstep pallowed] in *; try (injection Hs as <-; simpl; naive_solver).
      { destruct Ha as (_ & x & Hx & _). rewrite Hx in Hs. injection Hs as <-. simpl. naive_solver. }
      destruct Ha as [[n1 mv err un] Hx]. rewrite Hx in Hs. simpl in Hs. destruct mv.
      { injection Hs as <-. simpl. split; [auto|]. intros [?|(o1 & e1 & u1 & [= <-] & E & _)]; [done|]. congruence. }
      destruct (check_id sup _ _) as [id1 s2] eqn:Eck. injection Hs as <-. unfold check_id in Eck. simpl in Eck.
      assert (id1 = since err un (p_cur s) (p_unc s) (sup (p_gen s)) /\ p_log s2 = p_log s) as [-> El].
      { unfold since. destruct (p_cur s =? err); simpl in Eck; [destruct (un <? p_unc s)%nat|]; by simplify_eq. }
      destruct (Z.eqb_spec (since err un (p_cur s) (p_unc s) (sup (p_gen s))) 0) as [E0|E0]; simpl; rewrite El.
      - split; [auto|]. intros [?|(o1 & e1 & u1 & [= <-] & E & -> & ?)]; [done|]. rewrite Hx in E. by injection E as -> -> ->.
      - rewrite elem_of_cons. split.
        + intros [[= -> ->]|?]; [|auto]. right. eauto 8.
        + intros [?|(o1 & e1 & u1 & [= <-] & E & -> & ?)]; [auto|]. rewrite Hx in E. injection E as -> -> ->. by left. }
    rewrite IH. split.
    + intros [(ops1 & ops2 & o & err & un & s1 & -> & H)|(o & err & un & -> & H1 & H2)].
      * exists ops1, (ops2 ++ [op]), o, err, un, s1. by rewrite <- app_assoc.
      * exists ops, [], o, err, un, s. split; [done|]. split; [|done]. by apply (i_obj _ _ _ _ _ _ I).
    + intros (ops1 & ops2 & o & err & un & s1 & E & Hl & He1 & Hid). destruct ops2 as [|op2 ops2 _] using rev_ind.
      * apply app_inj_tail in E as [<- ->]. right. exists o, err, un. split; [done|]. rewrite <- (pexec_fun _ _ _ _ _ He1 He). split; [|done].
        rewrite (pexec_fun _ _ _ _ _ He1 He). by apply (i_obj _ _ _ _ _ _ I).
      * rewrite app_comm_cons, app_assoc in E. apply app_inj_tail in E as [-> ->]. left. exists ops1, ops2, o, err, un, s1. done.
Qed.
Print Assumptions C44_on_error_moves.

Lemma pcur_destroy sup s0 ops o s s' : pexec sup s0 ops s -> pstep sup (ODestroy o) s = Some s' ->
  p_cur s' = p_cur s \/ exists x, p_objs s !! o = Some x /\ b_moved x = false /\ b_err x = p_cur s.
Proof.
  intros _. simpl. destruct (p_objs s !! o) as [x|]; [|done]. destruct (b_moved x) eqn:Em; [intros [= <-]; by left|].
  unfold check_id. simpl. destruct (Z.eqb_spec (p_cur s) (b_err x)) as [E|E]; simpl; [right; exists x; done|]. intros [= <-]. left. by destruct (_ =? 0).
Qed.
Lemma destroy_triggers sup s0 ops o n err un s s' : pexec sup s0 ops s -> p_objs s !! o = Some (PObj n false err un) -> pstep sup (ODestroy o) s = Some s' ->
  since err un (p_cur s) (p_unc s) (sup (p_gen s)) <> 0 -> p_cur s' = since err un (p_cur s) (p_unc s) (sup (p_gen s)).
Proof.
  intros _ Hx. simpl. rewrite Hx. simpl. unfold check_id, since. simpl. destruct (p_cur s =? err); simpl; [destruct (un <? p_unc s)%nat|]; simpl; intros [= <-] H; try done; by destruct (_ =? 0).
Qed.

(** One error has one id: when objects are destroyed one after the other (as when an exception passes through their scopes) and the items of one are
    triggered with id, then the items of all that are destroyed after it are triggered with the same id (if they were created before that id was
    current). *)
Theorem C44_one_id : forall sup cur unc gen ops n1 o1 err1 un1 s1, let s0 := pinit cur unc gen in
  pexec sup s0 ops s1 -> lives sup s0 n1 ops o1 err1 un1 ->
  forall id, id = since err1 un1 (p_cur s1) (p_unc s1) (sup (p_gen s1)) -> id <> 0 ->
  forall os s', (forall o n err un, o ∈ os -> lives sup s0 n ops o err un -> err <> id) -> pexec sup s0 (ops ++ (ODestroy <$> (o1 :: os))) s' ->
  forall o n err un, o ∈ o1 :: os -> lives sup s0 n ops o err un -> (n, id) ∈ p_log s'.
Proof.
  intros sup cur unc gen ops n1 o1 err1 un1 s1 s0 H1 L1 id Eid Hnz os.
  assert (forall ds n o err un, lives sup s0 n (ops ++ (ODestroy <$> ds)) o err un <-> lives sup s0 n ops o err un /\ o ∉ ds) as Hl.
  { intros ds n o err un. induction ds as [|d ds IH] using rev_ind; [rewrite app_nil_r; split; [intros; split; [done|apply not_elem_of_nil]|by intros []]|].
    rewrite fmap_app, app_assoc. simpl. etransitivity; [exact (lives_snoc sup cur unc gen n _ _ o err un)|]. fold s0. simpl. rewrite not_elem_of_app, elem_of_list_singleton. split.
    - intros [(o2 & H & E)|[? _]]; [|done]. destruct (Nat.eqb_spec d o2); [done|]. injection E as ->. apply IH in H as []. split; [done|]. split; [done|congruence].
    - intros (H & Hn & Hd). left. exists o. rewrite (proj2 (Nat.eqb_neq _ _)) by congruence. split; [|done]. by apply IH. }
  induction os as [|d os IH] using rev_ind; intros s' Ho He o n err un Hin Hlo.
  - simpl in He. apply elem_of_list_singleton in Hin as ->.
    apply (C44_on_error_moves _ _ _ _ _ _ He). pose proof (lives_alive _ _ _ _ _ _ _ _ _ _ (pinv_exec _ _ _ _ _ _ H1) L1) as A1.
    pose proof (lives_alive _ _ _ _ _ _ _ _ _ _ (pinv_exec _ _ _ _ _ _ H1) Hlo) as A2. rewrite A1 in A2. injection A2 as <- <- <-.
    exists ops, [], o1, err1, un1, s1. done.
  - rewrite app_comm_cons, fmap_app, app_assoc in He. apply pexec_snoc_inv in He as (s & He & Ha & Hs).
    assert (forall o n err un, o ∈ os -> lives sup s0 n ops o err un -> err <> id) as Ho' by (intros; eapply Ho; [apply elem_of_app; by left|done]).
    pose proof (pexec_snoc _ _ _ _ _ _ He Ha Hs) as Hes.
    rewrite app_comm_cons in Hin. destruct (decide (o ∈ o1 :: os)) as [Hin'|Hnin].
    { pose proof (IH _ Ho' He _ _ _ _ Hin' Hlo) as K. apply (C44_on_error_moves _ _ _ _ _ _ He) in K as (p1 & p2 & o' & e' & u' & t & E & K).
      apply (C44_on_error_moves _ _ _ _ _ _ Hes). exists p1, (p2 ++ [ODestroy d]), o', e', u', t. split; [rewrite E; by rewrite <- app_assoc|done]. }
    apply elem_of_app in Hin as [?|Hin]; [done|]. apply elem_of_list_singleton in Hin as ->.
    apply (C44_on_error_moves _ _ _ _ _ _ Hes). exists (ops ++ (ODestroy <$> (o1 :: os))), [], d, err, un, s. split; [done|]. split; [apply Hl; done|]. split; [done|].
    assert (err <> id) as Hne by (eapply Ho; [apply elem_of_app; right; apply elem_of_list_singleton; done|done]).
    assert (p_cur s = id) as ->.
    { clear - He H1 L1 Eid Hnz Ho' Hl. subst id. revert s He. induction os as [|d os IH] using rev_ind; intros s He.
      - simpl in He. apply pexec_snoc_inv in He as (t & He & _ & Hs). rewrite (pexec_fun _ _ _ _ _ He H1) in Hs. eapply destroy_triggers; [exact H1| |exact Hs|done].
        by apply (lives_alive _ _ _ _ _ _ _ _ _ _ (pinv_exec _ _ _ _ _ _ H1)).
      - rewrite app_comm_cons, fmap_app, app_assoc in He. apply pexec_snoc_inv in He as (t & He & _ & Hs). assert (p_cur t = since err1 un1 (p_cur s1) (p_unc s1) (sup (p_gen s1))) as Et.
        { apply IH; [|done]. intros; eapply Ho'; [apply elem_of_app; by left|done]. }
        destruct (pcur_destroy _ _ _ _ _ _ He Hs) as [->|([n' mv err un] & Hx & Hm & Hc)]; [done|]. simpl in *. subst mv. exfalso.
        apply (i_obj _ _ _ _ _ _ (pinv_exec _ _ _ _ _ _ He)) in Hx. apply (Hl (o1 :: os)) in Hx as [Hx _]. eapply Ho'; [apply elem_of_app; right; apply elem_of_list_singleton; done|exact Hx|]. congruence. }
    unfold since at 1. rewrite (proj2 (Z.eqb_neq id err)) by congruence. done.
Qed.
Print Assumptions C44_one_id.

(** An id which is generated when an object is destroyed has not been generated before and is not generated again. *)
Lemma pgen_mono sup s0 ops1 ops2 s1 s2 : pexec sup s0 ops1 s1 -> pexec sup s0 (ops1 ++ ops2) s2 -> (p_gen s1 <= p_gen s2)%nat.
Proof.
  intros H1. revert s2. induction ops2 as [|op ops2 IH] using rev_ind; intros s2 H2.
  - rewrite app_nil_r in H2. by rewrite (pexec_fun _ _ _ _ _ H1 H2).
  - rewrite app_assoc in H2. apply pexec_snoc_inv in H2 as (s & H & _ & Hs). etransitivity; [by apply IH|]. destruct op as [o|o' o|o|i|k]; simpl in Hs; try (by injection Hs as <-).
    + destruct (p_objs s !! o); [|done]. by injection Hs as <-.
    + destruct (p_objs s !! o) as [x|]; [|done]. destruct (b_moved x); [by injection Hs as <-|]. unfold check_id in Hs. simpl in Hs. repeat case_match; simplify_eq; simpl; lia.
Qed.
Theorem C44_generated_ids_are_new : forall sup cur unc gen ops1 o1 ops2 o2 n1 err1 un1 n2 err2 un2 s1 s2, let s0 := pinit cur unc gen in
  (forall i j, sup i = sup j -> i = j) ->
  pexec sup s0 ops1 s1 -> lives sup s0 n1 ops1 o1 err1 un1 -> p_cur s1 = err1 -> (un1 < p_unc s1)%nat ->
  pexec sup s0 (ops1 ++ ODestroy o1 :: ops2) s2 -> lives sup s0 n2 (ops1 ++ ODestroy o1 :: ops2) o2 err2 un2 -> p_cur s2 = err2 -> (un2 < p_unc s2)%nat ->
  since err1 un1 (p_cur s1) (p_unc s1) (sup (p_gen s1)) <> since err2 un2 (p_cur s2) (p_unc s2) (sup (p_gen s2)).
Proof.
  intros sup cur unc gen ops1 o1 ops2 o2 n1 err1 un1 n2 err2 un2 s1 s2 s0 Hinj H1 L1 E1 U1 H2 L2 E2 U2.
  unfold since. rewrite E1, E2, !Z.eqb_refl, !(proj2 (Nat.ltb_lt _ _)) by done. intros He%Hinj.
  assert (pexec sup s0 ((ops1 ++ [ODestroy o1]) ++ ops2) s2) as H2' by (by rewrite <- app_assoc).
  destruct (pexec_prefix _ _ _ _ _ H2') as [t Ht]. pose proof (pgen_mono _ _ _ _ _ _ Ht H2') as Hle.
  apply pexec_snoc_inv in Ht as (t1 & Ht1 & _ & Hs). rewrite (pexec_fun _ _ _ _ _ Ht1 H1) in Hs. simpl in Hs.
  rewrite (lives_alive _ _ _ _ _ _ _ _ _ _ (pinv_exec _ _ _ _ _ _ H1) L1) in Hs. simpl in Hs. unfold check_id in Hs. simpl in Hs.
  rewrite E1, Z.eqb_refl, (proj2 (Nat.ltb_lt _ _)) in Hs by done. simpl in Hs. injection Hs as <-. destruct (sup (p_gen s1) =? 0); simpl in Hle; lia.
Qed.
Print Assumptions C44_generated_ids_are_new.
(** Two exceptions after each other, each passing an object, after the first the current id is 0 again: ids 5 and 9 *)
Example ex44_new : exists s, prun (fun n => 4 * Z.of_nat n + 5) [OCreate 0; OSetUnc 1; ODestroy 0; OSetUnc 0; OSetCur 0; OCreate 1; OSetUnc 1; ODestroy 1]%nat (pinit 0 0 0) = Some s /\
  p_log s = [(1%nat, 9); (0%nat, 5)].
Proof. eexists. split; [vm_compute; reflexivity|reflexivity]. Qed.

(** One object moved twice, its sources destroyed in between, an error (id 9) in between; another object created after the error. *)
Definition ops44 : list pop := [OCreate 0; OMove 1 0; ODestroy 0; OSetCur 9; OCreate 2; OMove 3 1; ODestroy 1; ODestroy 2; ODestroy 3]%nat.
Definition pallowed_b (op : pop) (s : pstate) : bool :=
  match op with
  | OCreate o => match p_objs s !! o with None => true | _ => false end
  | OMove o' o => match p_objs s !! o', p_objs s !! o with None, Some x => negb (b_moved x) | _, _ => false end
  | ODestroy o => match p_objs s !! o with Some _ => true | _ => false end
  | _ => true
  end.
Fixpoint prun_b (sup : nat -> Z) (ops : list pop) (s : pstate) : option pstate :=
  match ops with [] => Some s | op :: ops' => if pallowed_b op s then match pstep sup op s with Some s' => prun_b sup ops' s' | None => None end else None end.
Lemma prun_b_exec sup s0 ops : forall pre s s', pexec sup s0 pre s -> prun_b sup ops s = Some s' -> pexec sup s0 (pre ++ ops) s'.
Proof.
  induction ops as [|op ops IH]; intros pre s s' H; simpl; [intros [= <-]; by rewrite app_nil_r|]. destruct (pallowed_b op s) eqn:Ea; [|done].
  destruct (pstep sup op s) as [s1|] eqn:E; [|done]. intros Hr. change (op :: ops) with ([op] ++ ops). rewrite app_assoc. eapply IH; [|done]. econstructor; [done| |done].
  destruct op; simpl in *; try done; repeat case_match; try done; eauto. split; [done|]. eexists. split; [done|]. by apply negb_true_iff.
Qed.
Example ex44 : exists s, pexec (fun n => 4 * Z.of_nat n + 5) (pinit 0 0 0) ops44 s /\ p_log s = [(0%nat, 9)].
Proof.
  eexists. split; [apply (prun_b_exec _ _ ops44 [] (pinit 0 0 0)); [constructor|vm_compute; reflexivity]|reflexivity].
Qed.
(** Moving from an object that was already moved from makes another object which triggers (moved_ is false in every new object). *)
Example ex44_moved_twice : p_log <$> prun (fun n => 4 * Z.of_nat n + 5) [OCreate 0; OMove 1 0; OMove 2 0; OSetCur 9; ODestroy 0; ODestroy 1; ODestroy 2]%nat (pinit 0 0 0) =
  Some [(0%nat, 9); (0%nat, 9)].
Proof. vm_compute. reflexivity. Qed.

(** Two objects, a foreign exception: one new id (5) for both. *)
Example ex44_one_id : p_log <$> prun (fun n => 4 * Z.of_nat n + 5) [OCreate 0; OCreate 1; OSetUnc 1; ODestroy 1; ODestroy 0]%nat (pinit 0 0 0) = Some [(0%nat, 5); (1%nat, 5)].
Proof. vm_compute. reflexivity. Qed.
