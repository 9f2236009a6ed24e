(** C62: exceptions thrown by the constructors of values. *)
From Verif Require Export ResultThrow PropsResultObj.
Open Scope Z_scope.

(** ** Specification, on what results hold (PropsResultObj.v) *)
Definition tallowed (op : top) (A : aress) : Prop :=
  match op with
  | TOp op => rallowed op A
  | TValue _ r _ => A !! r = None
  | TMoveConv r' r _ => A !! r' = None /\ is_Some (A !! r)
  | TAssignConv r' r _ => is_Some (A !! r') /\ is_Some (A !! r) /\ r' <> r
  end.
(** The state of another result type after conversion. None: the conversion of the value throws. *)
Definition converted (f : option Z -> Z + Z) (a : ares) : option ares :=
  match a with SVal z => match f z with inl v => Some (SVal (Some v)) | inr _ => None end | a => Some a end.
(** [nothrow]: the constructors from which exceptions do not get out. None: the process is terminated. *)
Definition tspec (nothrow : vctor -> bool) (op : top) (A : aress) : option (tob * aress) :=
  match op with
  | TOp op => Some (BObs (robserve op A), reffect op A)
  | TValue c r (inl z) => Some (BObs (inl ONone), <[r := SVal (Some z)]> A)
  | TValue c r (inr e) => if nothrow c then None else Some (BUser e, A) (* there is no result; the others are as before *)
  | TMoveConv r' r f | TAssignConv r' r f =>
      match A !! r with
      | Some a => match converted f a with Some b => Some (BObs (inl ONone), <[r' := b]> (<[r := moved_from a]> A)) | None => None end
      | None => None
      end
  end.
Fixpoint tspecs (nothrow : vctor -> bool) (ops : list top) (A : aress) : list tob * option aress :=
  match ops with
  | [] => ([], Some A)
  | op :: ops' => match tspec nothrow op A with Some (b, A') => let '(bs, e) := tspecs nothrow ops' A' in (b :: bs, e) | None => ([], None) end
  end.
Fixpoint tall (nothrow : vctor -> bool) (ops : list top) (A : aress) : Prop :=
  match ops with
  | [] => True
  | op :: ops' => tallowed op A /\ match tspec nothrow op A with Some (_, A') => tall nothrow ops' A' | None => True end
  end.
(** Documented (leaf.adoc:4534, 4555): moving a T does not throw; every other initialization of a value may throw, depending on the constructor of T. *)
Definition documented (c : vctor) : bool := match c with VMoved => true | _ => false end.
(** In fact: values made from several arguments, or from an argument of another type, too; with the clang workaround the latter are as documented. *)
Definition actual (clang : bool) (c : vctor) : bool := match c with VMoved | VSeveral => true | VOther => negb clang | VDefault | VCopied => false end.

(** ** Proof *)
Lemma rinv_conv A s r' r a x f : rinv A s -> A !! r = Some a -> o_objs s !! r = Some x -> A !! r' = None ->
  match converted f a with
  | Some b => exists y x' s1, move_conv f x s = Some (Some (y, x', s1)) /\ rinv (<[r' := b]> (<[r := moved_from a]> A)) (set_obj r' y (set_obj r x' s1))
  | None => move_conv f x s = Some None
  end.
Proof.
  intros I HA Hx HA'. pose proof (v_match _ _ I _ _ _ HA Hx) as Hm.
  destruct a as [z|id|id objs ex].
  - simpl in Hm. destruct Hm as [i ->]. unfold move_conv. simpl. rewrite decide_True by by eapply rinv_alive. destruct (f z) as [v|e]; [|done].
    eexists _, _, _. split; [reflexivity|].
    apply (rinv_new _ (set_obj r (RObj (MVal i None) disc_val) s) r' (RObj (MVal (o_made s) (Some v)) disc_val) (SVal (Some v))); simpl; eauto.
    + eapply rinv_set; try done. eexists; done.
    + rewrite lookup_insert_ne; [done|]. congruence.
  - destruct (rinv_move _ _ r' _ _ _ I HA Hx HA') as (y & x' & s1 & E & I'). simpl. exists y, x', s1. split; [|done].
    destruct Hm as [-> _]. unfold move_conv. rewrite E. simpl. by destruct (disc_kind _).
  - destruct (rinv_move _ _ r' _ _ _ I HA Hx HA') as (y & x' & s1 & E & I'). simpl. exists y, x', s1. split; [|done].
    destruct Hm as [[i ->] _]. unfold move_conv. rewrite E. simpl. by destruct (disc_kind _).
Qed.
(** move_conv looks at the members alive only *)
Lemma move_conv_objs f x s o : move_conv f x (RState o (o_made s) (o_live s) (o_freed s)) =
  match move_conv f x s with Some (Some (y, x', s1)) => Some (Some (y, x', RState o (o_made s1) (o_live s1) (o_freed s1))) | e => e end /\
  (forall y x' s1, move_conv f x s = Some (Some (y, x', s1)) -> o_objs s1 = o_objs s).
Proof.
  unfold move_conv, move_from. destruct (disc_kind (r_what x)), (r_u x); simpl; try (case_decide; simpl); try destruct (f _); simpl; split; try done; intros; naive_solver.
Qed.

Definition tres_of (x : tres) : option (option (tob * rstate)) :=
  match x with
  | TRes x => match robs_of x with Some (o, s) => Some (Some (BObs o, s)) | None => None end
  | TUser e s => Some (Some (BUser e, s))
  | TTerminate => Some None
  end.
Lemma tstep_ok wa op A s : rinv A s -> tallowed op A ->
  match tspec (actual wa) op A with
  | Some (b, A') => exists s', tres_of (tstep wa op s) = Some (Some (b, s')) /\ rinv A' s'
  | None => tres_of (tstep wa op s) = Some None
  end.
Proof.
  intros I Hal. destruct op as [op|c r [z|e]|r' r f|r' r f]; cbn [tallowed tspec tstep tres_of] in *.
  - destruct (rstep_ok op A s I Hal) as (s' & -> & I'). eauto.
  - destruct (rstep_ok (RNewVal r z) A s I Hal) as (s' & -> & I'). eauto.
  - assert (vnoexcept wa c = actual wa c) as -> by by destruct c. destruct (actual wa c); [done|]. eauto.
  - destruct Hal as [Hn [a Ha]]. destruct (rinv_get _ _ _ _ I Ha) as (x & Hx & Hm). rewrite Hx, Ha.
    pose proof (rinv_conv _ _ r' _ _ _ f I Ha Hx Hn) as K. destruct (converted f a).
    + destruct K as (y & x' & s1 & -> & I'). eauto.
    + by rewrite K.
  - destruct Hal as ([b Hb] & [a Ha] & Hne). destruct (rinv_get _ _ _ _ I Hb) as (y & Hy & Hmy). rewrite Hy, Ha.
    destruct (rinv_destroy _ _ _ _ _ I Hb Hy) as (s1 & -> & Eo & I1). simpl. rewrite lookup_insert_ne, Eo by done.
    destruct (rinv_get _ _ _ _ I Ha) as (x & Hx & Hm). rewrite Hx.
    pose proof (rinv_conv _ _ r' r a x f I1) as K.
    assert (delete r' A !! r = Some a) as Ha' by by rewrite lookup_delete_ne. assert (delete r' A !! r' = None) as Hn' by by rewrite lookup_delete.
    specialize (K Ha'). simpl in K. rewrite Eo, lookup_delete_ne in K by done. specialize (K Hx Hn').
    destruct (move_conv_objs f x (RState (delete r' (o_objs s)) (o_made s1) (o_live s1) (o_freed s1)) (<[r' := RObj MNone (r_what y)]> (o_objs s1))) as [E1 E2]. simpl in E1.
    change (RState (<[r' := RObj MNone (r_what y)]> (o_objs s1)) (o_made s1) (o_live s1) (o_freed s1)) with (set_obj r' (RObj MNone (r_what y)) s1) in E1.
    rewrite E1. destruct (converted f a) as [b'|].
    + destruct K as (y1 & x1 & s2 & E & I2). rewrite E in *. specialize (E2 _ _ _ eq_refl). simpl in E2. eexists. split; [reflexivity|].
      rewrite (insert_commute _ r' r) in I2 by done. rewrite insert_delete_insert in I2. rewrite (insert_commute _ r r') in I2 by done.
      assert (set_obj r' y1 (set_obj r x1 (RState (<[r' := RObj MNone (r_what y)]> (o_objs s1)) (o_made s2) (o_live s2) (o_freed s2))) = set_obj r' y1 (set_obj r x1 s2)) as ->; [|done].
      unfold set_obj. simpl. f_equal. rewrite E2, Eo, !(insert_commute _ r' r) by done. by rewrite insert_insert, insert_delete_insert.
    + by rewrite K.
Qed.
Lemma trun_ok wa ops : forall A s, rinv A s -> tall (actual wa) ops A ->
  exists e, trun wa ops s = Some (fst (tspecs (actual wa) ops A), e) /\
  match snd (tspecs (actual wa) ops A), e with Some A', Some s' => rinv A' s' | None, None => True | _, _ => False end.
Proof.
  induction ops as [|op ops IH]; intros A s I Ha; [by exists (Some s)|]. destruct Ha as [H1 H2]. cbn [trun tspecs].
  pose proof (tstep_ok wa op A s I H1) as K. destruct (tspec (actual wa) op A) as [[b A']|].
  - destruct K as (s' & E & I'). destruct (IH _ _ I' H2) as (e & E2 & K2). exists e. destruct (tspecs (actual wa) ops A') as [bs z]. simpl in *. split; [|done].
    destruct (tstep wa op s) as [[]| |]; simpl in *; try discriminate; injection E as <- <-; by rewrite E2.
  - exists None. split; [|done]. by destruct (tstep wa op s) as [[]| |].
Qed.

(** ** Theorems *)
(** Whatever operations are done, and whichever constructors of values throw: an exception leaves the constructor of the result, no result and no
    value exist then, all others are untouched; or (values made from several arguments or from another type, conversions between result types) the
    process is terminated. Nothing else: no member is destroyed twice, used after or before its lifetime, or leaked. *)
Theorem C62_value_constructors_partial : forall clang ops, tall (actual clang) ops ∅ ->
  exists e, trun clang ops rinit = Some (fst (tspecs (actual clang) ops ∅), e) /\
  match snd (tspecs (actual clang) ops ∅), e with
  | None, None => True
  | Some A, Some s =>
      (forall r, is_Some (o_objs s !! r) <-> is_Some (A !! r)) /\
      o_made s = (o_freed s + size (o_live s))%nat /\
      (forall i, i ∈ o_live s <-> exists r x, o_objs s !! r = Some x /\ member (r_u x) = Some i) /\
      (A = ∅ -> o_live s = ∅ /\ o_made s = o_freed s)
  | _, _ => False
  end.
Proof.
  intros wa ops H. assert (rinv ∅ rinit) as I0.
  { constructor; simpl; try done. intros i. split; [set_solver|]. intros (r & x & H1 & _). by rewrite lookup_empty in H1. }
  destruct (trun_ok wa ops ∅ rinit I0 H) as (e & E & K). exists e. split; [done|]. destruct (snd _) as [A|], e as [s|]; try done. pose proof K as [V1 V2 V3 V4 V5 V6].
  split; [|split; [done|split; [done|]]].
  - intros r. rewrite <- !not_eq_None_Some. by rewrite V1.
  - intros ->. assert (o_live s = ∅) as L.
    { apply set_eq. intros i. split; [|set_solver]. intros (r & x & H1 & _)%V3. assert (o_objs s !! r = None) by by apply V1. congruence. }
    split; [done|]. rewrite V6, L, size_empty. lia.
Qed.
Print Assumptions C62_value_constructors_partial.

(** The documented behaviour: result<std::string>("literal") reports bad_alloc by throwing it; the code calls std::terminate. Likewise with several
    arguments, there with the clang workaround too. *)
Theorem C62_value_constructors_refuted : exists c1 c2 e,
  (forall clang, trun clang [TValue c1 0 (inr e)] rinit = Some ([], None)) /\ trun false [TValue c2 0 (inr e)] rinit = Some ([], None) /\
  tspecs documented [TValue c1 0 (inr e)] ∅ = ([BUser e], Some ∅) /\ tspecs documented [TValue c2 0 (inr e)] ∅ = ([BUser e], Some ∅) /\ c1 <> c2.
Proof. exists VSeveral, VOther, 7. split; [by intros []|]. by repeat split. Qed.
Print Assumptions C62_value_constructors_refuted.

(** A copy throws; a result is made from a moved value, converted to another type and assigned over it; a failure is converted with a conversion that
    would throw; at the end a conversion does throw. *)
Definition ok62 (z : option Z) : Z + Z := match z with Some v => inl (v + 100) | None => inr 9 end.
Definition ops62 : list top :=
  [TValue VCopied 0 (inr 5); TValue VDefault 0 (inr 6); TValue VMoved 0 (inl 1); TMoveConv 1 0 ok62; TOp (RArrow 1); TOp (RArrow 0);
   TOp (RNewCap 2 5 [7; 8] None); TMoveConv 3 2 (fun _ => inr 1); TOp (RErrorId 3); TAssignConv 3 1 ok62; TOp (RArrow 3); TOp (RArrow 1);
   TOp (RDestroy 0); TOp (RDestroy 2); TOp (RDestroy 3); TOp (RDestroy 1)].
Example ex62_allowed : tall (actual false) ops62 ∅ /\ tall (actual false) (take 12 ops62 ++ [TMoveConv 4%nat 1%nat ok62]) ∅.
Proof. vm_compute. repeat split; try (eexists; reflexivity); try (intros; discriminate); try lia; auto. Qed.
Example ex62 :
  match trun false ops62 rinit with Some (os, Some s) => (os, elements (o_live s), o_made s, o_freed s) | _ => ([], [], 0%nat, 1%nat) end =
  ([BUser 5; BUser 6; BObs (inl ONone); BObs (inl ONone); BObs (inl (OPtr (Some (Some 101)))); BObs (inl (OPtr (Some None)));
    BObs (inl ONone); BObs (inl ONone); BObs (inl (OId 5)); BObs (inl ONone); BObs (inl (OPtr (Some (Some 201)))); BObs (inl (OPtr (Some None)));
    BObs (inl ONone); BObs (inl ONone); BObs (inl ONone); BObs (inl ONone)], [], 5%nat, 5%nat) /\
  snd <$> trun false (take 12 ops62 ++ [TMoveConv 4%nat 1%nat ok62]) rinit = Some None /\
  trun false [TValue VOther 0 (inr 3)] rinit = Some ([], None) /\ fst <$> trun true [TValue VOther 0 (inr 3)] rinit = Some [BUser 3].
Proof. vm_compute. done. Qed.
