(** The phases of an error handling scope, on both machines at once. *)
From Verif Require Export Scope.
Open Scope Z_scope.

Section try.
Context (G : cfg).
Notation Ga := (asserts_on G).
Notation MP := (pmach G).
Notation MS := (smach Ga).

Lemma deduce_on hs : deduce Ga hs = deduce G hs.
Proof. done. Qed.

Lemma sim_ok {A B} (P : A -> B -> Prop) x y b : sim P x y -> y = Ok b -> exists a, x = Ok a /\ P a b.
Proof. intros [H _]. apply H. Qed.

Lemma rb_step {A B} (x : res A) (f : A -> res B) a b : rbind x f = Ok b -> x = Ok a -> f a = Ok b.
Proof. by intros H ->. Qed.
Lemma rb_ok {A B} (x : res A) (f : A -> res B) a y : x = Ok a -> f a = y -> rbind x f = y.
Proof. by intros -> <-. Qed.

Lemma enter_both tup m s g : NoDup tup -> R m s ->
  exists s1 m1, enter MS tup (s, g) = Ok (snc s, (s1, g)) /\ enter MP tup (m, g) = Ok (snc s, (m1, g)) /\ R m1 s1 /\
    stack s1 = snc s :: stack s /\ actxs s1 = <[snc s := ACtx tup ∅ None]> (actxs s) /\ snc s1 = S (snc s).
Proof.
  intros Hnd HR. set (s0 := SMem (stack s) (<[snc s := ACtx tup ∅ None]> (actxs s)) (S (snc s))).
  set (s1 := SMem (snc s :: stack s) (<[snc s := ACtx tup ∅ None]> (actxs s)) (S (snc s))).
  destruct (sim_new G tup (m, g) (s, g) Hnd) as [E1 E2]; [by split|].
  assert (sact (snc s) s0 = Ok s1) as Ha.
  { unfold sact, s0. simpl. rewrite lookup_insert. destruct (wf_fresh _ (R_wf _ _ HR)) as [_ Hf]. rewrite bool_decide_false by done. done. }
  destruct (sim_ok _ _ _ (s1, g) (sim_act G (snc s) _ _ E2)) as ([m1 g1] & E3 & HR1 & Eg).
  { unfold on_mem. simpl. fold s0. by rewrite Ha. }
  exists s1, m1. simpl in HR1, Eg. subst g1. split; [|split; [|split; [done|done]]].
  - unfold enter, on_mem. simpl. fold s0. by rewrite Ha.
  - unfold enter. simpl in *. rewrite E1 in *. by rewrite E3.
Qed.

Lemma sim_settle k (x : out * st MP) (y : out * st MS) : Ros G x y -> sim (Ros G) (settle MP k x) (settle MS k y).
Proof.
  destruct x as [o ms], y as [o' ss]. intros [E HR]. simpl in E, HR. subst o'. destruct k; simpl; [| |by apply sim_ret];
    destruct o; first [by apply sim_unload_ret|by apply sim_ret].
Qed.

Definition Rd (x : einfo * option exn * st MP) (y : einfo * option exn * st MS) : Prop := fst x = fst y /\ Rst G (snd x) (snd y).
Lemma sim_detect c caught (x : out * st MP) (y : out * st MS) : Ros G x y -> sim Rd (detect G MP c caught x) (detect Ga MS c caught y).
Proof.
  destruct x as [o ms], y as [o' ss]. intros [E HR]. simpl in E, HR. subst o'. destruct o as [r|x]; simpl.
  - eapply sim_bind; [by apply sim_err_id|]. intros [i1 m1] [i2 s1] [E HR1]. simpl in *. subst i2.
    eapply sim_bind; [by apply sim_deact|]. intros m2 s2 HR2. eapply sim_bind; [by apply sim_get, HR2|]. intros ? ? ->. apply sim_ret. by split.
  - eapply sim_bind; [by apply sim_exn_info|]. intros [e1 m1] [e2 s1] [E HR1]. simpl in *. subst. apply sim_ret. by split.
Qed.
Lemma sim_unhandled k c id o ms ss : Rst G ms ss -> sim (Ros G) (unhandled MP k c id o ms) (unhandled MS k c id o ss).
Proof. intros HR. destruct o; simpl; [destruct k; first [by apply sim_illtyped|by apply sim_ret]|by apply sim_unload_rethrow]. Qed.
Lemma sim_finish k c (x : out * st MP) (y : out * st MS) : Ros G x y -> sim (Ros G) (finish G MP k c x) (finish Ga MS k c y).
Proof.
  destruct x as [o ms], y as [o' ss]. intros [E HR]. simpl in E, HR. subst o'.
  destruct k; simpl; [by apply sim_tha_end|by apply sim_ths_end|by apply sim_leave].
Qed.

Lemma deduce_nodup hs : NoDup (deduce G hs).
Proof. apply deduce_list_nodup. Qed.

(** How the scope went, from the state after the try block until the end.  *)
Definition handled k caught hs c (o2 : out) (m2 : mem) (g2 : glob) (s2 : smem) (o : out) (m' : mem) (g' : glob) (s' : smem) : Prop :=
  exists ei caught' m3 s3 g3 o4 m4 s4 g4,
    detect G MP c caught (o2, (m2, g2)) = Ok (ei, caught', (m3, g3)) /\
    detect Ga MS c caught (o2, (s2, g2)) = Ok (ei, caught', (s3, g3)) /\ R m3 s3 /\
    evalH G MP caught' hs c ei (unhandled MP k c (ei_id ei) o2) (m3, g3) = Ok (o4, (m4, g4)) /\
    evalH Ga MS caught' hs c ei (unhandled MS k c (ei_id ei) o2) (s3, g3) = Ok (o4, (s4, g4)) /\ R m4 s4 /\
    finish G MP k c (o4, (m4, g4)) = Ok (o, (m', g')) /\
    finish Ga MS k c (o4, (s4, g4)) = Ok (o, (s', g')).

Lemma scope_inv k caught p hs m s g o s' g' : R m s -> spec_run G caught (PScope k p hs) s g o s' g' ->
  exists m', lib_run G caught (PScope k p hs) m g o m' g' /\ R m' s' /\
  exists c m1 s1, enter MP (deduce G hs) (m, g) = Ok (c, (m1, g)) /\ enter MS (deduce G hs) (s, g) = Ok (c, (s1, g)) /\ R m1 s1 /\ c = snc s /\
  exists ob mb sb gb, lib_run G caught p m1 g ob mb gb /\ spec_run G caught p s1 g ob sb gb /\ R mb sb /\
  exists o2 m2 s2 g2, settle MP k (ob, (mb, gb)) = Ok (o2, (m2, g2)) /\ settle MS k (ob, (sb, gb)) = Ok (o2, (s2, g2)) /\ R m2 s2 /\
  ((success k o2 = true /\ deact_leave MP c o2 (m2, g2) = Ok (o, (m', g')) /\ deact_leave MS c o2 (s2, g2) = Ok (o, (s', g'))) \/
   (success k o2 = false /\ handled k caught hs c o2 m2 g2 s2 o m' g' s')).
Proof.
  intros HR H. destruct (C48_pointer_free_semantics _ _ _ _ _ _ _ _ _ HR H) as (m' & Hrun & HR').
  exists m'. split; [done|]. split; [done|]. rewrite eval_scope_s in H. rewrite eval_scope_p in Hrun. unfold scope_run in H, Hrun. rewrite deduce_on in H.
  destruct (enter_both (deduce G hs) m s g (deduce_nodup hs) HR) as (s1 & m1 & E1 & E2 & HR1 & _).
  rewrite E1 in H. rewrite E2 in Hrun. cbn [rbind fst snd] in H, Hrun. exists (snc s), m1, s1. split; [done|]. split; [done|]. split; [done|]. split; [done|].
  ok_inv H. destruct a as [ob [sb gb]]. destruct (C48_pointer_free_semantics _ _ _ _ _ _ _ _ _ HR1 E) as (mb & Hb & HRb).
  apply (fun H => rb_step _ _ _ _ H Hb) in Hrun. exists ob, mb, sb, gb. split; [done|]. split; [done|]. split; [done|].
  unfold scope_end in H, Hrun. ok_inv H. destruct a as [o2 [s2 g2]].
  destruct (sim_ok _ _ _ _ (sim_settle k (ob, (mb, gb)) (ob, (sb, gb)) ltac:(by split)) E0) as ([o2' [m2 g2']] & Es & Eo & HR2 & Eg).
  simpl in Eo, HR2, Eg. subst o2' g2'. apply (fun H => rb_step _ _ _ _ H Es) in Hrun. cbn [fst snd] in H, Hrun.
  exists o2, m2, s2, g2. split; [done|]. split; [done|]. split; [done|]. destruct (success k o2); [by left|]. right. split; [done|].
  ok_inv H. destruct a as [[ei caught'] [s3 g3]].
  destruct (sim_ok _ _ _ _ (sim_detect (snc s) caught (o2, (m2, g2)) (o2, (s2, g2)) ltac:(by split)) E3) as ([[ei' ca'] [m3 g3']] & Ed & Eo & HR3 & Eg).
  simpl in Eo, HR3, Eg. simplify_eq. apply (fun H => rb_step _ _ _ _ H Ed) in Hrun. cbn [fst snd] in Hrun. ok_inv H. destruct a as [o4 [s4 g4]].
  destruct (sim_ok _ _ _ _ (proj2 (sim_eval G) hs caught' (snc s) ei (unhandled MP k (snc s) (ei_id ei) o2)
    (unhandled MS k (snc s) (ei_id ei) o2) (m3, g3) (s3, g3) (sim_unhandled k (snc s) (ei_id ei) o2) ltac:(by split)) E4) as ([o4' [m4 g4']] & Eh & Eo & HR4 & Eg).
  simpl in Eo, HR4, Eg. subst o4' g4'. apply (fun H => rb_step _ _ _ _ H Eh) in Hrun.
  exists ei, caught', m3, s3, g3, o4, m4, s4, g4. repeat (split; [done|]). done.
Qed.
End try.
