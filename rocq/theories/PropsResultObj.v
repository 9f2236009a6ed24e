(** C23 and C40: result objects keep their ids and never leak, double-destroy or read a destroyed member. *)
From Verif Require Export ResultObj PropsIds.
Open Scope Z_scope.

(** ** Specification: a result holds a value (possibly moved from), an error id, or an error id with captured objects and possibly an exception. *)
Inductive ares := SVal (z : option Z) | SErr (id : Z) | SCap (id : Z) (objs : list Z) (ex : option Z).
Notation aress := (gmap nat ares).
(** After something moved from it *)
Definition moved_from (a : ares) : ares := match a with SVal _ => SVal None | SErr id => SErr id | SCap id _ _ => SCap id [] None end.
Definition unloaded (a : ares) : ares := match a with SCap id _ _ => SCap id [] None | a => a end.
(** The error id read from a result: itself, except that the id 0 (a result initialized with error_id()) is read as 1; see C04. *)
Definition read_id (id : Z) : Z := if id =? 0 then 1 else id.
(** Through error(): a success gives a result initialized with error_id() *)
Definition as_error (a : ares) : ares := match a with SVal _ => SErr 0 | SErr id => SErr (read_id id) | a => a end.

(** Objects are used while they exist, ids are valid or 0. Left out: self-move-assignment of a result which holds a value or captured objects. *)
Definition rallowed (op : rop) (A : aress) : Prop :=
  match op with
  | RNewVal r _ => A !! r = None
  | RNewErr r id => A !! r = None /\ (valid_id id \/ id = 0)
  | RNewCap r id _ _ => A !! r = None /\ valid_id id
  | RMove r' r => A !! r' = None /\ is_Some (A !! r)
  | RAssign r' r => is_Some (A !! r') /\ is_Some (A !! r) /\ (r' = r -> exists id, A !! r = Some (SErr id))
  | RConvert r' r => A !! r' = None /\ is_Some (A !! r)
  | RStar r => exists z, A !! r = Some (SVal z)
  | RErrorId r | RValue r _ | RHas r | RArrow r | RUnload r | RDestroy r => is_Some (A !! r)
  end.
Definition reffect (op : rop) (A : aress) : aress :=
  match op with
  | RNewVal r z => <[r := SVal (Some z)]> A
  | RNewErr r id => <[r := SErr id]> A
  | RNewCap r id objs ex => <[r := SCap id objs ex]> A
  | RMove r' r => match A !! r with Some a => <[r' := a]> (<[r := moved_from a]> A) | None => A end
  | RAssign r' r => match A !! r with Some a => <[r' := a]> (<[r := moved_from a]> A) | None => A end
  | RConvert r' r => match A !! r with Some a => <[r' := as_error a]> (<[r := unloaded a]> A) | None => A end
  | RValue r take => alter (fun a => match a with SVal z => SVal (if take then None else z) | a => unloaded a end) r A
  | RUnload r => alter unloaded r A
  | RDestroy r => delete r A
  | RErrorId _ | RHas _ | RArrow _ | RStar _ => A
  end.
Definition robserve (op : rop) (A : aress) : robs + rexn * list Z :=
  match op with
  | RErrorId r => inl (OId match A !! r with Some (SErr id) | Some (SCap id _ _) => read_id id | _ => 0 end)
  | RHas r => inl (OHas match A !! r with Some (SVal _) => true | _ => false end)
  | RValue r _ =>
      match A !! r with
      | Some (SVal z) => inl (OVal z)
      | Some (SErr id) => inr (TBad (read_id id), [])
      | Some (SCap id objs None) => inr (TBad id, objs)
      | Some (SCap id objs (Some z)) => inr (TEx z, objs)
      | None => inl ONone
      end
  | RArrow r => inl (OPtr match A !! r with Some (SVal z) => Some z | _ => None end)
  | RStar r => inl (OVal match A !! r with Some (SVal z) => z | _ => None end)
  | RUnload r =>
      match A !! r with
      | Some (SCap id objs None) => inl (OUnl id objs)
      | Some (SCap id objs (Some z)) => inr (TEx z, objs)
      | _ => inl ONone
      end
  | _ => inl ONone
  end.

(** ** Proof *)
Definition member (u : umem) : option nat := match u with MNone => None | MVal i _ => Some i | MCap i _ _ => Some i end.
Definition matches (a : ares) (x : robj) : Prop :=
  match a with
  | SVal z => exists i, x = RObj (MVal i z) disc_val
  | SErr id => x = RObj MNone (disc_of_id id) /\ (valid_id id \/ id = 0)
  | SCap id objs ex => (exists i, x = RObj (MCap i objs ex) (disc_of_cap id)) /\ valid_id id
  end.
Record rinv (A : aress) (s : rstate) : Prop := {
  v_none : forall r, o_objs s !! r = None <-> A !! r = None;
  v_match : forall r a x, A !! r = Some a -> o_objs s !! r = Some x -> matches a x;
  v_live : forall i, i ∈ o_live s <-> exists r x, o_objs s !! r = Some x /\ member (r_u x) = Some i;
  v_uniq : forall r r' x x' i, o_objs s !! r = Some x -> o_objs s !! r' = Some x' -> member (r_u x) = Some i -> member (r_u x') = Some i -> r = r';
  v_bound : forall i, i ∈ o_live s -> (i < o_made s)%nat;
  v_count : o_made s = (o_freed s + size (o_live s))%nat }.

Lemma kind_val : disc_kind disc_val = k_val. Proof. done. Qed.
Lemma kind_id id : valid_id id \/ id = 0 -> disc_kind (disc_of_id id) = err_id \/ disc_kind (disc_of_id id) = err_id_zero.
Proof. intros [H| ->]; [left; apply (C23_discriminant id H)|by right]. Qed.
Lemma kind_cap id : valid_id id -> disc_kind (disc_of_cap id) = err_id_capture_list.
Proof. intros H. apply (C23_discriminant id H). Qed.
Lemma get_id id : valid_id id -> disc_get_error_id (disc_of_id id) = id.
Proof. intros H. apply (C23_discriminant id H). Qed.
Lemma get_cap id : valid_id id -> disc_get_error_id (disc_of_cap id) = id.
Proof. intros H. apply (C23_discriminant id H). Qed.
Lemma assert_id id : valid_id id \/ id = 0 -> id_assert id = true.
Proof. intros [[_ H]| ->]; [|done]. unfold id_assert. rewrite land3, H. simpl. by rewrite orb_true_r. Qed.
Lemma assert_cap id : valid_id id -> (Z.land id 3 =? 1) = true.
Proof. intros [_ H]. by rewrite land3, H. Qed.

Lemma rinv_get A s r a : rinv A s -> A !! r = Some a -> exists x, o_objs s !! r = Some x /\ matches a x.
Proof. intros I H. destruct (o_objs s !! r) as [x|] eqn:E; [|apply (v_none _ _ I) in E; congruence]. exists x. split; [done|]. by eapply v_match. Qed.
Lemma rinv_alive A s r x i : rinv A s -> o_objs s !! r = Some x -> member (r_u x) = Some i -> i ∈ o_live s.
Proof. intros I H1 H2. apply (v_live _ _ I). eauto. Qed.

Local Opaque disc_kind disc_get_error_id.
(** the contents change, the member stays *)
Lemma rinv_set A s r x x' a' : rinv A s -> o_objs s !! r = Some x -> member (r_u x') = member (r_u x) -> matches a' x' ->
  rinv (<[r := a']> A) (set_obj r x' s).
Proof.
  intros [V1 V2 V3 V4 V5 V6] Hx Hm Ha.
  assert (forall r1 x1, <[r := x']> (o_objs s) !! r1 = Some x1 -> exists x2, o_objs s !! r1 = Some x2 /\ member (r_u x2) = member (r_u x1)) as K.
  { intros r1 x1. destruct (decide (r1 = r)) as [->|]; [rewrite lookup_insert; intros [= <-]; eauto|]. rewrite lookup_insert_ne by done. eauto. }
  constructor; simpl; try done.
  - intros r1. destruct (decide (r1 = r)) as [->|]; [rewrite !lookup_insert; naive_solver|]. by rewrite !lookup_insert_ne.
  - intros r1 a1 x1. destruct (decide (r1 = r)) as [->|]; [rewrite !lookup_insert; intros [= <-] [= <-]; done|]. rewrite !lookup_insert_ne by done. eauto.
  - intros i. rewrite V3. split.
    + intros (r1 & x1 & H1 & H2). destruct (decide (r1 = r)) as [->|].
      * exists r, x'. rewrite lookup_insert. split; [done|]. assert (x1 = x) as -> by congruence. congruence.
      * exists r1, x1. by rewrite lookup_insert_ne.
    + intros (r1 & x1 & H1 & H2). destruct (K _ _ H1) as (x2 & ? & ?). exists r1, x2. split; [done|]. congruence.
  - intros r1 r2 x1 x2 i H1 H2 M1 M2. destruct (K _ _ H1) as (y1 & L1 & E1), (K _ _ H2) as (y2 & L2 & E2). eapply (V4 _ _ _ _ i L1 L2); congruence.
Qed.
(** a new object without a member / with a fresh one *)
Lemma rinv_new0 A s r x a : rinv A s -> A !! r = None -> member (r_u x) = None -> matches a x -> rinv (<[r := a]> A) (set_obj r x s).
Proof.
  intros [V1 V2 V3 V4 V5 V6] Hn Hm Ha. apply V1 in Hn.
  constructor; simpl; try done.
  - intros r1. destruct (decide (r1 = r)) as [->|]; [rewrite !lookup_insert; naive_solver|]. by rewrite !lookup_insert_ne.
  - intros r1 a1 x1. destruct (decide (r1 = r)) as [->|]; [rewrite !lookup_insert; intros [= <-] [= <-]; done|]. rewrite !lookup_insert_ne by done. eauto.
  - intros i. rewrite V3. split.
    + intros (r1 & x1 & H1 & H2). exists r1, x1. rewrite lookup_insert_ne; [done|]. congruence.
    + intros (r1 & x1 & H1 & H2). exists r1, x1. destruct (decide (r1 = r)) as [->|]; [|by rewrite lookup_insert_ne in H1]. rewrite lookup_insert in H1. injection H1 as <-. congruence.
  - intros r1 r2 x1 x2 i H1 H2 M1 M2. destruct (decide (r1 = r)) as [->|]; [rewrite lookup_insert in H1; injection H1 as <-; congruence|]. destruct (decide (r2 = r)) as [->|]; [rewrite lookup_insert in H2; injection H2 as <-; congruence|].
    rewrite lookup_insert_ne in H1, H2 by done. eauto.
Qed.
Lemma rinv_new A s r x a : rinv A s -> A !! r = None -> member (r_u x) = Some (o_made s) -> matches a x -> rinv (<[r := a]> A) (set_obj r x (snd (construct s))).
Proof.
  intros [V1 V2 V3 V4 V5 V6] Hn Hm Ha. apply V1 in Hn.
  assert (o_made s ∉ o_live s) as Hf. { intros H. apply V5 in H. lia. }
  assert (forall r1 x1, o_objs s !! r1 = Some x1 -> member (r_u x1) <> Some (o_made s)) as Hf'. { intros r1 x1 H1 H2. apply Hf, V3. eauto. }
  constructor; simpl.
  - intros r1. destruct (decide (r1 = r)) as [->|]; [rewrite !lookup_insert; naive_solver|]. by rewrite !lookup_insert_ne.
  - intros r1 a1 x1. destruct (decide (r1 = r)) as [->|]; [rewrite !lookup_insert; intros [= <-] [= <-]; done|]. rewrite !lookup_insert_ne by done. eauto.
  - intros i. rewrite elem_of_union, elem_of_singleton, V3. split.
    + intros [->|(r1 & x1 & H1 & H2)]; [exists r, x; by rewrite lookup_insert|]. exists r1, x1. rewrite lookup_insert_ne; [done|]. congruence.
    + intros (r1 & x1 & H1 & H2). destruct (decide (r1 = r)) as [->|].
      * rewrite lookup_insert in H1. injection H1 as <-. left. congruence.
      * rewrite lookup_insert_ne in H1 by done. right. eauto.
  - intros r1 r2 x1 x2 i H1 H2 M1 M2. destruct (decide (r1 = r)) as [->|], (decide (r2 = r)) as [->|]; try done; rewrite ?lookup_insert in H1; rewrite ?lookup_insert in H2; rewrite ?lookup_insert_ne in H1 by done; rewrite ?lookup_insert_ne in H2 by done.
    + exfalso. apply (Hf' _ _ H2). injection H1 as <-. congruence.
    + exfalso. apply (Hf' _ _ H1). injection H2 as <-. congruence.
    + eauto.
  - intros i. rewrite elem_of_union, elem_of_singleton. intros [->|H]; [lia|]. apply V5 in H. lia.
  - rewrite size_union by set_solver. rewrite size_singleton. lia.
Qed.
(** an object is destroyed *)
Lemma rinv_destroy A s r a x : rinv A s -> A !! r = Some a -> o_objs s !! r = Some x ->
  exists s1, destroy x s = Some s1 /\ o_objs s1 = o_objs s /\ rinv (delete r A) (RState (delete r (o_objs s1)) (o_made s1) (o_live s1) (o_freed s1)).
Proof.
  intros I HA Hx. pose proof (v_match _ _ I _ _ _ HA Hx) as Hm. pose proof I as [V1 V2 V3 V4 V5 V6].
  assert (forall r1, r1 <> r -> delete r (o_objs s) !! r1 = o_objs s !! r1) as L by (intros; by rewrite lookup_delete_ne).
  assert (forall r1, delete r (o_objs s) !! r1 = None <-> delete r A !! r1 = None) as D1.
  { intros r1. destruct (decide (r1 = r)) as [->|]; [by rewrite !lookup_delete|]. by rewrite !lookup_delete_ne. }
  assert (forall r1 a1 x1, delete r A !! r1 = Some a1 -> delete r (o_objs s) !! r1 = Some x1 -> matches a1 x1) as D2.
  { intros r1 a1 x1. rewrite !lookup_delete_Some. intros [_ ?] [_ ?]. eauto. }
  assert (forall r1 r2 x1 x2 i, delete r (o_objs s) !! r1 = Some x1 -> delete r (o_objs s) !! r2 = Some x2 -> member (r_u x1) = Some i -> member (r_u x2) = Some i -> r1 = r2) as D4.
  { intros r1 r2 x1 x2 i. rewrite !lookup_delete_Some. intros [_ ?] [_ ?]. eauto. }
  destruct (member (r_u x)) as [i|] eqn:Em.
  - pose proof (rinv_alive _ _ _ _ _ I Hx Em) as Hi.
    exists (RState (o_objs s) (o_made s) (o_live s ∖ {[i]}) (S (o_freed s))). split; [|split; [done|]].
    + unfold destroy. destruct a; simpl in Hm.
      * destruct Hm as [j ->]. simpl in *. injection Em as ->. rewrite kind_val. unfold kill. by rewrite decide_True.
      * destruct Hm as [-> _]. done.
      * destruct Hm as [[j ->] Hv]. simpl in *. injection Em as ->. rewrite kind_cap by done. unfold kill. by rewrite decide_True.
    + constructor; simpl; try done.
      * intros k. rewrite elem_of_difference, elem_of_singleton, V3. split.
        -- intros [(r1 & x1 & H1 & H2) Hk]. exists r1, x1. split; [|done]. rewrite lookup_delete_ne; [done|]. intros <-. congruence.
        -- intros (r1 & x1 & [H0 H1]%lookup_delete_Some & H2). split; [eauto|]. intros ->. apply H0. symmetry. eapply V4; eauto.
      * intros k. rewrite elem_of_difference. intros [? _]. auto.
      * rewrite size_difference by set_solver. rewrite size_singleton. assert (size (o_live s) <> 0%nat). { intros E%size_empty_inv. set_solver. } lia.
  - exists s. split; [|split; [done|]].
    + unfold destroy. destruct a; simpl in Hm; [by destruct Hm as [j ->]| |by destruct Hm as [[j ->] _]]. destruct Hm as [-> Hid]. simpl. by destruct (kind_id _ Hid) as [-> | ->].
    + constructor; simpl; try done. intros k. rewrite V3. split.
      * intros (r1 & x1 & H1 & H2). exists r1, x1. split; [|done]. rewrite lookup_delete_ne; [done|]. intros <-. congruence.
      * intros (r1 & x1 & [_ H1]%lookup_delete_Some & H2). eauto.
Qed.
Lemma rinv_move A s r' r a x : rinv A s -> A !! r = Some a -> o_objs s !! r = Some x -> A !! r' = None ->
  exists y x' s1, move_from x s = Some (y, x', s1) /\ rinv (<[r' := a]> (<[r := moved_from a]> A)) (set_obj r' y (set_obj r x' s1)).
Proof.
  intros I HA Hx HA'. pose proof (v_match _ _ I _ _ _ HA Hx) as Hm. assert (r <> r') as Hne by congruence.
  destruct a as [z|id|id objs ex]; simpl in Hm; unfold move_from.
  - destruct Hm as [i ->]. simpl. rewrite kind_val. rewrite decide_True by by eapply rinv_alive. simpl.
    eexists _, _, _. split; [done|]. 
    apply (rinv_new _ (set_obj r (RObj (MVal i None) disc_val) s) r' (RObj (MVal (o_made s) z) disc_val) (SVal z)); simpl; eauto.
    + eapply rinv_set; try done. eexists; done.
    + by rewrite lookup_insert_ne.
  - destruct Hm as [-> Hid]. simpl. assert (match disc_kind (disc_of_id id) with err_id_zero | err_id => true | _ => false end = true) as K by by destruct (kind_id _ Hid) as [-> | ->].
    destruct (disc_kind (disc_of_id id)) eqn:Ek; try done;
    (eexists _, _, _; split; [done|]; apply rinv_new0; [eapply rinv_set; try done; by split|by rewrite lookup_insert_ne|done|by split]).
  - destruct Hm as [[i ->] Hv]. simpl. rewrite kind_cap by done. rewrite decide_True by by eapply rinv_alive. simpl.
    eexists _, _, _. split; [done|].
    apply (rinv_new _ (set_obj r (RObj (MCap i [] None) (disc_of_cap id)) s) r' (RObj (MCap (o_made s) objs ex) (disc_of_cap id)) (SCap id objs ex)); simpl; eauto.
    + eapply rinv_set; try done. simpl. eauto.
    + by rewrite lookup_insert_ne.
Qed.

Definition robs_of (x : rres) : option ((robs + rexn * list Z) * rstate) :=
  match x with RDone o s => Some (inl o, s) | RThrow e objs s => Some (inr (e, objs), s) | _ => None end.
Lemma alter_rSome (f : ares -> ares) (A : aress) l a : A !! l = Some a -> alter f l A = <[l := f a]> A.
Proof. intros H. apply map_eq. intros k. destruct (decide (k = l)) as [->|Hk]; [by rewrite lookup_alter, H, lookup_insert|]. by rewrite lookup_alter_ne, lookup_insert_ne. Qed.

Lemma read_valid id : valid_id id -> read_id id = id.
Proof. intros [_ H]. unfold read_id. destruct (Z.eqb_spec id 0) as [->|]; done. Qed.
Lemma read_ok id : valid_id id \/ id = 0 -> disc_get_error_id (disc_of_id id) = read_id id /\ valid_id (read_id id).
Proof. intros [H| ->]; [rewrite get_id, read_valid by done; by split|]. done. Qed.

Lemma rstep_ok op A s : rinv A s -> rallowed op A ->
  exists s', robs_of (rstep op s) = Some (robserve op A, s') /\ rinv (reffect op A) s'.
Proof.
  intros I Hal. destruct op as [r z|r id|r id objs ex|r' r|r' r|r' r|r|r|r tk|r|r|r|r]; cbn [rallowed reffect robserve rstep] in *.
  - eexists. split; [reflexivity|]. apply rinv_new; try done. eexists; done.
  - destruct Hal as [Hn Hid]. rewrite assert_id by done. eexists. split; [reflexivity|]. apply rinv_new0; try done.
  - destruct Hal as [Hn Hid]. rewrite assert_cap by done. eexists. split; [reflexivity|]. apply rinv_new; try done. simpl. eauto.
  - destruct Hal as [Hn [a Ha]]. destruct (rinv_get _ _ _ _ I Ha) as (x & Hx & Hm). rewrite Hx, Ha.
    destruct (rinv_move _ _ r' _ _ _ I Ha Hx Hn) as (y & x' & s1 & -> & I'). eexists. split; [reflexivity|]. done.
  - destruct Hal as ([b Hb] & [a Ha] & Hself). destruct (rinv_get _ _ _ _ I Hb) as (y & Hy & Hmy). rewrite Hy, Ha. destruct (decide (r' = r)) as [->|Hne].
    + destruct (Hself eq_refl) as [id Hid]. rewrite Hid in Hb, Ha. injection Hb as <-. injection Ha as <-. destruct Hmy as [-> Hv]. unfold destroy. simpl.
      assert (match disc_kind (disc_of_id id) with err_id_zero | err_id => true | _ => false end = true) as K by by destruct (kind_id _ Hv) as [-> | ->].
      destruct (disc_kind (disc_of_id id)) eqn:Ek; try done; rewrite lookup_insert; unfold move_from; simpl; rewrite Ek;
      (eexists; split; [reflexivity|]; rewrite insert_insert; unfold set_obj; simpl; rewrite !insert_insert; eapply (rinv_set _ _ _ _ _ _ I Hy); try done; by split).
    + destruct (rinv_destroy _ _ _ _ _ I Hb Hy) as (s1 & -> & Eo & I1). simpl. rewrite lookup_insert_ne, Eo by done.
      destruct (rinv_get _ _ _ _ I Ha) as (x & Hx & Hm). rewrite Hx.
      destruct (rinv_move _ _ r' r a x I1) as (y1 & x1 & s2 & E2 & I2).
      { by rewrite lookup_delete_ne. } { simpl. rewrite Eo. by rewrite lookup_delete_ne. } { by rewrite lookup_delete. }
      rewrite !(insert_commute _ r' r) in I2 by done. rewrite insert_delete_insert in I2. rewrite (insert_commute _ r r') in I2 by done.
      set (s0 := set_obj r' (RObj MNone (r_what y)) s1). set (s0' := RState (delete r' (o_objs s1)) (o_made s1) (o_live s1) (o_freed s1)) in *.
      assert (exists s3, move_from x s0 = Some (y1, x1, s3) /\ set_obj r' y1 (set_obj r x1 s3) = set_obj r' y1 (set_obj r x1 s2)) as (s3 & -> & E3).
      { assert (forall u, o_objs u = o_objs s0' -> set_obj r' y1 (set_obj r x1 (RState (o_objs s0) (o_made u) (o_live u) (o_freed u))) = set_obj r' y1 (set_obj r x1 u)) as K.
        { intros u Hu. unfold set_obj. simpl. f_equal. rewrite Hu. unfold s0, s0'. simpl. rewrite !(insert_commute _ r' r) by done. rewrite insert_insert, insert_delete_insert. done. }
        unfold move_from in *. destruct (disc_kind (r_what x)); try done.
        - injection E2 as <- <- <-. eexists. split; [reflexivity|]. apply (K s0'). done.
        - injection E2 as <- <- <-. eexists. split; [reflexivity|]. apply (K s0'). done.
        - destruct (r_u x); try done. change (o_live s0) with (o_live s0'). destruct (decide _); [|done]. simpl in *. injection E2 as <- <- <-. eexists. split; [reflexivity|].
          apply (K (snd (construct s0'))). done.
        - destruct (r_u x); try done. change (o_live s0) with (o_live s0'). destruct (decide _); [|done]. simpl in *. injection E2 as <- <- <-. eexists. split; [reflexivity|].
          apply (K (snd (construct s0'))). done. }
      eexists. split; [reflexivity|]. rewrite E3. done.
  - destruct Hal as [Hn [a Ha]]. destruct (rinv_get _ _ _ _ I Ha) as (x & Hx & Hm). rewrite Hx, Ha. assert (r <> r') as Hne by congruence.
    destruct a as [z|id|id objs ex]; simpl in Hm |- *.
    + destruct Hm as [i ->]. simpl. eexists. split; [reflexivity|]. rewrite (insert_id A) by done. apply rinv_new0; try done. simpl. auto.
    + destruct Hm as [-> Hid]. destruct (read_ok _ Hid) as [E Hv]. rewrite (insert_id A) by done. simpl.
      assert (match disc_kind (disc_of_id id) with err_id_zero | err_id => true | _ => false end = true) as K by by destruct (kind_id _ Hid) as [-> | ->].
      destruct (disc_kind (disc_of_id id)) eqn:Ek; try done; rewrite E, assert_id by auto; (eexists; split; [reflexivity|]; apply rinv_new0; try done; simpl; auto).
    + destruct Hm as [[i ->] Hv]. simpl. rewrite kind_cap, get_cap, assert_cap by done. rewrite decide_True by by eapply rinv_alive. eexists. split; [reflexivity|].
      apply (rinv_new _ (set_obj r (RObj (MCap i [] None) (disc_of_cap id)) s) r' (RObj (MCap (o_made s) objs ex) (disc_of_cap id)) (SCap id objs ex)); simpl; eauto.
      * eapply rinv_set; try done. simpl. eauto.
      * by rewrite lookup_insert_ne.
  - destruct Hal as [a Ha]. destruct (rinv_get _ _ _ _ I Ha) as (x & Hx & Hm). rewrite Hx, Ha. exists s. split; [|done]. simpl. do 4 f_equal.
    destruct a as [z|id|id objs ex]; simpl in Hm.
    + by destruct Hm as [i ->].
    + destruct Hm as [-> Hid]. simpl. destruct (read_ok _ Hid) as [E Hv]. rewrite E. by destruct (kind_id _ Hid) as [-> | ->].
    + destruct Hm as [[i ->] Hv]. simpl. by rewrite kind_cap, get_cap, read_valid.
  - destruct Hal as [a Ha]. destruct (rinv_get _ _ _ _ I Ha) as (x & Hx & Hm). rewrite Hx, Ha. exists s. split; [|done]. simpl. do 4 f_equal.
    destruct a as [z|id|id objs ex]; simpl in Hm.
    + by destruct Hm as [i ->].
    + destruct Hm as [-> Hid]. simpl. by destruct (kind_id _ Hid) as [-> | ->].
    + destruct Hm as [[i ->] Hv]. simpl. by rewrite kind_cap.
  - destruct Hal as [a Ha]. destruct (rinv_get _ _ _ _ I Ha) as (x & Hx & Hm). rewrite Hx, Ha, (alter_rSome _ _ _ _ Ha).
    destruct a as [z|id|id objs ex]; simpl in Hm.
    + destruct Hm as [i ->]. simpl. rewrite decide_True by by eapply rinv_alive. eexists. split; [reflexivity|]. destruct tk.
      * eapply rinv_set; try done. by eexists.
      * rewrite insert_id by done. done.
    + destruct Hm as [-> Hid]. simpl. destruct (read_ok _ Hid) as [E Hv]. rewrite E. exists s. rewrite insert_id by done. split; [|done]. by destruct (kind_id _ Hid) as [-> | ->].
    + destruct Hm as [[i ->] Hv]. simpl. rewrite kind_cap, get_cap by done. rewrite decide_True by by eapply rinv_alive. eexists. split; [by destruct ex|].
      eapply rinv_set; try done. simpl. eauto.
  - destruct Hal as [a Ha]. destruct (rinv_get _ _ _ _ I Ha) as (x & Hx & Hm). rewrite Hx, Ha. exists s. split; [|done].
    destruct a as [z|id|id objs ex]; simpl in Hm.
    + destruct Hm as [i ->]. simpl. rewrite decide_True by by eapply rinv_alive. done.
    + destruct Hm as [-> Hid]. simpl. by destruct (kind_id _ Hid) as [-> | ->].
    + destruct Hm as [[i ->] Hv]. simpl. by rewrite kind_cap.
  - destruct Hal as [z Ha]. destruct (rinv_get _ _ _ _ I Ha) as (x & Hx & Hm). rewrite Hx, Ha. exists s. split; [|done].
    destruct Hm as [i ->]. simpl. rewrite decide_True by by eapply rinv_alive. done.
  - destruct Hal as [a Ha]. destruct (rinv_get _ _ _ _ I Ha) as (x & Hx & Hm). rewrite Hx, Ha, (alter_rSome _ _ _ _ Ha).
    destruct a as [z|id|id objs ex]; simpl in Hm.
    + destruct Hm as [i ->]. simpl. exists s. rewrite insert_id by done. done.
    + destruct Hm as [-> Hid]. simpl. exists s. rewrite insert_id by done. split; [|done]. by destruct (kind_id _ Hid) as [-> | ->].
    + destruct Hm as [[i ->] Hv]. simpl. rewrite kind_cap, get_cap by done. rewrite decide_True by by eapply rinv_alive. eexists. split; [by destruct ex|].
      eapply rinv_set; try done. simpl. eauto.
  - destruct Hal as [a Ha]. destruct (rinv_get _ _ _ _ I Ha) as (x & Hx & Hm). rewrite Hx. destruct (rinv_destroy _ _ _ _ _ I Ha Hx) as (s1 & -> & _ & I1). by eexists.
Qed.

(** ** Executions *)
Fixpoint rall (ops : list rop) (A : aress) : Prop := match ops with [] => True | op :: ops' => rallowed op A /\ rall ops' (reffect op A) end.
Definition rfinal (ops : list rop) (A : aress) : aress := foldl (fun A op => reffect op A) A ops.
Fixpoint robserved (ops : list rop) (A : aress) : list (robs + rexn * list Z) :=
  match ops with [] => [] | op :: ops' => robserve op A :: robserved ops' (reffect op A) end.
Lemma rinv_init : rinv ∅ rinit.
Proof.
  constructor; simpl; try done.
  intros i. split; [set_solver|]. intros (r & x & H & _). by rewrite lookup_empty in H.
Qed.
Lemma rrun_ok ops : forall A s, rinv A s -> rall ops A -> exists s', rrun ops s = Some (robserved ops A, s') /\ rinv (rfinal ops A) s'.
Proof.
  induction ops as [|op ops IH]; intros A s I Hall; [by exists s|]. destruct Hall as [Hal Hall].
  destruct (rstep_ok op A s I Hal) as (s1 & E & I1). destruct (IH _ _ I1 Hall) as (s2 & E2 & I2). exists s2. split; [|done].
  simpl. destruct (rstep op s); simplify_eq/=; rewrite E2; congruence.
Qed.

(** Whatever is done with results: what they show is what the specification says. In particular the id of a failed result moves with it, is kept
    by moving from, capturing and converting; success and failure are kept; value() gives the value, or unloads the captured objects and throws
    bad_result with the result's id (or the captured exception). *)
Theorem C23_results_keep_ids : forall ops, rall ops ∅ -> fst <$> rrun ops rinit = Some (robserved ops ∅).
Proof. intros ops H. destruct (rrun_ok _ _ _ rinv_init H) as (s & -> & _). done. Qed.
Print Assumptions C23_results_keep_ids.

(** Every member is destroyed exactly once and only used while alive (otherwise the run would give RBad); the members alive are those of the existing objects. *)
Theorem C40_lifetimes_partial : forall ops, rall ops ∅ -> exists os s, rrun ops rinit = Some (os, s) /\
  (forall r, is_Some (o_objs s !! r) <-> is_Some (rfinal ops ∅ !! r)) /\
  o_made s = (o_freed s + size (o_live s))%nat /\
  (forall i, i ∈ o_live s <-> exists r x, o_objs s !! r = Some x /\ member (r_u x) = Some i) /\
  (rfinal ops ∅ = ∅ -> o_live s = ∅ /\ o_made s = o_freed s).
Proof.
  intros ops H. destruct (rrun_ok _ _ _ rinv_init H) as (s & -> & I). eexists _, s. split; [done|]. split; [|split; [apply I|split; [apply I|]]].
  - intros r. rewrite <- !not_eq_None_Some. by rewrite (v_none _ _ I).
  - intros E. assert (o_live s = ∅) as El.
    { apply leibniz_equiv, set_equiv. intros i. split; [|set_solver]. intros (r & x & H1 & _)%(v_live _ _ I). exfalso.
      assert (o_objs s !! r = None) as H2; [|congruence]. apply (v_none _ _ I). by rewrite E, lookup_empty. }
    split; [done|]. pose proof (v_count _ _ I) as K. rewrite El, size_empty in K. lia.
Qed.
Print Assumptions C40_lifetimes_partial.

(** A captured error is moved, converted to another value type, assigned over a value; then value() is called twice. *)
Definition ops40 : list rop :=
  [RNewCap 0 5 [7%Z; 8%Z] None; RMove 1 0; RErrorId 0; RConvert 2 1; RNewVal 3 42; RValue 3 false; RAssign 3 2; RHas 3; RErrorId 3; RValue 3 false; RValue 3 false;
   RNewErr 4 9; RAssign 4 4; RErrorId 4; RNewVal 5 1; RValue 5 true; RArrow 5; RArrow 4;
   RDestroy 0; RDestroy 1; RDestroy 2; RDestroy 3; RDestroy 4; RDestroy 5]%nat.
Example ex40_allowed : rall ops40 ∅.
Proof. vm_compute. repeat split; eauto; try (left; split; [split|]; done). all: try done. Qed.
Example ex40 : match rrun ops40 rinit with Some (os, s) => (os, elements (o_live s), o_made s, o_freed s) | None => ([], [], 0%nat, 1%nat) end =
  ([inl ONone; inl ONone; inl (OId 5); inl ONone; inl ONone; inl (OVal (Some 42)); inl ONone; inl (OHas false); inl (OId 5); inr (TBad 5, [7; 8]); inr (TBad 5, []);
    inl ONone; inl ONone; inl (OId 9); inl ONone; inl (OVal (Some 1)); inl (OPtr (Some None)); inl (OPtr None);
    inl ONone; inl ONone; inl ONone; inl ONone; inl ONone; inl ONone], [], 6%nat, 6%nat).
Proof. vm_compute. reflexivity. Qed.

(** *** What the assertions accept: for generated ids exactly the ints congruent 1 modulo 4, for error_id these and 0; make_error_id leaves the former alone. *)
Theorem C01_assertions_accept_exactly_ids : forall id,
  (generate_assert id = true <-> id mod 4 = 1) /\ (id_assert id = true <-> id = 0 \/ id mod 4 = 1) /\ (id mod 4 = 1 -> make_error_id id = id).
Proof.
  intros id. unfold generate_assert, id_assert. rewrite land3. split; [apply Z.eqb_eq|]. split; [by rewrite orb_true_iff, !Z.eqb_eq|].
  intros H. unfold make_error_id. apply Z.bits_inj'. intros n Hn. rewrite Z.lor_spec, Z.land_spec, Z.lnot_spec by done.
  assert (Z.land id 3 = 1) as E by (by rewrite land3). apply (f_equal (fun x => Z.testbit x n)) in E. rewrite Z.land_spec in E.
  destruct (decide (n = 0)) as [->|]; [|destruct (decide (n = 1)) as [->|]].
  - assert (Z.testbit 3 0 = true) as K3 by reflexivity. assert (Z.testbit 1 0 = true) as K1 by reflexivity. cbv beta in E. rewrite K3, K1, andb_true_r in *. by rewrite E.
  - assert (Z.testbit 3 1 = true) as K3 by reflexivity. assert (Z.testbit 1 1 = false) as K1 by reflexivity. cbv beta in E. rewrite K3, K1, andb_true_r in *. by rewrite E.
  - assert (Z.testbit 3 n = false) as ->. { apply Z.bits_above_log2; [lia|]. change (Z.log2 3) with 1. lia. }
    assert (Z.testbit 1 n = false) as ->. { apply Z.bits_above_log2; [lia|]. change (Z.log2 1) with 0. lia. }
    by rewrite andb_true_r, orb_false_r.
Qed.
Print Assumptions C01_assertions_accept_exactly_ids.
Example ex01_assertions : map id_assert [0; 1; 5; 4; 3; -3; -1] = [true; true; true; false; false; true; false] /\ generate_assert 0 = false.
Proof. vm_compute. done. Qed.

(** *** Dereferencing a result which holds an error fails the assertion of operator* in result.hpp; it does not touch the storage of the value. *)
Theorem C40_dereferencing_an_error_asserts : forall ops os s r a, rall ops ∅ -> rrun ops rinit = Some (os, s) ->
  rfinal ops ∅ !! r = Some a -> (forall z, a <> SVal z) -> rstep (RStar r) s = RAssert /\ rstep (RHas r) s = RDone (OHas false) s.
Proof.
  intros ops os s r a H E Ha Hn. destruct (rrun_ok _ _ _ rinv_init H) as (s' & E' & I). rewrite E in E'. injection E' as -> ->.
  destruct (rinv_get _ _ _ _ I Ha) as (x & Hx & Hm). cbn [rstep]. rewrite Hx.
  destruct a as [z|id|id objs ex]; [by destruct (Hn z)| |].
  - destruct Hm as [-> Hv]. simpl r_what. destruct (kind_id _ Hv) as [K|K]; rewrite K; done.
  - destruct Hm as [(i & ->) Hv]. simpl r_what. rewrite (kind_cap _ Hv). done.
Qed.
Print Assumptions C40_dereferencing_an_error_asserts.
Example ex40_dereference : rall [RNewCap 0 5 [7%Z] None; RMove 1 0]%nat ∅ /\ rfinal [RNewCap 0 5 [7%Z] None; RMove 1 0]%nat ∅ !! 1%nat = Some (SCap 5 [7] None) /\
  is_Some (rrun [RNewCap 0 5 [7%Z] None; RMove 1 0]%nat rinit).
Proof. split; [|split; [vm_compute; done|vm_compute; eauto]]. vm_compute. repeat split; eauto; try (left; split; [split|]; done). all: done. Qed.

(** *** Self-move-assignment destroys the value, then moves from it (result.hpp:327-332). *)
Theorem C40_self_move_refuted : exists r s, rstep (RNewVal r 5) rinit = RDone ONone s /\ rstep (RAssign r r) s = RBad.
Proof. exists 0%nat. eexists. split; vm_compute; reflexivity. Qed.
Print Assumptions C40_self_move_refuted.
(** *** error() of a success converted to a result shows the id 1, after another conversion it is indistinguishable from an error with the id 1 (C04). *)
Theorem C23_error_of_success_refuted : exists ops, rall ops ∅ /\ fst <$> rrun ops rinit = Some [inl ONone; inl ONone; inl (OId 0); inl (OId 1)] /\
  ops = [RNewVal 0 5; RConvert 1 0; RErrorId 0; RErrorId 1]%nat.
Proof. eexists. split; [|split; [|reflexivity]]; [|vm_compute; reflexivity]. vm_compute. repeat split; eauto. Qed.
Print Assumptions C23_error_of_success_refuted.
