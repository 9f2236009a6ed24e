(** C66: running out of memory. *)
From Verif Require Export Morph Oom PropsAlloc.
Open Scope Z_scope.

(** ** Specification *)
(** A program which does not use on_error *)
Definition no_on_error (G : cfg) (p : prog) : Prop := uses G (fun _ => True) (fun _ => False) p.
(** An object is dropped: no cell changes and nothing that has been collected, but a collection may have been started for the object *)
Definition dropped (id : Z) (s s' : smem) : Prop :=
  exists c a q, find_d s = Some (c, a) /\ s' = put c (set_coll (Some q) a) s /\ Stack.q_nodes q = nodes a /\ (ac_coll a = Some q \/ nodes a = [] /\ q = Coll id [] true).
(** What is left of an item that cannot be stored: deferred functions have been called *)
Definition drop_item (it : item) (g : glob) : glob := match it with IDef _ tag _ => emit (EvDefer tag) g | _ => g end.

(** ** Proof *)
Section oom.
Context (G : cfg) (F : fails).

Lemma oda_ok c id T v m : f_node F (na m) = false -> oda_load G F c id T v m = let! m1 := da_load G c id T v m in Ok (true, m1).
Proof. unfold oda_load. by intros ->. Qed.

(** *** Stop or same *)
Notation EA := (fun e => e = Assert).
Lemma ref_unless {A} (p : A -> mem) m (r : res A) : refp EA eq (unless_fails F p m r) r.
Proof. destruct r as [a|e]; simpl; [|by right]. destruct (existsb _ _); simpl; auto. Qed.
Lemma ref_oload id it m g : refp EA eq (oload G F false id it m g) (mload G false id it m g).
Proof.
  assert (forall c T v m, refp EA eq (let! x := oda_load G F c id T v m in if fst x || false then Ok (snd x) else Fail Assert) (da_load G c id T v m)) as Hda.
  { intros c T v m0. unfold oda_load. destruct (f_node F (na m0)).
    - destruct (dhp m0 !! c) as [d|] eqn:Ed; simpl; [|right; unfold da_load; by rewrite Ed].
      destruct (d_last d || negb (g_asserts G)) eqn:El; simpl.
      + destruct (assert G _) eqn:E; simpl; [by left|]. left. unfold assert in E. by destruct (_ && _); simplify_eq.
      + right. unfold da_load. rewrite Ed. simpl. by apply orb_false_iff in El as [-> _].
    - destruct (da_load G c id T v m0); simpl; [done|by right]. }
  assert (forall T v m, refp EA eq (caught_if false (odyn_load G F id T v m)) (dyn_load G id T v m)) as Hdl.
  { intros T v m0. unfold caught_if, odyn_load, dyn_load. destruct (tlsd m0) as [c|]; [|done]. destruct (deref (dhp m0 !! c)) as [d|]; [|by right]. cbn [rbind].
    destruct (negb _); [apply Hda|]. destruct (dslot_load G c id m0); [|by right]. cbn [rbind]. apply Hda. }
  destruct it as [T v|T tag gf|T tag f|tag]; cbn [oload mload]; [| | |apply ref_refl].
  - destruct (tls m !! T) eqn:ET; [apply ref_refl|]. unfold load_slot. rewrite ET. destruct (g_capture G); [|apply ref_refl]. eapply refp_bind; [apply Hdl|]. intros ? ? <-. apply ref_refl.
  - destruct (tls m !! T) eqn:ET; [apply ref_refl|]. unfold load_slot_deferred. rewrite ET. destruct (g_capture G); [|apply ref_refl]. eapply refp_bind; [apply Hdl|]. intros ? ? <-. apply ref_refl.
  - destruct (tls m !! T) eqn:ET; [apply ref_refl|]. unfold load_slot_accumulate. rewrite ET. destruct (g_capture G); [|apply ref_refl].
    unfold caught_if, odyn_accumulate, dyn_accumulate. destruct (tlsd m) as [c|]; [|done]. destruct (deref (dhp m !! c)) as [d|]; [|by right]. cbn [rbind].
    destruct (if d_key d =? id then Ok m else dslot_load G c id m) as [m1|]; [|by right]. cbn [rbind].
    specialize (Hda c T (f (g_def G T)) m1). destruct (oda_load G F c id T (f (g_def G T)) m1) as [[[] m2]|e]; simpl in *.
    + destruct (da_load G c id T (f (g_def G T)) m1); [|done]. by subst.
    + by left.
    + destruct Hda as [Hda| ->]; [by left|by right].
Qed.
Lemma eq_Qs (x : res (mem * glob)) y (E : fail -> Prop) (P : mem -> Prop) : refp E eq x y -> (forall m g, y = Ok (m, g) -> P m) ->
  refp E (fun a b : mem * glob => (fst a = fst b /\ P (fst a)) /\ snd a = snd b) x y.
Proof. destruct x as [a|e], y as [[m g]|e']; simpl; auto. intros -> H. split; [|done]. split; [done|]. by eapply H. Qed.
Lemma eq_Qm {A} (f : A -> mem) (x y : res A) (E : fail -> Prop) (P : mem -> Prop) : refp E eq x y -> (forall a, y = Ok a -> P (f a)) ->
  refp E (fun a b => a = b /\ P (f a)) x y.
Proof. destruct x as [a|e], y as [b|e']; simpl; auto. intros -> H. split; [done|]. by apply H. Qed.

(** The relation: the same storage, of which P holds *)
Lemma close_oom (E : fail -> Prop) (P : mem -> Prop) (ok : list sty -> Prop) (oe : item -> Prop) :
  (forall b id it m g, (b = true -> oe it) -> P m -> refp E eq (oload G F b id it m g) (mload G b id it m g)) ->
  (forall id l m g, P m -> refp E eq (unless_fails F fst m (mcap_unload G id l m g)) (mcap_unload G id l m g)) ->
  (forall c id m g, P m -> refp E eq (unless_fails F fst m (munload G c id m g)) (munload G c id m g)) ->
  (forall c id b m, g_capture G = true -> ok [SDA] -> refp E eq (if b && f_exn F c then Fail Assert else mextract G c id b m) (mextract G c id b m)) ->
  (forall b id it m g m' g', P m -> mload G b id it m g = Ok (m', g') -> P m') ->
  (forall id l m g m' g', P m -> mcap_unload G id l m g = Ok (m', g') -> P m') ->
  (forall c id m g m' g', P m -> munload G c id m g = Ok (m', g') -> P m') ->
  (forall tup m, ok tup -> P m -> P (snd (mnew G tup m))) ->
  (forall c m m', P m -> mact G c m = Ok m' -> P m') -> (forall c m m', P m -> mdeact G c m = Ok m' -> P m') ->
  (forall c m m', P m -> mdestroy G c m = Ok m' -> P m') -> (forall c m m', P m -> mdrop G c m = Ok m' -> P m') ->
  (forall c T id v m m', P m -> mset c T id v m = Ok m' -> P m') ->
  (forall c id b m l m', P m -> mextract G c id b m = Ok (l, m') -> P m') ->
  close E G (omach G F) (pmach G) (fun m1 m2 : mem => m1 = m2 /\ P m1) ok oe.
Proof.
  intros A1 A2 A3 A4 H1 H2 H3 H4 H5 H6 H7 H8 H9 H10. constructor; simpl.
  - intros b id it m ? g Ho [<- HP]. unfold Qs. apply eq_Qs; [by apply A1|]. intros. by eapply H1.
  - intros id l m ? g [<- HP]. apply eq_Qs; [by apply A2|]. intros. by eapply H2.
  - intros tup m ? Ho [<- HP]. split; [done|]. split; [done|]. by apply H4.
  - intros c m ? [<- HP]. apply (eq_Qm id); [apply ref_refl|]. intros. by eapply H5.
  - intros c m ? [<- HP]. apply (eq_Qm id); [apply ref_refl|]. intros. by eapply H6.
  - intros c m ? [<- HP]. apply ref_refl.
  - intros c m ? [<- HP]. apply (eq_Qm id); [apply ref_refl|]. intros. by eapply H7.
  - intros c m ? [<- HP]. apply (eq_Qm id); [apply ref_refl|]. intros. by eapply H8.
  - intros c id m ? g [<- HP]. apply eq_Qs; [by apply A3|]. intros. by eapply H3.
  - intros c T id m ? [<- HP]. apply ref_refl.
  - intros c T i v m ? [<- HP]. apply (eq_Qm id); [apply ref_refl|]. intros. by eapply H9.
  - intros c id m ? [<- HP]. apply ref_refl.
  - intros c id m ? [<- HP]. apply ref_refl.
  - intros c id b m ? Hcap Ho [<- HP]. specialize (A4 c id b m Hcap Ho). destruct (if b && f_exn F c then Fail Assert else mextract G c id b m) as [[l m1]|e], (mextract G c id b m) as [[l' m2]|e'] eqn:Ex; simpl in *; auto.
    injection A4 as -> ->. split; [done|]. split; [done|]. by eapply H10.
Qed.
Lemma refp_eq (E : fail -> Prop) P (x y : res (out * (mem * glob))) : refp E (@Qx (omach G F) (pmach G) (fun m1 m2 : mem => m1 = m2 /\ P m1) out) x y -> refp E eq x y.
Proof.
  destruct x as [[o [m g]]|e], y as [[o' [m' g']]|e']; simpl; auto. intros [H1 [[H2 _] H3]]. simpl in *. by subst.
Qed.

Lemma close_stop : close EA G (omach G F) (pmach G) (fun m1 m2 : mem => m1 = m2 /\ True) (fun _ => True) (fun _ => False).
Proof.
  apply close_oom; auto.
  - intros [] id it m g Hb _; [by specialize (Hb eq_refl)|]. apply ref_oload.
  - intros. apply ref_unless.
  - intros. apply ref_unless.
  - intros c id b m _ _. destruct (b && f_exn F c); [by left|apply ref_refl].
Qed.

(** *** Nothing is allocated *)
Lemma unless_same {A} (p : A -> mem) m (r : res A) : (forall a, r = Ok a -> na (p a) = na m) -> unless_fails F p m r = r.
Proof. intros H. destruct r as [a|e]; [|done]. unfold unless_fails. cbn [rbind]. rewrite (H a eq_refl), Nat.sub_diag. done. Qed.
Lemma oload_calm b id it m g : calm G m -> oload G F b id it m g = mload G b id it m g.
Proof.
  intros Hc. destruct it as [T v|T tag gf|T tag f|tag]; cbn [oload mload]; [| | |done];
    unfold load_slot, load_slot_deferred, load_slot_accumulate; destruct (tls m !! T); try done;
    destruct (g_capture G) eqn:Eg; try done; (destruct Hc as [|Hc]; [congruence|]); unfold odyn_load, dyn_load, odyn_accumulate, dyn_accumulate; by rewrite Hc.
Qed.
Lemma close_calm (b : bool) : (b = false -> g_capture G = false) -> (forall n, g_sup G n <> 0) ->
  close (fun _ => False) G (omach G F) (pmach G) (fun m1 m2 : mem => m1 = m2 /\ (calm G m1 /\ (b = true -> nobody_collects m1))) (okb b) (fun _ => True).
Proof.
  intros Hb Hs. pose proof (kept_still G b Hb Hs) as K.
  assert (forall m, (calm G m /\ (b = true -> nobody_collects m)) -> still b (na m) m) as HS by (intros m [? ?]; by split).
  assert (forall n m, still b n m -> calm G m /\ (b = true -> nobody_collects m)) as HS'. { intros n m H. split; [by eapply still_calm|apply H]. }
  apply close_oom.
  - intros b' id it m g _ [Hc _]. rewrite oload_calm by done. apply ref_refl.
  - intros id l m g Hm. rewrite unless_same; [apply ref_refl|]. intros [m' g'] H. unfold mcap_unload in H. ok_inv H. injection H as <- <-. simpl.
    destruct (q_capunload G _ _ _ _ (proj1 Hm) E) as (? & _). done.
  - intros c id m g Hm. rewrite unless_same; [apply ref_refl|]. intros [m' g'] H. by destruct (k_unload _ _ _ _ K _ _ _ _ _ _ _ (HS _ Hm) H).
  - intros c id b' m Hg Ho. destruct b; [|by rewrite (Hb eq_refl) in Hg]. destruct (Ho eq_refl). constructor.
  - intros b' id it m g m' g' Hm H. pose proof (q_mload G _ _ _ _ _ _ _ (proj1 Hm) H) as Hq. apply (HS' (na m)). eapply still_quiet; [exact Hq|]. by apply HS.
  - intros id l m g m' g' Hm H. unfold mcap_unload in H. ok_inv H. injection H as <- <-. apply (HS' (na m)). eapply still_quiet; [|by apply HS]. eapply q_capunload; [|exact E]. apply Hm.
  - intros c id m g m' g' Hm H. exact (HS' _ _ (k_unload _ _ _ _ K _ _ _ _ _ _ _ (HS _ Hm) H)).
  - intros tup m Ho Hm. destruct (mnew G tup m) as [c m'] eqn:E. destruct (k_new _ _ _ _ K _ _ _ _ _ Ho (HS _ Hm) E) as (y & Hy & _). exact (HS' _ _ Hy).
  - intros c m m' Hm H. exact (HS' _ _ (k_acti _ _ _ _ K _ _ _ _ (HS _ Hm) H)).
  - intros c m m' Hm H. exact (HS' _ _ (k_deact _ _ _ _ K _ _ _ _ (HS _ Hm) H)).
  - intros c m m' Hm H. apply (HS' (na m)). unfold mdestroy in H. ok_inv H. ok_inv H. ok_inv H. injection H as <-. eapply still_end; [|done]. by apply HS.
  - intros c m m' Hm H. apply (HS' (na m)). unfold mdrop in H. ok_inv H. ok_inv H. injection H as <-. eapply still_end; [|done]. by apply HS.
  - intros c T id v m m' Hm H. exact (HS' _ _ (k_set _ _ _ _ K _ _ _ _ _ _ _ (HS _ Hm) H)).
  - intros c id b' m l m' Hm H. exact (HS' _ _ (k_extract _ _ _ _ K _ _ _ _ _ _ _ (HS _ Hm) H)).
Qed.

(** *** Nothing is lost *)
Lemma ow_na K L m n : owned K L m -> owned K L (set_na n m).
Proof. intros []. by constructor. Qed.
Lemma ow_odaload K L c id T v m b m' d : owned K L m -> dhp m !! c = Some d -> d_key d <> 0 -> oda_load G F c id T v m = Ok (b, m') -> owned K L m'.
Proof.
  intros HO Hd Hk H. unfold oda_load in H. destruct (f_node F (na m)).
  - ok_inv H. ok_inv H. ok_inv H. injection H as <- <-. by apply ow_na.
  - ok_inv H. injection H as <- <-. by eapply ow_daload.
Qed.
Lemma ow_odynload K L id T v m b m' : id <> 0 -> owned K L m -> odyn_load G F id T v m = Ok (b, m') -> owned K L m'.
Proof.
  intros Hid HO H. unfold odyn_load in H. destruct (tlsd m) as [c|]; [|by injection H as <- <-]. ok_inv H. apply deref_ok in E. destruct (Z.eqb_spec (d_key a) 0) as [Hz|Hz]; simpl in H.
  - ok_inv H. destruct (ow_dload _ _ _ _ _ _ _ HO E0) as (HO1 & d & Hd & Hk). eapply ow_odaload; [exact HO1|exact Hd|congruence|exact H].
  - eapply ow_odaload; eauto.
Qed.
Lemma ow_odynacc K L id T tag f m g b m' g' : id <> 0 -> owned K L m -> odyn_accumulate G F id T tag f m g = Ok (b, (m', g')) -> owned K L m'.
Proof.
  intros Hid HO H. unfold odyn_accumulate in H. destruct (tlsd m) as [c|]; [|by injection H as <- <- <-]. ok_inv H. apply deref_ok in E. ok_inv H. ok_inv H.
  assert (owned K L (snd a1)) as HO1.
  { destruct a1 as [b1 m1]. destruct (Z.eqb_spec (d_key a) id) as [Hz|Hz].
    - injection E0 as <-. eapply ow_odaload; [exact HO|exact E|congruence|exact E1].
    - destruct (ow_dload _ _ _ _ _ _ _ HO E0) as (HO1 & d & Hd & Hk). eapply ow_odaload; [exact HO1|exact Hd|congruence|exact E1]. }
  destruct (fst a1); by injection H as <- <- <-.
Qed.
Lemma ow_oload K L b id it m g m' g' : id <> 0 -> owned K L m -> oload G F b id it m g = Ok (m', g') -> owned K L m'.
Proof.
  intros Hid HO H. assert (forall it', mload G b id it' m g = Ok (m', g') -> owned K L m') as Hn by (intros it'; by apply ow_mload).
  assert (forall {A} (x : res (bool * A)) a, caught_if b x = Ok a -> exists b', x = Ok (b', a)) as Hc.
  { intros A x a Ha. unfold caught_if in Ha. ok_inv Ha. destruct (_ || _); [|done]. injection Ha as <-. destruct a0. eauto. }
  destruct it as [T v|T tag gf|T tag f|tag]; cbn [oload] in H; [| | |eauto]; destruct (tls m !! T); [eauto| |eauto| |eauto|]; (destruct (g_capture G); [|by injection H as <- <-]).
  - ok_inv H. injection H as <- <-. apply Hc in E as [b' E]. by eapply ow_odynload.
  - ok_inv H. injection H as <- <-. apply Hc in E as [b' E]. by eapply ow_odynload.
  - apply Hc in H as [b' E]. by eapply ow_odynacc.
Qed.
Lemma unless_inv {A} (p : A -> mem) m (r : res A) a : unless_fails F p m r = Ok a -> r = Ok a.
Proof. unfold unless_fails. intros H. ok_inv H. destruct (existsb _ _); [done|]. by injection H as <-. Qed.
Lemma kept_owned_oom : (forall n, g_sup G n <> 0) -> kept G (omach G F) (fun _ => True) (fun K m => owned K [] m).
Proof.
  intros Hs. destruct (kept_owned G Hs) as [K1 K2 K3 K4 K5 K6 K7 K8 K9]. constructor; simpl in *; auto.
  - intros x b id it m g m' g' Hid HO H. by eapply ow_oload.
  - intros x id l m g m' g' Hid HO H. apply unless_inv in H. by eapply K2.
  - intros x c id m g m' g' HO H. apply unless_inv in H. by eapply K6.
  - intros x c id b m l m' HO H. destruct (b && f_exn F c); [done|]. by eapply K8.
Qed.

(** *** What on_error does *)
Lemma R_set_na m s : R m s -> R (set_na (S (na m)) m) s.
Proof.
  intros []. assert (shape m (set_na (S (na m)) m)) as Hsh by (by split). constructor; auto.
  - intros c. specialize (R_ctx c). change (ctxs (set_na (S (na m)) m)) with (ctxs m). destruct (ctxs m !! c) as [k|], (actxs s !! c) as [a|]; simpl in *; try done.
    destruct R_ctx. by constructor.
  - intros T. rewrite <- (chead_shape _ _ _ _ Hsh). apply R_tls.
  - intros T. eapply linked_ext; [..|apply R_lnk]; [intros; by apply caddr_shape|simpl; eauto].
  - rewrite <- (dhead_shape _ _ _ Hsh). apply R_tlsd.
  - eapply dlinked_ext; [..|exact R_dlnk]; [intros; by apply hasd_shape|simpl; eauto].
  - intros c d n Hd Hn. simpl. specialize (R_na c d n Hd Hn). lia.
Qed.
Lemma put_same c a q s : actxs s !! c = Some a -> ac_coll a = Some q -> put c (set_coll (Some q) a) s = s.
Proof. intros Ha Hq. destruct s as [l cs n], a as [t e k]. simpl in *. subst. unfold put, set_coll. simpl. f_equal. by apply insert_id. Qed.
(** One attempt: a node is made, or none *)
Lemma oda_R m s c a q id T v :
  R m s -> actxs s !! c = Some a -> c ∈ stack s -> SDA ∈ ac_tup a -> ac_coll a = Some q -> q_ok q = true -> tls m !! T = None -> id <> 0 ->
  exists b m', oda_load G F c id T v m = Ok (b, m') /\
    R m' (if b then put c (set_coll (Some (Coll (q_key q) (Stack.q_nodes q ++ [(T, (id, v))]) true)) a) s else s).
Proof.
  intros HR Ha Hin HD Hq Hok HT Hid. unfold oda_load. destruct (f_node F (na m)).
  - destruct (R_look _ _ _ _ HR Ha) as (k & Hk & HcR). destruct (cr_coll _ _ _ _ _ HcR HD) as (d & Hd & Hcoll). rewrite Hq in Hcoll. destruct Hcoll as (_ & _ & Hl & _).
    rewrite Hd. simpl. rewrite Hl, Hok. simpl. rewrite assert_ok by (by apply bool_decide_eq_true). simpl. eexists _, _. split; [done|]. by apply R_set_na.
  - destruct (daload_R G m s c a q id T v) as (m' & -> & HR'); try done. simpl. eauto.
Qed.
(** Starting a collection first *)
Lemma oda_fresh_R m s c a id T v :
  R m s -> actxs s !! c = Some a -> c ∈ stack s -> SDA ∈ ac_tup a -> nodes a = [] -> tls m !! T = None -> id <> 0 ->
  exists m1 b m', dslot_load G c id m = Ok m1 /\ oda_load G F c id T v m1 = Ok (b, m') /\
    R m' (put c (set_coll (Some (Coll id (if b then [(T, (id, v))] else []) true)) a) s).
Proof.
  intros HR Ha Hin HD Hn HT Hid. destruct (dload_R G m s c a id HR Ha HD Hn Hid) as (m1 & H1 & HR1 & Ht & _).
  destruct (oda_R m1 _ c _ (Coll id [] true) id T v HR1 (put_look _ _ _)) as (b & m2 & H2 & HR2); try done.
  { by rewrite Ht. }
  exists m1, b, m2. split; [done|]. split; [done|]. destruct b; [by rewrite put_put in HR2|done].
Qed.
Definition result (b : bool) (id : Z) (s s' s1 : smem) : Prop := if b then s1 = s' else dropped id s s1.
Lemma ocollect_R m s s' id T v : R m s -> tls m !! T = None -> scollect id T v s = Ok s' ->
  exists b m' s1, odyn_load G F id T v m = Ok (b, m') /\ R m' s1 /\ result b id s s' s1.
Proof.
  intros HR HT H. unfold scollect in H. pose proof (find_d_R _ _ HR) as Hd. destruct (find_d s) as [[c a]|] eqn:Ef; unfold odyn_load.
  - destruct Hd as (Ha & Hin & HD & -> & d & Hd & Hc). rewrite Hd. simpl. ok_inv H. apply sassert_ok, nz_true in E.
    destruct (ac_coll a) as [q|] eqn:Hq; simpl in Hc.
    + destruct Hc as (Hq0 & -> & _). rewrite (proj2 (Z.eqb_neq _ _) Hq0). simpl. destruct (q_ok q) eqn:Hok; [|done]. injection H as <-.
      destruct (oda_R m s c a q id T v) as (b & m' & -> & HR'); try done. exists b, m'. destruct b; eexists; (split; [done|]); (split; [exact HR'|]); [done|].
      exists c, a, q. split; [done|]. split; [by rewrite put_same|]. split; [unfold nodes; by rewrite Hq|by left].
    + destruct Hc as (-> & _). simpl. injection H as <-. assert (nodes a = []) as Hn by (unfold nodes; by rewrite Hq).
      destruct (oda_fresh_R m s c a id T v) as (m1 & b & m' & -> & H2 & HR'); try done. cbn [rbind]. exists b, m'. destruct b; eexists; (split; [exact H2|]); (split; [exact HR'|]); [done|].
      exists c, a, (Coll id [] true). split; [done|]. split; [done|]. split; [by rewrite Hn|by right].
  - rewrite Hd. injection H as <-. by exists true, m, s.
Qed.
Lemma ocollect_acc_R m s s' id T tag f g : R m s -> tls m !! T = None -> find_d s <> None -> scollect_acc id T (f (g_def G T)) s = Ok s' ->
  exists (b : bool) m' s1, odyn_accumulate G F id T tag f m g = Ok (b, (m', if b then emit (EvAcc tag) g else g)) /\ R m' s1 /\ result b id s s' s1.
Proof.
  intros HR HT Hnn H. unfold scollect_acc in H. pose proof (find_d_R _ _ HR) as Hd. destruct (find_d s) as [[c a]|] eqn:Ef; unfold odyn_accumulate; [|done].
  destruct Hd as (Ha & Hin & HD & -> & d & Hd & Hc). rewrite Hd. simpl. ok_inv H. apply sassert_ok, nz_true in E.
  assert (nodes a = [] -> s' = put c (set_coll (Some (Coll id [(T, (id, f (g_def G T)))] true)) a) s ->
    exists (b : bool) m' s1, (let! m1 := dslot_load G c id m in let! bm := oda_load G F c id T (f (g_def G T)) m1 in
      if fst bm then Ok (true, (snd bm, emit (EvAcc tag) g)) else Ok (false, (snd bm, g))) = Ok (b, (m', if b then emit (EvAcc tag) g else g)) /\ R m' s1 /\ result b id s s' s1) as Hfresh.
  { intros Hn ->. destruct (oda_fresh_R m s c a id T (f (g_def G T))) as (m1 & b & m' & -> & H2 & HR'); try done. cbn [rbind]. rewrite H2. cbn [rbind fst snd].
    exists b, m'. destruct b; eexists; (split; [done|]); (split; [exact HR'|]); [done|].
    exists c, a, (Coll id [] true). split; [done|]. split; [done|]. split; [by rewrite Hn|by right]. }
  destruct (ac_coll a) as [q|] eqn:Hq; simpl in Hc.
  - destruct Hc as (Hq0 & -> & _). destruct (q_key q =? id) eqn:Ek.
    + destruct (q_ok q) eqn:Hok; [|done]. injection H as <-. cbn [rbind].
      destruct (oda_R m s c a q id T (f (g_def G T))) as (b & m' & -> & HR'); try done. cbn [rbind fst snd]. exists b, m'. destruct b; eexists; (split; [done|]); (split; [exact HR'|]); [done|].
      exists c, a, q. split; [done|]. split; [by rewrite put_same|]. split; [unfold nodes; by rewrite Hq|by left].
    + destruct (Stack.q_nodes q) eqn:En; [|done]. injection H as <-. apply Hfresh; [|done]. unfold nodes. by rewrite Hq.
  - destruct Hc as (-> & _). rewrite (proj2 (Z.eqb_neq 0 id)) by done. injection H as <-. apply Hfresh; [|done]. unfold nodes. by rewrite Hq.
Qed.
Lemma ocoll_onerr id it m s g s' g' : R m s -> sload G true id it s g = Ok (s', g') ->
  exists m' s1 g1, oload G F true id it m g = Ok (m', g1) /\ R m' s1 /\ (s1 = s' /\ g1 = g' \/ dropped id s s1 /\ g1 = drop_item it g).
Proof.
  intros HR H. destruct (load_R G true id it m s g s' g' HR H) as (m0 & H0 & HR0).
  destruct it as [T v|T tag gf|T tag f|tag]; cbn [oload]; [| | |rewrite H0; eauto 10]; (destruct (tls m !! T) eqn:ET; [rewrite H0; eauto 10|]);
    simpl in H; pose proof (find_e_R m s T HR) as Hf; (destruct (find_e T s) as [[c a]|]; [destruct Hf as (_ & _ & _ & ad & sl & Ht & _); congruence|]);
    (destruct (g_capture G); [|injection H as <- <-; eauto 10]).
  - ok_inv H. injection H as <- <-. destruct (ocollect_R m s a id T v HR ET E) as (b & m' & s1 & -> & HR' & Hr). unfold caught_if. cbn [rbind fst snd]. rewrite orb_true_r. cbn [rbind].
    exists m', s1, g. split; [done|]. split; [done|]. destruct b; [left|right]; done.
  - ok_inv H. injection H as <- <-. destruct (ocollect_R m s a id T (gf (tr g)) HR ET E) as (b & m' & s1 & -> & HR' & Hr). unfold caught_if. cbn [rbind fst snd]. rewrite orb_true_r. cbn [rbind].
    exists m', s1, (emit (EvDefer tag) g). split; [done|]. split; [done|]. destruct b; [left|right]; done.
  - destruct (find_d s) as [x|] eqn:Ed.
    + ok_inv H. injection H as <- <-. destruct (ocollect_acc_R m s a id T tag f g HR ET ltac:(by rewrite Ed) E) as (b & m' & s1 & -> & HR' & Hr). unfold caught_if. cbn [rbind fst snd]. rewrite orb_true_r.
      exists m', s1, (if b then emit (EvAcc tag) g else g). split; [done|]. split; [done|]. destruct b; [left|right]; done.
    + injection H as <- <-. pose proof (find_d_R _ _ HR) as Hd. rewrite Ed in Hd. unfold odyn_accumulate. rewrite Hd. cbn. eauto 10.
Qed.
End oom.

Lemma refp_false {A} (x y : res A) : refp (fun _ => False) eq x y -> x = y.
Proof. destruct x as [a|e]; [destruct y as [b|e']; simpl; [by intros ->|done]|]. by intros [[]| ->]. Qed.
Lemma refp_assert {A} (x y : res A) : refp (fun e => e = Assert) eq x y -> x = Fail Assert \/ x = y.
Proof. destruct x as [a|e]; [destruct y as [b|e']; simpl; [intros ->; by right|done]|]. intros [H|H]; [left; by f_equal|by right]. Qed.

(** ** Theorems *)
(** With enough memory this is the library that Mem.v describes, whatever the program. *)
Theorem C66_enough_memory :
  forall G caught p s, eval G (omach G plenty) caught p s = eval G (pmach G) caught p s.
Proof.
  intros G caught p [m g].
  assert (forall {A} (f : A -> mem) m (r : res A), unless_fails plenty f m r = r) as Hu.
  { intros A f m0 [a|e]; [|done]. unfold unless_fails. cbn [rbind]. replace (existsb _ _) with false; [done|]. symmetry. apply not_true_is_false. intros H. apply existsb_exists in H as (? & _ & ?). done. }
  assert (forall b id T v c m, (let! x := oda_load G plenty c id T v m in if fst x || b then Ok (snd x) else Fail Assert) = da_load G c id T v m) as Hd.
  { intros b id T v c m0. unfold oda_load. simpl. by destruct (da_load G c id T v m0). }
  assert (forall b id T v m, caught_if b (odyn_load G plenty id T v m) = dyn_load G id T v m) as Hl.
  { intros b id T v m0. unfold caught_if, odyn_load, dyn_load. destruct (tlsd m0) as [c|]; [|done]. destruct (deref (dhp m0 !! c)) as [d|]; [|done]. cbn [rbind].
    destruct (negb _); [apply Hd|]. destruct (dslot_load G c id m0); [|done]. apply Hd. }
  assert (close (fun _ => False) G (omach G plenty) (pmach G) (fun m1 m2 : mem => m1 = m2 /\ True) (fun _ => True) (fun _ => True)) as C.
  { apply close_oom; auto.
    - intros b id it m0 g0 _ _. replace (oload G plenty b id it m0 g0) with (mload G b id it m0 g0); [apply ref_refl|]. symmetry.
      destruct it as [T v|T tag gf|T tag f|tag]; cbn [oload mload]; try done; unfold load_slot, load_slot_deferred, load_slot_accumulate; (destruct (tls m0 !! T); [done|]); (destruct (g_capture G); [|done]); rewrite ?Hl; try done.
      unfold caught_if, odyn_accumulate, dyn_accumulate. destruct (tlsd m0) as [c|]; [|done]. destruct (deref (dhp m0 !! c)) as [d|]; [|done]. cbn [rbind].
      destruct (if d_key d =? id then _ else _) as [m1|]; [|done]. cbn [rbind]. unfold oda_load. simpl. by destruct (da_load G c id T (f (g_def G T)) m1).
    - intros. rewrite Hu. apply ref_refl.
    - intros. rewrite Hu. apply ref_refl.
    - intros. simpl. rewrite andb_false_r. apply ref_refl. }
  pose proof (proj1 (morph_eval _ G _ _ _ _ _ C) p (proj1 (creates_uses G _ _ (fun _ => Logic.I)) p (proj1 (creates_all G _ (fun _ => Logic.I)) p)) caught (m, g) (m, g)) as H.
  pose proof (refp_eq G plenty _ _ _ _ (H ltac:(by repeat split))) as He.
  exact (refp_false _ _ He).
Qed.
Print Assumptions C66_enough_memory.

(** A program which does not use on_error: if memory runs out the run is stopped (std::terminate, but see Oom.v about captured results);
    otherwise everything is as with enough memory. There is no run that goes on with something missing. *)
Theorem C66_stops_or_same :
  forall G F caught p s, no_on_error G p ->
    eval G (omach G F) caught p s = Fail Assert \/ eval G (omach G F) caught p s = eval G (pmach G) caught p s.
Proof.
  intros G F caught p [m g] Hp.
  pose proof (proj1 (morph_eval _ G _ _ _ _ _ (close_stop G F)) p Hp caught (m, g) (m, g) ltac:(by repeat split)) as H. apply refp_eq in H.
  exact (refp_assert _ _ H).
Qed.
Print Assumptions C66_stops_or_same.

(** A program for which the library allocates no memory does not depend on how much memory there is. *)
Theorem C66_no_memory_needed :
  forall G F caught p m g, (forall n, g_sup G n <> 0) ->
    (g_capture G = false \/ frugal (g_diag G) p /\ nobody_collects m) ->
    eval G (omach G F) caught p (m, g) = eval G (pmach G) caught p (m, g).
Proof.
  intros G F caught p m g Hs Hc.
  assert (exists b, (b = false -> g_capture G = false) /\ creates G (okb b) p /\ calm G m /\ (b = true -> nobody_collects m)) as (b & Hb & Hp & Hm).
  { destruct Hc as [Hg|[Hp Hn]].
    - exists false. split; [done|]. split; [|split; [by left|done]]. apply (creates_all G (okb false)). by intros tup.
    - exists true. split; [done|]. split; [by apply frugal_creates|]. split; [|done]. eapply (still_calm G true); [done|]. by split. }
  pose proof (proj1 (morph_eval _ G _ _ _ _ _ (close_calm G F b Hb Hs)) p (proj1 (creates_uses G _ _ (fun _ => Logic.I)) p Hp) caught (m, g) (m, g)) as H.
  pose proof (refp_eq G F _ _ _ _ (H ltac:(by repeat split; apply Hm))) as He.
  exact (refp_false _ _ He).
Qed.
Print Assumptions C66_no_memory_needed.

(** Whatever allocations fail, no storage is lost. *)
Theorem C66_nothing_lost :
  forall G F caught p m g o m' g', (forall n, g_sup G n <> 0) ->
    nothing_lost m -> eval G (omach G F) caught p (m, g) = Ok (o, (m', g')) ->
    nothing_lost m' /\ contexts m' = contexts m /\ (m = mem0 -> hp m' = ∅ /\ dhp m' = ∅ /\ ctxs m' = ∅).
Proof.
  intros G F caught p m g o m' g' Hs Hm H. apply owned_nl in Hm.
  pose proof (proj1 (kept_eval G (omach G F) _ _ (kept_owned_oom G F Hs)) p (proj1 (creates_all G _ (fun _ => Logic.I)) p) caught (m, g) (contexts m) Hm (o, (m', g')) H) as HO.
  change (owned (contexts m) [] m') in HO.
  pose proof (o_ctx _ _ _ HO) as E. assert (nothing_lost m') as Hn by (apply owned_nl; by rewrite E). split; [done|]. split; [done|].
  intros ->. apply nothing_contexts; [done|]. rewrite E. exact (fmap_empty k_tup).
Qed.
Print Assumptions C66_nothing_lost.

(** on_error, where it is defined at all with enough memory: it works as with enough memory, or the object is dropped. It never stops the program, and
    cells and what had been collected before stay. R: what the storage stands for, see SimBase.v. *)
Theorem C66_on_error :
  forall G F id it m s g s' g', R m s -> sload G true id it s g = Ok (s', g') ->
    exists m' s1 g1, oload G F true id it m g = Ok (m', g1) /\ R m' s1 /\
      (s1 = s' /\ g1 = g' \/ dropped id s s1 /\ g1 = drop_item it g).
Proof. intros. by eapply ocoll_onerr. Qed.
Print Assumptions C66_on_error.
(** An object for which there is a slot is not dropped. *)
Theorem C66_on_error_slot :
  forall G F id it T m g, tls m !! T <> None -> match it with IVal T' _ | IDef T' _ _ | IAcc T' _ _ => T' = T | IVoid _ => True end ->
    oload G F true id it m g = mload G true id it m g.
Proof. intros G F id it T m g HT Hi. destruct it; subst; try done; simpl; by destruct (tls m !! T). Qed.
Print Assumptions C66_on_error_slot.

(** ** Non-trivial cases *)
(** A program without on_error *)
Definition ex66_p : prog :=
  PTHA (PBind (PCapture false (PNewError [IVal TC (VZ 3); IVal TA (VZ 10)] (fun id => PRet (RErr id)))) (fun r => PRet r))
    (HCons [AE TA; ADetails] (fun l => match l with VE (VZ z) :: _ => PRet (RVal z) | _ => PRet (RVal 0) end) (HCons [] (fun _ => PRet (RVal (-1))) HNil)).
Definition first_fails (n : nat) : fails := Fails (fun k => k =? n)%nat (fun _ => false).
Definition value_of (x : res (out * (mem * glob))) : option Z := match x with Ok (ORet (RVal z), _) => Some z | Fail Assert => Some (-99) | _ => None end.
(** Two allocations (TA has a slot): one in new_error, for try_capture_all, one where try_handle_all unloads the captured result. The program stops if one of them fails, *)
Example ex66_stops : no_on_error GX ex66_p /\
  map (fun n => value_of (eval GX (omach GX (first_fails n)) None ex66_p (mem0, glob0))) [0; 1; 2; 3]%nat = [Some (-99); Some (-99); Some 10; Some 10].
Proof. split; [|vm_compute; reflexivity]. unfold ex66_p, HCons, no_on_error. cbn [uses usesH]. split_and!; try done. intros [|[[]| | | | |] ?]; done. Qed.
(** with on_error it goes on; what could not be stored is missing in the captured result. *)
Definition ex66_q : prog :=
  PBind (PCapture false (POnError [IVal TC (VZ 3); IVal TA (VZ 10)] (PNewError [] (fun id => PRet (RErr id))))) (fun r => PTHA (PRet r)
    (HCons [AE TA] (fun l => match l with VE (VZ z) :: _ => PRet (RVal z) | _ => PRet (RVal 0) end) (HCons [AE TC] (fun _ => PRet (RVal (-3))) (HCons [] (fun _ => PRet (RVal (-1))) HNil)))).
Example ex66_drops :
  map (fun F => value_of (eval GX (omach GX F) None ex66_q (mem0, glob0))) [first_fails 0; first_fails 1; first_fails 2; Fails (fun _ => true) (fun _ => true)] = [Some 10; Some (-3); Some 10; Some (-1)].
Proof. vm_compute. reflexivity. Qed.
(** The hypotheses of C66_no_memory_needed: see ex64_frugal. With a program that does need memory it is false: *)
Example ex66_needed : eval GX (omach GX (first_fails 0)) None (ex64 ADetails id) (mem0, glob0) <> eval GX (pmach GX) None (ex64 ADetails id) (mem0, glob0).
Proof. vm_compute. discriminate. Qed.
(** on_error with no memory, in a scope that collects: the object is dropped *)
Example ex66_on_error :
  match mact GX 0%nat (snd (mnew GX [SDA] mem0)) with
  | Ok m => match oload GX (first_fails 0) true 9 (IVal TC (VZ 1)) m glob0, oload GX plenty true 9 (IVal TC (VZ 1)) m glob0 with
            | Ok (m1, _), Ok (m2, _) => (size (hp m1), size (hp m2), d_key <$> dhp m1 !! 0%nat) = (0%nat, 1%nat, Some 9)
            | _, _ => False
            end
  | Fail _ => False
  end.
Proof. vm_compute. reflexivity. Qed.
