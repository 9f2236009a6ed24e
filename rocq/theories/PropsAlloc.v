(** C64: no dynamic memory allocations, unless somebody asks for them. *)
From Verif Require Export PropsLeak.
Open Scope Z_scope.

(** ** Specification *)
(** The library contains two new-expressions: for a node of a capture list (error.hpp:286, counted by [na]), and for a node with an exception
    (error.hpp:305), which is part of try_capture_all.

    A program asks for allocations if it uses try_capture_all, or handlers which take diagnostic_details, or makes a context for such
    handlers (diagnostics.hpp:156-182). Without BOOST_LEAF_CFG_DIAGNOSTICS diagnostic_details collects nothing. *)
Fixpoint takes_details (hs : handlers) : Prop :=
  match hs with
  | HNil => False
  | HMut args _ _ rest => ADetails ∈ args \/ takes_details rest
  | HTup hs' rest => takes_details hs' \/ takes_details rest
  end.
Fixpoint frugal (diag : bool) (p : prog) : Prop :=
  match p with
  | PRet _ | PThrow _ _ _ | PThrowX _ | PRethrow => True
  | PBind p k => frugal diag p /\ forall r, frugal diag (k r)
  | PEmit _ k | PLoad _ _ k | PCtxUnload _ _ k => frugal diag k
  | PNewError _ k | PCurErr k | PMonitor k | PCheck _ k | PAssigned _ k | PValue _ k | PErrId _ k | PImport _ _ k => forall z, frugal diag (k z)
  | PCatch p h => frugal diag p /\ forall x, frugal diag (h x)
  | POnError _ p | PE2R _ p | PAct _ p => frugal diag p
  | PTHA p hs | PTHS p hs | PTC p hs => (diag = true -> ~ takes_details hs) /\ frugal diag p /\ frugalH diag hs
  | PCapture _ _ => False
  | PUnload _ k => forall r, frugal diag (k r)
  | PCtx tup k => SDA ∉ tup /\ forall c, frugal diag (k c)
  | PCtxHandle _ _ hs => frugalH diag hs
  end
with frugalH (diag : bool) (hs : handlers) : Prop :=
  match hs with
  | HNil => True
  | HMut _ _ b rest => (forall l, frugal diag (b l)) /\ frugalH diag rest
  | HTup hs' rest => frugalH diag hs' /\ frugalH diag rest
  end.
(** No scope that collects objects is active, or exists. *)
Definition nobody_collects (m : mem) : Prop := tlsd m = None /\ forall c k, ctxs m !! c = Some k -> SDA ∉ k_tup k.

(** ** Proof *)
Section ops.
Context (G : cfg).
Definition quiet (m m' : mem) : Prop := na m' = na m /\ tlsd m' = tlsd m /\ ctxs m' = ctxs m.
Definition calm (m : mem) : Prop := g_capture G = false \/ tlsd m = None.
Lemma quiet_trans m1 m2 m3 : quiet m1 m2 -> quiet m2 m3 -> quiet m1 m3.
Proof. intros (?&?&?) (?&?&?). split_and!; congruence. Qed.
Lemma quiet_calm m m' : quiet m m' -> calm m -> calm m'.
Proof. intros (_&E&_) [|]; [by left|right; congruence]. Qed.
Lemma q_activate a T m m' : slot_activate a T m = Ok m' -> quiet m m'.
Proof. intros H. unfold slot_activate in H. ok_inv H. by injection H as <-. Qed.
Lemma q_deactivate a T m m' : slot_deactivate a T m = Ok m' -> quiet m m'.
Proof. intros H. unfold slot_deactivate in H. ok_inv H. by injection H as <-. Qed.
Lemma q_free a T m m' : slot_free G a T m = Ok m' -> quiet m m'.
Proof. intros H. unfold slot_free in H. ok_inv H. ok_inv H. by injection H as <-. Qed.
Lemma q_load a id v m m' : slot_load G a id v m = Ok m' -> quiet m m'.
Proof. intros H. unfold slot_load in H. ok_inv H. ok_inv H. by injection H as <-. Qed.
Lemma q_reset a m m' : slot_reset a m = Ok m' -> quiet m m'.
Proof. intros H. unfold slot_reset in H. ok_inv H. by injection H as <-. Qed.
Lemma q_nodes f l : (forall T n m m', calm m -> f T n m = Ok m' -> quiet m m') -> forall m m', calm m -> for_nodes f l m = Ok m' -> quiet m m'.
Proof.
  intros Hf. induction l as [|[T n] l IH]; intros m m' Hm H; [by injection H as <-|]. simpl in H. ok_inv H.
  pose proof (Hf _ _ _ _ Hm E) as Hq. eapply quiet_trans; [exact Hq|]. eapply IH; [|exact H]. by eapply quiet_calm.
Qed.
Lemma q_nodes' f l : (forall T n m m', f T n m = Ok m' -> quiet m m') -> forall m m', for_nodes f l m = Ok m' -> quiet m m'.
Proof.
  intros Hf. induction l as [|[T n] l IH]; intros m m' H; [by injection H as <-|]. simpl in H. ok_inv H. eapply quiet_trans; [by eapply Hf|]. by eapply IH.
Qed.
Lemma q_dreset c m m' : dslot_reset G c m = Ok m' -> quiet m m'.
Proof.
  intros H. unfold dslot_reset in H. ok_inv H. ok_inv H. injection H as <-. apply (quiet_trans _ a0); [|done].
  destruct (d_key a =? 0); [by injection E0 as <-|]. eapply q_nodes'; [|exact E0]. intros T n m1 m2. apply q_free.
Qed.
Lemma q_dload c id m m' : dslot_load G c id m = Ok m' -> quiet m m'.
Proof. intros H. unfold dslot_load in H. ok_inv H. ok_inv H. ok_inv H. injection H as <-. exact (q_dreset _ _ _ E0). Qed.
Lemma q_unload_to id T v m b m' : calm m -> unload_to G id T v m = Ok (b, m') -> quiet m m'.
Proof.
  intros Hc H. unfold unload_to in H. destruct (tls m !! T).
  - ok_inv H. destruct (negb _); [|by injection H as <- <-]. ok_inv H. injection H as <- <-. by eapply q_load.
  - destruct (g_capture G) eqn:Eg; [|by injection H as <- <-]. destruct Hc as [|Hc]; [congruence|]. ok_inv H. injection H as <- <-. unfold dyn_load in E. rewrite Hc in E. by injection E as <-.
Qed.
Lemma q_slot_unload a T id m m' : calm m -> slot_unload G a T id m = Ok m' -> quiet m m'.
Proof.
  intros Hc H. unfold slot_unload in H. ok_inv H. ok_inv H. destruct (negb (e_key _ =? id)); [by injection H as <-|]. destruct (_ && _ && _); [done|]. ok_inv H.
  destruct a2 as [b m1]. simpl in H. pose proof (q_unload_to _ _ _ _ _ _ Hc E1) as Hq. destruct b; [|by injection H as <-]. eapply quiet_trans; [exact Hq|]. by eapply q_reset.
Qed.
Lemma q_dunload c id m g m' g' : calm m -> dslot_unload G c id m g = Ok (m', g') -> quiet m m'.
Proof.
  intros Hc H. unfold dslot_unload in H. ok_inv H. ok_inv H. destruct (d_key _ =? 0); [by injection H as <- <-|]. ok_inv H. ok_inv H. injection H as <- <-.
  assert (quiet m a1). { refine (q_nodes _ _ _ (set_dhp _ m) _ _ E1); [|done]. intros T n m1 m2. apply q_slot_unload. }
  eapply quiet_trans; [done|]. eapply q_nodes'; [|exact E2]. intros T n m1 m2. apply q_free.
Qed.
Lemma q_capunload id l : forall m m', calm m -> cap_unload_nodes G id l m = Ok m' -> quiet m m'.
Proof.
  induction l as [|[T [k v]] l IH]; intros m m' Hc H; [by injection H as <-|]. simpl in H. ok_inv H. ok_inv H.
  assert (quiet m a0) as Hq. { destruct (negb (k =? id)); [by injection E0 as <-|]. ok_inv E0. injection E0 as <-. destruct a1 as [b m1]. by eapply q_unload_to. }
  eapply quiet_trans; [exact Hq|]. eapply IH; [|exact H]. by eapply quiet_calm.
Qed.
Lemma q_mload b id it m g m' g' : calm m -> mload G b id it m g = Ok (m', g') -> quiet m m'.
Proof.
  intros Hc H. destruct it as [T v|T tag gf|T tag f|tag]; simpl in H.
  - ok_inv H. injection H as <- <-. unfold load_slot in E. destruct (tls m !! T).
    + ok_inv E. destruct (_ || _); [by eapply q_load|by injection E as <-].
    + destruct (g_capture G) eqn:Eg; [|by injection E as <-]. destruct Hc as [|Hc]; [congruence|]. unfold dyn_load in E. rewrite Hc in E. by injection E as <-.
  - unfold load_slot_deferred in H. destruct (tls m !! T).
    + ok_inv H. destruct (_ || _); [|by injection H as <- <-]. ok_inv H. injection H as <- <-. by eapply q_load.
    + destruct (g_capture G) eqn:Eg; [|by injection H as <- <-]. destruct Hc as [|Hc]; [congruence|]. ok_inv H. injection H as <- <-. unfold dyn_load in E. rewrite Hc in E. by injection E as <-.
  - unfold load_slot_accumulate in H. destruct (tls m !! T).
    + ok_inv H. ok_inv H. injection H as <- <-. by eapply q_load.
    + destruct (g_capture G) eqn:Eg; [|by injection H as <- <-]. destruct Hc as [|Hc]; [congruence|]. unfold dyn_accumulate in H. rewrite Hc in H. by injection H as <- <-.
  - by injection H as <- <-.
Qed.
Lemma q_tup (f : sty -> mem -> res mem) l :
  (forall t m m', f t m = Ok m' -> na m' = na m /\ ctxs m' = ctxs m /\ (t <> SDA -> tlsd m' = tlsd m)) ->
  forall m m', for_tup f l m = Ok m' -> na m' = na m /\ ctxs m' = ctxs m /\ (SDA ∉ l -> tlsd m' = tlsd m).
Proof.
  intros Hf. induction l as [|t l IH]; intros m m' H; [by injection H as <-|]. simpl in H. ok_inv H. destruct (Hf _ _ _ E) as (H1 & H2 & H3). destruct (IH _ _ H) as (D1 & D2 & D3).
  split_and!; [congruence..|]. intros [Ht Hl]%not_elem_of_cons. rewrite D3 by done. by apply H3.
Qed.
Lemma q_sty_free c t m m' : sty_free G c t m = Ok m' -> quiet m m'.
Proof.
  destruct t as [T|]; simpl; [apply q_free|]. intros H. unfold dslot_free in H. ok_inv H. ok_inv H. ok_inv H. injection H as <-. exact (q_dreset _ _ _ E1).
Qed.
Lemma q_take l : forall m x m', take_nodes l m = Ok (x, m') -> quiet m m'.
Proof.
  induction l as [|[T n] l IH]; intros m x m' H; simpl in H; [by injection H as <- <-|]. ok_inv H. ok_inv H. injection H as <- <-. destruct a0 as [y m1]. exact (IH _ _ _ E0).
Qed.

(** b: nobody collects; otherwise capturing is disabled *)
Context (b : bool) (Hb : b = false -> g_capture G = false).
Definition still (n : nat) (m : mem) : Prop := na m = n /\ (b = true -> nobody_collects m).
Definition okb (tup : list sty) : Prop := b = true -> SDA ∉ tup.
Lemma still_calm n m : still n m -> calm m.
Proof. intros [_ H]. destruct b; [right; by apply H|left; auto]. Qed.
Lemma still_quiet n m m' : quiet m m' -> still n m -> still n m'.
Proof. intros (H1 & H2 & H3) [Hn Hc]. split; [congruence|]. intros Hbt. destruct (Hc Hbt). split; [congruence|]. by rewrite H3. Qed.
Lemma still_ctx n m m1 c k a : still n m -> ctxs m !! c = Some k -> na m1 = na m -> ctxs m1 = ctxs m -> (SDA ∉ k_tup k -> tlsd m1 = tlsd m) ->
  still n (set_ctxs (<[c := CCtx (k_tup k) a]> (ctxs m1)) m1).
Proof.
  intros [Hn Hc] Hk E1 E2 E3. split; [simpl; congruence|]. intros Hbt. destruct (Hc Hbt) as [Ht Hs]. specialize (Hs _ _ Hk) as Hk'. split; [simpl; by rewrite E3|].
  simpl. rewrite E2. intros c' k'. destruct (decide (c' = c)) as [->|]; [rewrite lookup_insert; by intros [= <-]|]. rewrite lookup_insert_ne by done. apply Hs.
Qed.
Lemma still_end n m m1 c l : still n m -> for_tup (sty_free G c) l m = Ok m1 -> still n (set_ctxs (delete c (ctxs m1)) m1).
Proof.
  intros Hm H. assert (quiet m m1) as Hq.
  { clear Hm. revert m H. induction l as [|t l IH]; intros m H; [by injection H as <-|]. simpl in H. ok_inv H. eapply quiet_trans; [by eapply q_sty_free|]. by apply IH. }
  destruct (still_quiet _ _ _ Hq Hm) as [Hn Hc]. split; [done|]. intros Hbt. destruct (Hc Hbt) as [Ht Hs]. split; [done|]. simpl. intros c' k [_ Hk]%lookup_delete_Some. by eapply Hs.
Qed.
Lemma new_na c tup : forall m, na (new_slots G c tup m) = na m /\ tlsd (new_slots G c tup m) = tlsd m /\ ctxs (new_slots G c tup m) = ctxs m.
Proof. induction tup as [|[T|] tup IH]; intros m; simpl; [done|..]; by destruct (IH (set_hp (<[inl (c, T) := ESlot 0 (g_def G T) None]> (hp m)) m)) || by destruct (IH (set_dhp (<[c := DSlot 0 [] true None]> (dhp m)) m)). Qed.

Lemma kept_still : (forall n, g_sup G n <> 0) -> kept G (pmach G) okb still.
Proof.
  intros Hsup. constructor; simpl; auto.
  - intros x b' id it m g m' g' _ Hm H. eapply still_quiet; [|exact Hm]. eapply q_mload; [|exact H]. by eapply still_calm.
  - intros x id l m g m' g' _ Hm H. unfold mcap_unload in H. ok_inv H. injection H as <- <-. eapply still_quiet; [|exact Hm]. eapply q_capunload; [|exact E]. by eapply still_calm.
  - intros x tup m c m' Hok Hm H. exists x. split; [|split].
    + unfold mnew in H. injection H as <- <-. destruct (new_na (nc m) tup m) as (E1 & E2 & E3). destruct Hm as [Hn Hc]. split; [simpl; congruence|]. intros Hbt. destruct (Hc Hbt) as [Ht Hs].
      specialize (Hok Hbt). split; [simpl; congruence|]. simpl. intros c k. destruct (decide (c = nc m)) as [->|]; [rewrite lookup_insert; by intros [= <-]|].
      rewrite lookup_insert_ne by done. apply Hs.
    + intros m1 m2 Hm1 H2. unfold mdestroy in H2. ok_inv H2. ok_inv H2. ok_inv H2. injection H2 as <-. by eapply still_end.
    + intros m1 m2 Hm1 H2. unfold mdrop in H2. ok_inv H2. ok_inv H2. injection H2 as <-. by eapply still_end.
  - intros x c m m' Hm H. unfold mact in H. ok_inv H. apply deref_ok in E. ok_inv H. ok_inv H. injection H as <-.
    destruct (q_tup (sty_activate c) (k_tup a)) with m a1 as (D1 & D2 & D3); [|done|by eapply still_ctx].
    intros [T|] m1 m2 H; simpl in H; [destruct (q_activate _ _ _ _ H) as (?&?&?); auto|]. unfold dslot_activate in H. ok_inv H. by injection H as <-.
  - intros x c m m' Hm H. unfold mdeact in H. ok_inv H. apply deref_ok in E. ok_inv H. ok_inv H. injection H as <-.
    destruct (q_tup (sty_deactivate c) (rev (k_tup a))) with m a1 as (D1 & D2 & D3); [|done|].
    + intros [T|] m1 m2 H; simpl in H; [destruct (q_deactivate _ _ _ _ H) as (?&?&?); auto|]. unfold dslot_deactivate in H. ok_inv H. ok_inv H. injection H as <-. simpl.
      destruct (d_key _ =? 0); [by injection E3 as <-|]. destruct (q_nodes' _ _ (fun T n => q_deactivate (inr n) T) _ _ E3) as (?&?&?). by split_and!.
    + eapply still_ctx; [exact Hm|exact E|done|done|]. intros Hn. apply D3. rewrite elem_of_list_In, <- in_rev, <- elem_of_list_In. done.
  - intros x c id m g m' g' Hm H. unfold munload in H. ok_inv H. ok_inv H. clear E E0. revert m g Hm H. induction (rev (k_tup a)) as [|t l IH]; intros m g Hm H; [by injection H as <- <-|].
    simpl in H. ok_inv H. ok_inv H. destruct a2 as [m1 g1]. simpl in H. eapply IH; [|exact H]. pose proof (still_calm _ _ Hm) as Hc. eapply still_quiet; [|exact Hm]. destruct t as [T|].
    + ok_inv E0. injection E0 as <- <-. by eapply q_slot_unload.
    + by eapply q_dunload.
  - intros x c T id v m m' Hm H. unfold mset in H. ok_inv H. destruct (bool_decide _); [|by injection H as <-]. ok_inv H. destruct (_ && _); [|by injection H as <-].
    injection H as <-. done.
  - intros x c id b' m l m' Hm H. unfold mextract in H. ok_inv H. ok_inv H. ok_inv H. ok_inv H. ok_inv H. ok_inv H. injection H as <- <-. destruct a4 as [y m2]. simpl.
    eapply still_quiet; [|exact Hm]. apply (quiet_trans _ a1). { destruct (d_key _ =? id); [by injection E1 as <-|by eapply q_dload]. } exact (q_take _ _ _ _ E4).
Qed.

End ops.

(** Types of contexts *)
Section types.
Context (G : cfg).
Lemma set_push_in {A} `{EqDecision A} (l : list A) : forall s x, x ∈ mp_set_push_back s l -> x ∈ s \/ x ∈ l.
Proof. induction l as [|t l IH]; intros s x H; simpl in *; [by left|]. apply IH in H as [H|H]; [|set_solver]. destruct (bool_decide (t ∈ s)); set_solver. Qed.
Lemma append_in {A} `{EqDecision A} (ls : list (list A)) : forall acc x, x ∈ mp_append_to acc ls -> x ∈ acc \/ exists l, l ∈ ls /\ x ∈ l.
Proof. induction ls as [|l ls IH]; intros acc x H; simpl in *; [by left|]. apply IH in H as [[H|H]%elem_of_app|(l' & ? & ?)]; [by left|right; exists l|right; exists l']; split; set_solver. Qed.
Lemma mp_append_in {A} `{EqDecision A} (ls : list (list A)) x : x ∈ mp_append ls -> exists l, l ∈ ls /\ x ∈ l.
Proof. destruct ls as [|l ls]; simpl; [by intros ?%elem_of_nil|]. intros [H|(l' & ? & ?)]%append_in; [exists l|exists l']; split; set_solver. Qed.
Lemma deduce_list_in l t : t ∈ deduce_list G l -> t ∈ l.
Proof.
  unfold deduce_list, mp_remove_if. intros H. apply mp_append_in in H as (l' & [->|Hl]%elem_of_cons & Ht); [by apply elem_of_nil in Ht|].
  apply elem_of_list_fmap in Hl as (t' & -> & Hl). destruct (no_part G t'); [by apply elem_of_nil in Ht|]. apply elem_of_list_singleton in Ht as ->.
  apply set_push_in in Hl as [Hl|Hl]; [by apply elem_of_nil in Hl|done].
Qed.
Lemma details_args hs : ADetails ∈ handlers_args hs -> takes_details hs.
Proof.
  assert ((forall p : prog, True) /\ forall hs, ADetails ∈ handlers_args hs -> takes_details hs) as [_ H]; [|by apply H].
  apply prog_handlers_ind; simpl; auto; intros; set_solver.
Qed.
Lemma deduce_details hs : SDA ∈ deduce G hs -> g_diag G = true /\ takes_details hs.
Proof.
  intros H. apply deduce_list_in in H. apply mp_append_in in H as (l & Hl & Ht). apply elem_of_list_fmap in Hl as (a & -> & Ha).
  destruct a; simpl in Ht; try set_solver. destruct (g_diag G) eqn:Ed; simpl in Ht; [|set_solver]. split; [done|]. by apply details_args.
Qed.
Lemma frugal_creates :
  (forall p, frugal (g_diag G) p -> creates G (fun tup => true = true -> SDA ∉ tup) p) /\
  (forall hs, frugalH (g_diag G) hs -> createsH G (fun tup => true = true -> SDA ∉ tup) hs).
Proof.
  assert (forall hs, (g_diag G = true -> ~ takes_details hs) -> true = true -> SDA ∉ deduce G hs) as Hd.
  { intros hs H _ Hin. apply deduce_details in Hin as [? ?]. by apply H. }
  apply prog_handlers_ind; cbn [frugal frugalH creates createsH]; try (naive_solver; fail).
  intros tup k IH [Ht Hk]. split; [|auto]. intros _ Hin. by apply deduce_list_in in Hin.
Qed.
End types.

(** ** Theorems *)
(** Where no active scope collects, a program that does not ask for it allocates nothing, however it ends. *)
Theorem C64_no_allocations :
  forall G caught p m g o m' g', (forall n, g_sup G n <> 0) ->
    frugal (g_diag G) p -> nobody_collects m -> eval G (pmach G) caught p (m, g) = Ok (o, (m', g')) ->
    na m' = na m /\ nobody_collects m'.
Proof.
  intros G caught p m g o m' g' Hs Hp Hm H.
  destruct (proj1 (kept_eval G (pmach G) _ _ (kept_still G true ltac:(done) Hs)) p (proj1 (frugal_creates G) p Hp) caught (m, g) (na m) (conj eq_refl (fun _ => Hm)) _ H) as [Hn Hc].
  split; [exact Hn|exact (Hc eq_refl)].
Qed.
Print Assumptions C64_no_allocations.

(** Without BOOST_LEAF_CFG_CAPTURE no program allocates. *)
Theorem C64_no_allocations_without_capture :
  forall G caught p m g o m' g', (forall n, g_sup G n <> 0) -> g_capture G = false ->
    eval G (pmach G) caught p (m, g) = Ok (o, (m', g')) -> na m' = na m.
Proof.
  intros G caught p m g o m' g' Hs Hg H.
  assert (forall p, creates G (okb false) p) as Hall. { apply (creates_all G (okb false)). by intros tup. }
  assert (still false (na m) m) as H0 by done.
  destruct (proj1 (kept_eval G (pmach G) _ _ (kept_still G false (fun _ => Hg) Hs)) p (Hall p) caught (m, g) (na m) H0 _ H) as [Hn _]. exact Hn.
Qed.
Print Assumptions C64_no_allocations_without_capture.

(** Builds without exceptions *)
Theorem C64_no_allocations_noexcept :
  forall G p m g r m' g', (forall n, g_sup G n <> 0) ->
    (g_capture G = false \/ frugal (g_diag G) p /\ nobody_collects m) -> evalN G (pmach G) p (m, g) = Ok (ORet r, (m', g')) -> na m' = na m.
Proof.
  intros G p m g r m' g' Hs [Hg|[Hp Hm]] H.
  - assert (forall p, creates G (okb false) p) as Hall. { apply (creates_all G (okb false)). by intros tup. }
    assert (still false (na m) m) as H0 by done.
    destruct (proj1 (kept_evalN G (pmach G) _ _ (kept_still G false (fun _ => Hg) Hs)) p (Hall p) (m, g) (na m) H0 _ _ H) as [Hn _]. exact Hn.
  - destruct (proj1 (kept_evalN G (pmach G) _ _ (kept_still G true ltac:(done) Hs)) p (proj1 (frugal_creates G) p Hp) (m, g) (na m) (conj eq_refl (fun _ => Hm)) _ _ H) as [Hn _]. exact Hn.
Qed.
Print Assumptions C64_no_allocations_noexcept.

(** Nested scopes with an on_error, a predicate, error_info, diagnostic_info and an exception; a context of its own. Two objects (of types TC and TB) are wanted by nobody.
    Nothing is allocated; nodes are if one of the handlers takes diagnostic_details, or the failing part runs in try_capture_all. *)
Definition ex64 (a : harg) (wrap : prog -> prog) : prog :=
  PTHA (PTHS (POnError [IVal TB (VZ 5)] (wrap (PNewError [IVal TC (VZ 3); IVal TA (VZ 10)] (fun id => PRet (RErr id)))))
         (HCons [APred TA (fun _ => true); AInfo] (fun _ => PCtx [SE TB] (fun c => PAct c (PThrow None (XSpec true [T_STDEX] 4 None None) [IVal TA (VZ 1)]))) HNil))
    (HCons [AE TA; a] (fun l => match l with VE (VZ z) :: _ => PRet (RVal z) | _ => PRet (RVal 0) end) (HCons [] (fun _ => PRet (RVal (-1))) HNil)).
Example ex64_frugal : frugal (g_diag GX) (ex64 ADiag id) /\ nobody_collects mem0.
Proof. split; [|by split]. unfold ex64, id, HCons. cbn [frugal frugalH takes_details]. rewrite !elem_of_cons, !elem_of_nil.
  split; [naive_solver|]. split; [split; [naive_solver|]; split; [done|]; split; [|done]; intros _; split; [set_solver|done]|].
  split; [|done]. intros [|[[]| | | | |] ?]; done. Qed.
Example ex64_runs :
  map (fun p => match eval GX (pmach GX) None p (mem0, glob0) with Ok (ORet (RVal z), (m, _)) => (z, na m) | _ => (-2, 0%nat) end)
    [ex64 ADiag id; ex64 ADetails id; ex64 ADiag (PCapture false)] = [(1, 0%nat); (1, 2%nat); (1, 1%nat)].
Proof. vm_compute. reflexivity. Qed.
