(** Every program: the library does what the stack machine does. *)
From Verif Require Export SimCtx.
Open Scope Z_scope.

Definition asserts_on (G : cfg) : cfg :=
  Cfg (g_capture G) (g_diag G) true (g_class G) (g_abs G) (g_show G) (g_def G) (g_sup G).

(** ** Storage has no duplicates *)
Lemma mp_set_push_back_nodup {A} `{EqDecision A} (l s : list A) : NoDup s -> NoDup (mp_set_push_back s l).
Proof.
  revert s. induction l as [|t l IH]; intros s Hs; simpl; auto. apply IH. case_bool_decide; auto.
  apply NoDup_app. split; [done|]. split.
  - intros x Hx Hx'. apply elem_of_list_singleton in Hx'. by subst.
  - apply NoDup_singleton.
Qed.

Lemma mp_append_to_eq {A} `{EqDecision A} (ls : list (list A)) acc : mp_append_to acc ls = acc ++ concat ls.
Proof.
  revert acc. induction ls as [|l ls IH]; intros acc; simpl; [by rewrite app_nil_r|]. by rewrite IH, app_assoc.
Qed.

Lemma mp_append_eq {A} `{EqDecision A} (ls : list (list A)) : mp_append ls = concat ls.
Proof. destruct ls; simpl; auto. by rewrite mp_append_to_eq. Qed.

Lemma mp_remove_if_eq {A} `{EqDecision A} (P : A -> bool) (l : list A) : mp_remove_if P l = List.filter (fun t => negb (P t)) l.
Proof.
  unfold mp_remove_if. rewrite mp_append_eq. simpl. induction l as [|t l IH]; simpl; auto. destruct (P t); simpl; congruence.
Qed.

Lemma deduce_list_nodup G l : NoDup (deduce_list G l).
Proof.
  unfold deduce_list. rewrite mp_remove_if_eq. apply NoDup_ListNoDup. apply List.NoDup_filter. apply NoDup_ListNoDup.
  apply mp_set_push_back_nodup. constructor.
Qed.

(** ** Simulation *)

(** The storage operations of the stack machine are well-typed. *)
Definition typed {A} (x : res A) : Prop := x <> Fail IllTyped.
Lemma typed_ok {A} (a : A) : typed (Ok a).
Proof. done. Qed.
Lemma typed_bind {A B} (x : res A) (f : A -> res B) : typed x -> (forall a, x = Ok a -> typed (f a)) -> typed (rbind x f).
Proof. unfold typed. destruct x; simpl; auto. congruence. Qed.
Lemma typed_sassert b : typed (sassert b).
Proof. by destruct b. Qed.
Lemma typed_assert G b : typed (assert G b).
Proof. unfold assert. by destruct (_ && _). Qed.
Ltac typed1 := first [apply typed_ok | apply typed_sassert | apply typed_bind; [|intros ? _] | done |
  match goal with |- typed (match ?x with _ => _ end) => destruct x end ].
Ltac typed := repeat typed1.

Lemma typed_scollect id T v s : typed (scollect id T v s).
Proof. unfold scollect. typed. Qed.
Lemma typed_sload G onerr id it s g : typed (sload G onerr id it s g).
Proof. unfold sload, scollect, scollect_acc, sstore. typed. Qed.
Lemma typed_sreceive G id T v s : typed (sreceive G id T v s).
Proof. unfold sreceive, sstore, scollect. typed. Qed.
Lemma typed_sreceive_all G id l : forall s, typed (sreceive_all G id l s).
Proof.
  induction l as [|[T [k v]] l IH]; intros s; simpl; typed; auto. apply typed_sreceive.
Qed.
Lemma typed_scap_unload G id l s g : typed (scap_unload G id l s g).
Proof. unfold scap_unload. apply typed_bind; [apply typed_sreceive_all|done]. Qed.
Lemma typed_sunload_list G c id tup : forall s g, typed (sunload_list G c id tup s g).
Proof.
  induction tup as [|t tup IH]; intros s g; simpl; typed; auto.
  unfold sunload1. typed; first [apply typed_sreceive|apply typed_sreceive_all].
Qed.
Lemma typed_sunload G c id s g : typed (sunload G c id s g).
Proof. unfold sunload. typed. apply typed_sunload_list. Qed.

Definition sim {A B} (P : A -> B -> Prop) (x : res A) (y : res B) : Prop :=
  (forall b, y = Ok b -> exists a, x = Ok a /\ P a b) /\ (y = Fail IllTyped -> x = Fail IllTyped).

Lemma sim_typed {A B} (P : A -> B -> Prop) x y : typed y -> (forall b, y = Ok b -> exists a, x = Ok a /\ P a b) -> sim P x y.
Proof. intros H1 H2. split; auto. intros H. by destruct H1. Qed.
Lemma sim_ret {A B} (P : A -> B -> Prop) a b : P a b -> sim P (Ok a) (Ok b).
Proof. intros H. apply sim_typed; [done|]. intros b' [= <-]. eauto. Qed.
Lemma sim_fail {A B} (P : A -> B -> Prop) x : sim P x (Fail Assert).
Proof. by apply sim_typed. Qed.
Lemma sim_illtyped {A B} (P : A -> B -> Prop) : sim P (Fail IllTyped) (Fail IllTyped).
Proof. by split. Qed.
Lemma sim_bind {A B A' B'} (P : A -> B -> Prop) (Q : A' -> B' -> Prop) x y f g :
  sim P x y -> (forall a b, P a b -> sim Q (f a) (g b)) -> sim Q (rbind x f) (rbind y g).
Proof.
  intros [H1 H3] H2. destruct y as [b|e].
  - destruct (H1 b eq_refl) as (a & -> & HP). by apply H2.
  - split; [done|]. intros [= ->]. by rewrite H3.
Qed.

Section sim.
Context (G : cfg).
Notation Ga := (asserts_on G).
Notation MP := (pmach G).
Notation MS := (smach Ga).

Definition Rst (ms : st MP) (ss : st MS) : Prop := R (fst ms) (fst ss) /\ snd ms = snd ss.
Definition Ros (x : out * st MP) (y : out * st MS) : Prop := fst x = fst y /\ Rst (snd x) (snd y).
Definition Ris {X} (x : X * st MP) (y : X * st MS) : Prop := fst x = fst y /\ Rst (snd x) (snd y).

Lemma sim_load onerr id it ms ss : Rst ms ss ->
  sim Rst (m_load MP onerr id it (fst ms) (snd ms)) (m_load MS onerr id it (fst ss) (snd ss)).
Proof.
  intros [HR E]. apply sim_typed; [apply typed_sload|]. intros [s' g'] H. rewrite E. destruct (load_R G _ _ _ _ _ _ _ _ HR H) as (m' & ? & ?). exists (m', g'). by split.
Qed.

Lemma sim_capunload id l ms ss : Rst ms ss ->
  sim Rst (m_capunload MP id l (fst ms) (snd ms)) (m_capunload MS id l (fst ss) (snd ss)).
Proof.
  intros [HR E]. apply sim_typed; [apply typed_scap_unload|]. intros [s' g'] H. rewrite E. destruct (cap_unload_R G _ _ _ _ _ _ _ HR H) as (m' & ? & ?). exists (m', g'). by split.
Qed.

Lemma sim_unload c id ms ss : Rst ms ss ->
  sim Rst (m_unload MP c id (fst ms) (snd ms)) (m_unload MS c id (fst ss) (snd ss)).
Proof.
  intros [HR E]. apply sim_typed; [apply typed_sunload|]. intros [s' g'] H. rewrite E. destruct (unload_R G _ _ _ _ _ _ _ HR H) as (m' & ? & ?). exists (m', g'). by split.
Qed.

Lemma sim_on_mem f f' ms ss : (forall m s, R m s -> sim R (f m) (f' s)) -> Rst ms ss ->
  sim Rst (on_mem MP f ms) (on_mem MS f' ss).
Proof.
  intros H [HR E]. unfold on_mem. eapply sim_bind; [by apply H|]. intros. apply sim_ret. by split.
Qed.

Lemma sim_act c ms ss : Rst ms ss -> sim Rst (on_mem MP (m_act MP c) ms) (on_mem MS (m_act MS c) ss).
Proof. apply sim_on_mem. intros m s HR. apply sim_typed; [simpl; unfold sact; typed|]. intros s' H. exact (act_R G _ _ _ _ HR H). Qed.
Lemma sim_deact c ms ss : Rst ms ss -> sim Rst (on_mem MP (m_deact MP c) ms) (on_mem MS (m_deact MS c) ss).
Proof. apply sim_on_mem. intros m s HR. apply sim_typed; [simpl; unfold sdeact; typed|]. intros s' H. exact (deact_R G _ _ _ _ HR H). Qed.
Lemma sim_destroy c ms ss : Rst ms ss -> sim Rst (on_mem MP (m_destroy MP c) ms) (on_mem MS (m_destroy MS c) ss).
Proof. apply sim_on_mem. intros m s HR. apply sim_typed; [simpl; unfold sdestroy; typed|]. intros s' H. exact (destroy_R G _ _ _ _ HR H). Qed.
Lemma sim_drop c ms ss : Rst ms ss -> sim Rst (on_mem MP (m_drop MP c) ms) (on_mem MS (m_drop MS c) ss).
Proof. apply sim_on_mem. intros m s HR. apply sim_typed; [simpl; unfold sdestroy; typed|]. intros s' H. exact (drop_R G _ _ _ _ HR H). Qed.
Lemma sim_isact c m s : R m s -> sim eq (m_isact MP c m) (m_isact MS c s).
Proof. intros HR. apply sim_typed; [simpl; unfold sisact; typed|]. intros b H. exists b. split; auto. exact (isact_R _ _ _ _ HR H). Qed.
Lemma sim_get c T id m s : R m s -> sim eq (m_get MP c T id m) (m_get MS c T id s).
Proof. intros HR. apply sim_typed; [simpl; unfold sget; typed|]. intros b H. exists b. split; auto. exact (get_R G _ _ _ _ _ _ HR H). Qed.
Lemma sim_set c T id v m s : R m s -> sim R (m_set MP c T id v m) (m_set MS c T id v s).
Proof. intros HR. apply sim_typed; [simpl; unfold sset; typed|]. intros s' H. exact (set_R _ _ _ _ _ _ _ HR H). Qed.
Lemma sim_set_all c id l : forall m s, R m s -> sim R (set_all MP c id l m) (set_all MS c id l s).
Proof.
  induction l as [|[T v] l IH]; intros m s HR; simpl; [by apply sim_ret|]. eapply sim_bind; [by apply sim_set|]. auto.
Qed.
Lemma sim_print c id m s : R m s -> sim eq (m_print MP c id m) (m_print MS c id s).
Proof. intros HR. apply sim_typed; [simpl; unfold sprint; typed|]. intros b H. exists b. split; auto. exact (print_R G _ _ _ _ _ HR H). Qed.
Lemma sim_details c id m s : R m s -> sim eq (m_details MP c id m) (m_details MS c id s).
Proof. intros HR. apply sim_typed; [simpl; unfold sdetails; typed|]. intros b H. exists b. split; auto. exact (details_R G _ _ _ _ _ HR H). Qed.
Lemma sim_extract c id b m s : R m s ->
  sim (fun x y => fst x = fst y /\ R (snd x) (snd y)) (m_extract MP c id b m) (m_extract MS c id b s).
Proof. intros HR. apply sim_typed; [simpl; unfold sextract; typed|]. intros [l s'] H. destruct (extract_R G _ _ _ _ _ _ _ HR H) as (m' & ? & ?). exists (l, m'). by split. Qed.
Lemma sim_assert b : sim eq (assert G b) (assert Ga b).
Proof. apply sim_typed; [apply typed_assert|]. intros [] H. exists tt. split; auto. apply assert_ok. unfold assert in H. simpl in H. by destruct b. Qed.

Lemma sim_load_items onerr id its : forall ms ss, Rst ms ss -> sim Rst (load_items MP onerr id its ms) (load_items MS onerr id its ss).
Proof.
  induction its as [|it its IH]; intros ms ss HR; simpl; [by apply sim_ret|].
  eapply sim_bind; [by apply sim_load|]. auto.
Qed.
Lemma sim_id_load id its ms ss : Rst ms ss -> sim Rst (id_load MP id its ms) (id_load MS id its ss).
Proof. intros. unfold id_load. destruct (id =? 0); [by apply sim_ret|by apply sim_load_items]. Qed.

Lemma Rst_glob m s g : R m s -> Rst (m, g) (s, g).
Proof. by split. Qed.

Lemma sim_import cat v ms ss : Rst ms ss -> sim Ris (import_ec G MP cat v ms) (import_ec Ga MS cat v ss).
Proof.
  intros [HR E]. unfold import_ec. destruct (v =? 0); [by apply sim_ret|]. destruct (cat =? LEAFCAT)%nat.
  - eapply sim_bind; [apply sim_assert|]. intros. by apply sim_ret.
  - rewrite E. unfold gnew. cbv beta zeta iota. eapply sim_bind.
    + match goal with |- sim _ (m_load _ _ ?i ?it _ ?g) _ => apply (sim_load false i it (fst ms, g) (fst ss, g)) end. by split.
    + intros. by apply sim_ret.
Qed.
Lemma sim_err_id r ms ss : Rst ms ss -> sim Ris (err_id_of G MP r ms) (err_id_of Ga MS r ss).
Proof. intros HR. destruct r; simpl; try (by apply sim_ret). by apply sim_import. Qed.
Lemma sim_unload_ret r ms ss : Rst ms ss -> sim Ros (unload_ret MP r ms) (unload_ret MS r ss).
Proof.
  intros HR. destruct r; simpl; try (by apply sim_ret). eapply sim_bind; [by apply sim_capunload|].
  intros. apply sim_ret. split; auto.
Qed.
Lemma sim_peek T c ei m s : R m s -> sim eq (peek G MP T c ei m) (peek Ga MS T c ei s).
Proof.
  intros HR. unfold peek. destruct (ei_id ei =? 0); [by apply sim_ret|]. eapply sim_bind; [by apply sim_get|].
  intros ? ? ->. by apply sim_ret.
Qed.
Lemma sim_shown c ei m s : R m s -> sim eq (shown G MP c ei m) (shown Ga MS c ei s).
Proof. intros HR. unfold shown. simpl. destruct (g_diag G); [by apply sim_print|by apply sim_ret]. Qed.
Lemma sim_arg a c ei m s : R m s -> sim eq (arg_get G MP a c ei m) (arg_get Ga MS a c ei s).
Proof.
  intros HR. destruct a; simpl.
  - eapply sim_bind; [by apply sim_peek|]. intros ? ? ->. by apply sim_ret.
  - eapply sim_bind; [by apply sim_peek|]. intros ? ? ->. by apply sim_ret.
  - eapply sim_bind; [by apply sim_peek|]. intros ? ? ->. by apply sim_ret.
  - by apply sim_ret.
  - by apply sim_ret.
  - by apply sim_ret.
  - eapply sim_bind; [by apply sim_shown|]. intros ? ? ->. by apply sim_ret.
  - eapply sim_bind; [by apply sim_shown|]. intros ? ? ->.
    apply (sim_bind eq).
    + destruct (g_diag G && g_capture G); [by apply sim_details|by apply sim_ret].
    + intros ? ? ->. by apply sim_ret.
Qed.
Lemma sim_args l c ei m s : R m s -> sim eq (args_get G MP l c ei m) (args_get Ga MS l c ei s).
Proof.
  intros HR. induction l as [|a l IH]; simpl; [by apply sim_ret|]. eapply sim_bind; [by apply sim_arg|].
  intros ? [v|] ->; [|by apply sim_ret]. eapply sim_bind; [exact IH|]. intros ? ? ->. by apply sim_ret.
Qed.
Lemma sim_exn_info c x ms ss : Rst ms ss -> sim Ris (exn_info MP c x ms) (exn_info MS c x ss).
Proof.
  intros HR. unfold exn_info. eapply sim_bind; [by apply sim_deact|]. intros [m1 g1] [s1 g2] [HR1 E]. simpl in *. subst g2.
  destruct (catch_info x g1) as [[id ex] g]. eapply sim_bind; [by apply sim_get|]. intros ? ? ->. apply sim_ret. by split.
Qed.
Lemma sim_unload_rethrow c id x ms ss : Rst ms ss -> sim Ros (unload_rethrow MP c id x ms) (unload_rethrow MS c id x ss).
Proof. intros HR. eapply sim_bind; [by apply sim_unload|]. intros. by apply sim_ret. Qed.
Lemma sim_leave c o ms ss : Rst ms ss -> sim Ros (leave MP c o ms) (leave MS c o ss).
Proof. intros HR. eapply sim_bind; [by apply sim_destroy|]. intros. by apply sim_ret. Qed.
Lemma sim_deact_leave c o ms ss : Rst ms ss -> sim Ros (deact_leave MP c o ms) (deact_leave MS c o ss).
Proof. intros HR. eapply sim_bind; [by apply sim_deact|]. intros. by apply sim_leave. Qed.
Lemma sim_ths_end c o ms ss : Rst ms ss -> sim Ros (ths_end G MP c o ms) (ths_end Ga MS c o ss).
Proof.
  intros HR. unfold ths_end. destruct o as [r|]; [|by apply sim_leave]. destruct (is_val r); [by apply sim_leave|].
  eapply sim_bind; [by apply sim_err_id|]. intros [i1 m1] [i2 s1] [E HR1]. simpl in *. subst i2.
  eapply sim_bind; [by apply sim_unload|]. intros. by apply sim_leave.
Qed.
Lemma sim_tha_end c o ms ss : Rst ms ss -> sim Ros (tha_end MP c o ms) (tha_end MS c o ss).
Proof.
  intros HR. unfold tha_end. destruct o as [r|]; [|by apply sim_leave]. destruct (is_val r); [by apply sim_leave|apply sim_illtyped].
Qed.
Definition Rinfo (x : (einfo * ret * st MP) + (exn * st MP)) (y : (einfo * ret * st MS) + (exn * st MS)) : Prop :=
  match x, y with
  | inl x, inl y => fst x = fst y /\ Rst (snd x) (snd y)
  | inr x, inr y => fst x = fst y /\ Rst (snd x) (snd y)
  | _, _ => False
  end.
Lemma sim_res_info c r ms ss : Rst ms ss -> sim Rinfo (res_info G MP c r ms) (res_info Ga MS c r ss).
Proof.
  intros HR. unfold res_info. eapply sim_bind; [by apply sim_unload_ret|]. intros [o m1] [o' s1] [E HR1]. simpl in *. subst o'.
  destruct o as [r1|x]; [|by apply sim_ret].
  eapply sim_bind; [by apply sim_err_id|]. intros [i2 m2] [i2' s2] [E HR2]. simpl in *. subst i2'.
  eapply sim_bind; [by apply sim_deact|]. intros m3 s3 HR3.
  eapply sim_bind; [apply sim_get, HR3|]. intros ? ? ->. apply sim_ret. by split.
Qed.
Lemma sim_e2r cls x ms ss : Rst ms ss -> sim Ros (e2r G MP cls x ms) (e2r Ga MS cls x ss).
Proof.
  intros [HR E]. unfold e2r. rewrite E. unfold gnew. cbv beta zeta iota. eapply sim_bind; [apply sim_id_load; by split|]. intros. by apply sim_ret.
Qed.
Lemma sim_new tup ms ss : NoDup tup -> Rst ms ss ->
  fst (m_new MP tup (fst ms)) = fst (m_new MS tup (fst ss)) /\
  Rst (snd (m_new MP tup (fst ms)), snd ms) (snd (m_new MS tup (fst ss)), snd ss).
Proof. intros Hnd [HR E]. destruct (new_R G tup _ _ Hnd HR). split; [assumption|]. split; assumption. Qed.

Ltac step := match goal with
  | |- sim _ (Ok _) (Ok _) => apply sim_ret
  | |- sim _ _ (Fail _) => apply sim_illtyped
  end.

Theorem sim_eval :
  (forall p caught ms ss, Rst ms ss -> sim Ros (eval G MP caught p ms) (eval Ga MS caught p ss)) /\
  (forall hs caught c ei d d' ms ss, (forall ms ss, Rst ms ss -> sim Ros (d ms) (d' ss)) -> Rst ms ss ->
     sim Ros (evalH G MP caught hs c ei d ms) (evalH Ga MS caught hs c ei d' ss)).
Proof.
  apply prog_handlers_ind; intros.
  - by apply sim_ret.
  - cbn [eval evalH]. eapply sim_bind; [by apply H|]. intros [o m1] [o' s1] [E HR1]. simpl in *. subst o'.
    destruct o; [by apply H0|by apply sim_ret].
  - cbn [eval evalH]. apply H. destruct H0 as [HR E]. split; [exact HR|]. exact (f_equal (emit (EvUser z)) E).
  - cbn [eval evalH]. destruct H0 as [HR E]. rewrite E. eapply sim_bind; [apply sim_id_load; by split|]. intros. by apply H.
  - cbn [eval evalH]. eapply sim_bind; [by apply sim_id_load|]. intros. by apply H.
  - cbn [eval evalH]. destruct H0 as [HR E]. rewrite E. apply H. by split.
  - cbn [eval evalH]. destruct H as [HR E]. rewrite E. destruct id as [id|]; simpl.
    + eapply sim_bind; [apply sim_id_load; by split|]. intros [m1 g1] [s1 g2] [HR1 E1]. simpl in *. subst.
      apply sim_ret. unfold throw_leaf. by split.
    + eapply sim_bind; [apply sim_id_load; by split|]. intros [m1 g1] [s1 g2] [HR1 E1]. simpl in *. subst.
      apply sim_ret. unfold throw_leaf. by split.
  - cbn [eval evalH]. destruct H as [HR E]. apply sim_ret. unfold throw_plain. rewrite E. by split.
  - cbn [eval evalH]. destruct caught; [by apply sim_ret|apply sim_fail].
  - cbn [eval evalH]. eapply sim_bind; [by apply H|]. intros [o m1] [o' s1] [E HR1]. simpl in *. subst o'.
    destruct o; [by apply sim_ret|]. eapply sim_bind; [by apply H0|]. intros [o m2] [o' s2] [E [HR2 E2]]. simpl in *. subst o'.
    rewrite E2. destruct o; [by apply sim_ret|]. destruct (x_oid x0 =? x_oid x)%nat; by apply sim_ret.
  - cbn [eval evalH]. destruct H0 as [HR E]. eapply sim_bind; [apply H; by split|]. intros [o [m1 g1]] [o' [s1 g2]] [E1 [HR1 E2]]. simpl in *. subst o' g2.
    rewrite E. change (gnew Ga) with (gnew G).
    match goal with |- sim _ (match ?x with _ => _ end) _ => destruct x as [i g] end.
    destruct (i =? 0); [by apply sim_ret|]. eapply sim_bind; [apply sim_load_items; by split|]. intros. by apply sim_ret.
  - cbn [eval evalH]. pose proof H0 as [_ E]. rewrite E. by apply H.
  - cbn [eval evalH]. pose proof H0 as [_ E]. rewrite E. by apply H.
  - cbn [eval evalH]. pose proof H0 as [HR E]. rewrite E. destruct (negb (cur (snd ss) =? m)); [by apply H|]. apply H. by split.
  - (* PTHA *) cbn [eval]. change (deduce Ga hs) with (deduce G hs).
    pose proof (sim_new (deduce G hs) ms ss (deduce_list_nodup _ _) H1) as [Ec HR1].
    destruct (m_new MP (deduce G hs) (fst ms)) as [c m1], (m_new MS (deduce G hs) (fst ss)) as [c' s1]. simpl in Ec, HR1. subst c'.
    eapply sim_bind; [by apply sim_act|]. intros m2 s2 HR2. eapply sim_bind; [by apply H|].
    intros [o m3] [o' s3] [E HR3]. simpl in E, HR3. subst o'. apply (sim_bind Ros).
    { destruct o; [by apply sim_unload_ret|by apply sim_ret]. }
    clear o. intros [o m4] [o' s4] [E HR4]. simpl in E, HR4. subst o'. destruct o as [r|x].
    + destruct (is_val r); [by apply sim_deact_leave|]. eapply sim_bind; [by apply sim_res_info|].
      intros [[[ei r1] m5]|[x m5]] [[[ei' r1'] s5]|[x' s5]]; try done; intros [E HR5]; simpl in E, HR5; simplify_eq.
      * eapply sim_bind; [apply H0; [intros; apply sim_illtyped|done]|]. intros [o m6] [o' s6] [E HR6]. simpl in E, HR6. subst o'. by apply sim_tha_end.
      * by apply sim_deact_leave.
    + eapply sim_bind; [by apply sim_exn_info|]. intros [ei m5] [ei' s5] [E HR5]. simpl in E, HR5. subst ei'.
      eapply sim_bind; [apply H0; [intros; by apply sim_unload_rethrow|done]|].
      intros [o m6] [o' s6] [E HR6]. simpl in E, HR6. subst o'. by apply sim_tha_end.
  - (* PTHS *) cbn [eval]. change (deduce Ga hs) with (deduce G hs).
    pose proof (sim_new (deduce G hs) ms ss (deduce_list_nodup _ _) H1) as [Ec HR1].
    destruct (m_new MP (deduce G hs) (fst ms)) as [c m1], (m_new MS (deduce G hs) (fst ss)) as [c' s1]. simpl in Ec, HR1. subst c'.
    eapply sim_bind; [by apply sim_act|]. intros m2 s2 HR2. eapply sim_bind; [by apply H|].
    intros [o m3] [o' s3] [E HR3]. simpl in E, HR3. subst o'. apply (sim_bind Ros).
    { destruct o; [by apply sim_unload_ret|by apply sim_ret]. }
    clear o. intros [o m4] [o' s4] [E HR4]. simpl in E, HR4. subst o'. destruct o as [r|x].
    + destruct (is_val r); [by apply sim_deact_leave|]. eapply sim_bind; [by apply sim_res_info|].
      intros [[[ei r1] m5]|[x m5]] [[[ei' r1'] s5]|[x' s5]]; try done; intros [E HR5]; simpl in E, HR5; simplify_eq.
      * eapply sim_bind; [apply H0; [intros; by apply sim_ret|done]|]. intros [o m6] [o' s6] [E HR6]. simpl in E, HR6. subst o'. by apply sim_ths_end.
      * by apply sim_deact_leave.
    + eapply sim_bind; [by apply sim_exn_info|]. intros [ei m5] [ei' s5] [E HR5]. simpl in E, HR5. subst ei'.
      eapply sim_bind; [apply H0; [intros; by apply sim_unload_rethrow|done]|].
      intros [o m6] [o' s6] [E HR6]. simpl in E, HR6. subst o'. by apply sim_ths_end.
  - (* PTC *) cbn [eval]. change (deduce Ga hs) with (deduce G hs).
    pose proof (sim_new (deduce G hs) ms ss (deduce_list_nodup _ _) H1) as [Ec HR1].
    destruct (m_new MP (deduce G hs) (fst ms)) as [c m1], (m_new MS (deduce G hs) (fst ss)) as [c' s1]. simpl in Ec, HR1. subst c'.
    eapply sim_bind; [by apply sim_act|]. intros m2 s2 HR2. eapply sim_bind; [by apply H|].
    intros [o m3] [o' s3] [E HR3]. simpl in E, HR3. subst o'. destruct o as [r|x]; [by apply sim_deact_leave|].
    eapply sim_bind; [by apply sim_exn_info|]. intros [ei m5] [ei' s5] [E HR5]. simpl in E, HR5. subst ei'.
    eapply sim_bind; [apply H0; [intros; by apply sim_unload_rethrow|done]|].
    intros [o m6] [o' s6] [E HR6]. simpl in E, HR6. subst o'. by apply sim_leave.
  - (* PCapture *) cbn [eval]. change (g_capture Ga) with (g_capture G). destruct (g_capture G); simpl negb; cbn match; [|apply sim_illtyped].
    pose proof (sim_new [SDA] ms ss (NoDup_singleton _) H0) as [Ec HR1].
    destruct (m_new MP [SDA] (fst ms)) as [c m1], (m_new MS [SDA] (fst ss)) as [c' s1]. simpl in Ec, HR1. subst c'.
    eapply sim_bind; [by apply sim_act|]. intros m2 s2 HR2. eapply sim_bind; [by apply H|].
    intros [o m3] [o' s3] [E HR3]. simpl in E, HR3. subst o'. destruct o as [r|x].
    + destruct isvoid.
      * destruct (is_val r); [|apply sim_illtyped]. eapply sim_bind; [by apply sim_drop|]. intros. by apply sim_ret.
      * assert (forall id, sim Ros
          (let! s3 := on_mem MP (m_deact MP c) m3 in
           let! lm := m_extract MP c (mk id) (bool_decide (caught ≠ None)) (fst s3) in
           leave MP c (ORet (RCap (mk id) (fst lm) caught)) (snd lm, snd s3))
          (let! s3 := on_mem MS (m_deact MS c) s3 in
           let! lm := m_extract MS c (mk id) (bool_decide (caught ≠ None)) (fst s3) in
           leave MS c (ORet (RCap (mk id) (fst lm) caught)) (snd lm, snd s3))) as Hc.
        { intros id. eapply sim_bind; [by apply sim_deact|]. intros m4 s4 [HR4 E4].
          eapply sim_bind; [by apply sim_extract|]. intros [l1 m5] [l2 s5] [E5 HR5]. simpl in E5, HR5. subst l2.
          rewrite E4. apply sim_leave. by split. }
        destruct r; [by apply sim_deact_leave|apply Hc|apply Hc|apply sim_illtyped].
    + eapply sim_bind; [by apply sim_deact|]. intros m4 s4 [HR4 E4]. rewrite E4. destruct (catch_info x (snd s4)) as [[id ex] g].
      eapply sim_bind; [by apply sim_extract|]. intros [l1 m5] [l2 s5] [E5 HR5]. simpl in E5, HR5. subst l2. apply sim_leave. by split.
  - cbn [eval evalH]. eapply sim_bind; [by apply sim_unload_ret|]. intros [o m1] [o' s1] [E HR1]. simpl in *. subst o'.
    destruct o; [by apply H|by apply sim_ret].
  - cbn [eval].
    assert (forall id, sim Ros (let! os := unload_ret MP r ms in
          match os with
          | (OThrow x, s1) => Ok (OThrow x, s1)
          | (ORet _, s1) => Ok (throw_leaf MP (mk id) (XSpec true [T_STDEX; T_BADRES] 0 None None) s1)
          end) (let! os := unload_ret MS r ss in
          match os with
          | (OThrow x, s1) => Ok (OThrow x, s1)
          | (ORet _, s1) => Ok (throw_leaf MS (mk id) (XSpec true [T_STDEX; T_BADRES] 0 None None) s1)
          end)) as Hc.
    { intros id. eapply sim_bind; [by apply sim_unload_ret|]. intros [o [m1 g1]] [o' [s1 g2]] [E [HR1 E1]]. simpl in *. subst o' g2.
      destruct o; apply sim_ret; by split. }
    destruct r; [by apply H|apply Hc|apply Hc|apply sim_illtyped].
  - cbn [eval evalH]. eapply sim_bind; [by apply sim_err_id|]. intros [i m1] [i' s1] [E HR1]. simpl in *. subst i'. by apply H.
  - cbn [eval evalH]. eapply sim_bind; [by apply H|]. intros [o m1] [o' s1] [E HR1]. simpl in *. subst o'.
    destruct o; [by apply sim_ret|by apply sim_e2r].
  - cbn [eval evalH]. eapply sim_bind; [by apply sim_import|]. intros [i m1] [i' s1] [E HR1]. simpl in *. subst i'. by apply H.
  - (* PCtx *) cbn [eval]. change (deduce_list Ga tup) with (deduce_list G tup).
    pose proof (sim_new (deduce_list G tup) ms ss (deduce_list_nodup _ _) H0) as [Ec HR1].
    destruct (m_new MP (deduce_list G tup) (fst ms)) as [c m1], (m_new MS (deduce_list G tup) (fst ss)) as [c' s1]. simpl in Ec, HR1. subst c'.
    eapply sim_bind; [by apply H|]. intros [o m2] [o' s2] [E HR2]. simpl in E, HR2. subst o'. by apply sim_leave.
  - (* PAct *) cbn [eval]. pose proof H0 as [HR E].
    eapply sim_bind; [by apply sim_isact|]. intros ? b ->. destruct b; [by apply H|].
    eapply sim_bind; [by apply sim_act|]. intros m1 s1 HR1. eapply sim_bind; [by apply H|].
    intros [o m2] [o' s2] [E2 HR2]. simpl in E2, HR2. subst o'. eapply sim_bind; [apply sim_isact, HR2|].
    intros ? b ->. destruct b; [|by apply sim_ret]. eapply sim_bind; [by apply sim_deact|]. intros. by apply sim_ret.
  - cbn [eval evalH]. eapply sim_bind; [by apply sim_unload|]. intros. by apply H.
  - cbn [eval]. pose proof H0 as [HR E]. eapply sim_bind; [by apply sim_isact|]. intros ? b ->.
    eapply sim_bind; [apply sim_assert|]. intros _ _ _. eapply sim_bind; [by apply sim_get|]. intros ? loc ->.
    apply H; [intros; apply sim_illtyped|done].
  - cbn [eval evalH]. by apply H.
  - cbn [eval evalH]. eapply sim_bind; [apply sim_args, H2|]. intros ? o ->. destruct o; [|by apply H0].
    eapply sim_bind; [apply sim_set_all, H2|]. intros m1 s1 HR1. apply H. split; [exact HR1|]. apply (proj2 H2).
  - cbn [eval evalH]. apply H; [|done]. intros. by apply H0.
Qed.

End sim.

Lemma R0 : R mem0 smem0.
Proof.
  constructor; simpl; auto; intros; try done.
  - constructor.
  - by apply elem_of_nil in H.
Qed.
