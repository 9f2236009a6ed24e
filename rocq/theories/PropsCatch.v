(** C26: LEAF exceptions caught by hand. *)
From Verif Require Export PropsCurrent.
Open Scope Z_scope.

Section flags.
Context (G : cfg).
Notation MP := (pmach G).

Definition fl (g g' : glob) : Prop := oid g' = oid g /\ clr g' = clr g.
Lemma fl_refl g : fl g g. Proof. done. Qed.
Lemma fl_trans g1 g2 g3 : fl g1 g2 -> fl g2 g3 -> fl g1 g3.
Proof. intros [? ?] [? ?]. split; congruence. Qed.

Lemma fl_load o id it m g m' g' : mload G o id it m g = Ok (m', g') -> fl g g'.
Proof. intros H. apply mload_ctxs in H as [_ [->|[e ->]]]; done. Qed.
Lemma fl_load_items o id its : forall s s', load_items MP o id its s = Ok s' -> fl (snd s) (snd s').
Proof.
  induction its as [|it its IH]; intros s s' H; cbn [load_items] in H; [by injection H as <-|]. ok_inv H. apply IH in H. destruct a as [m g].
  exact (fl_trans _ _ _ (fl_load _ _ _ _ _ _ _ E) H).
Qed.
Lemma fl_id_load id its s s' : id_load MP id its s = Ok s' -> fl (snd s) (snd s').
Proof. unfold id_load. destruct (id =? 0); intros H; [by injection H as <-|by eapply fl_load_items]. Qed.
Lemma fl_import cat v s i s' : import_ec G MP cat v s = Ok (i, s') -> fl (snd s) (snd s').
Proof.
  unfold import_ec. destruct (v =? 0); intros H; [by simplify_eq|]. destruct (cat =? LEAFCAT)%nat.
  - ok_inv H. by simplify_eq.
  - unfold gnew in H. ok_inv H. destruct a as [m g]. injection H as <- <-. exact (fl_load _ _ _ _ _ _ _ E).
Qed.
Lemma fl_err_id r s i s' : err_id_of G MP r s = Ok (i, s') -> fl (snd s) (snd s').
Proof. destruct r; simpl; intros H; try by simplify_eq. by eapply fl_import. Qed.
Lemma fl_unload c id m g m' g' : munload G c id m g = Ok (m', g') -> fl g g'.
Proof. intros H. destruct (mi_unl _ _ _ _ (pmach_inv G Fall) _ _ _ _ _ _ H (no_coll_all _)) as [_ [->|[_ ->]]]; done. Qed.
Lemma fl_unload_ret r s o s' : unload_ret MP r s = Ok (o, s') -> fl (snd s) (snd s').
Proof.
  destruct r; simpl; intros H; try by simplify_eq. ok_inv H. destruct a as [m g]. injection H as <- <-.
  pose proof (mcap_unload_ctxs G _ _ _ _ _ _ E) as [_ ->]. done.
Qed.
Lemma fl_on_mem f s s' : on_mem MP f s = Ok s' -> snd s' = snd s.
Proof. unfold on_mem. intros H. ok_inv H. by simplify_eq. Qed.
Lemma fl_e2r cls x s o s' : e2r G MP cls x s = Ok (o, s') -> fl (snd s) (snd s') /\ exists r, o = ORet r.
Proof.
  unfold e2r, gnew. intros H. ok_inv H. simplify_eq. apply fl_id_load in E. split; [done|eauto].
Qed.

(** No scope of the library in p: exceptions older than p keep their flag; if p throws a LEAF exception created in it, its flag is set. *)
Record flagged (caught : option exn) (g : glob) (o : out) (g' : glob) : Prop := {
  fg_oid : (oid g <= oid g')%nat;
  fg_old n : (n < oid g)%nat -> n ∈ clr g -> n ∈ clr g';
  fg_new x id : o = OThrow x -> x_leaf x = Some id -> caught = Some x \/ (oid g <= x_oid x < oid g')%nat /\ x_oid x ∈ clr g' }.

Lemma fg_ret caught g r g' : fl g g' -> flagged caught g (ORet r) g'.
Proof. intros [E1 E2]. split; [lia|by rewrite E2|done]. Qed.
Lemma fg_pre caught g g1 o g' : fl g g1 -> flagged caught g1 o g' -> flagged caught g o g'.
Proof. intros [E1 E2] [A B C]. split; rewrite <- ?E1, <- ?E2; auto. Qed.
Lemma fg_post caught g o g1 g' : flagged caught g o g1 -> fl g1 g' -> flagged caught g o g'.
Proof. intros [A B C] [E1 E2]. split; rewrite ?E1, ?E2; auto. Qed.
Lemma fg_seq caught g r g1 o g' : flagged caught g (ORet r) g1 -> flagged caught g1 o g' -> flagged caught g o g'.
Proof.
  intros [A B C] [A' B' C']. split; [lia| |].
  - intros n Hn Hin. apply B'; [lia|auto].
  - intros x id Ho Hl. destruct (C' x id Ho Hl) as [?|[? ?]]; auto. right. split; [lia|done].
Qed.
Lemma fg_throw caught m g id x : flagged caught g (fst (throw_leaf MP id x (m, g))) (snd (snd (throw_leaf MP id x (m, g)))).
Proof.
  split; simpl; [lia|set_solver|]. intros y id' [= <-] _. right. simpl. split; [lia|set_solver].
Qed.

Definition Fflat : feat := Feat true false false.

Lemma eval_flags : (forall p caught s o s', within G Fflat p -> eval G MP caught p s = Ok (o, s') -> flagged caught (snd s) o (snd s')) /\
  (forall hs caught c ei d s o s', withinH G Fflat hs -> (forall s o s', d s = Ok (o, s') -> flagged caught (snd s) o (snd s')) ->
     evalH G MP caught hs c ei d s = Ok (o, s') -> flagged caught (snd s) o (snd s')).
Proof.
  apply prog_handlers_ind.
  - intros r caught s o s' W H. cbn in H. injection H as <- <-. by apply fg_ret.
  - intros p IH k IHk caught s o s' W H. wfold W. destruct W as [W1 W2]. cbn [eval] in H. ok_inv H. destruct a as [[r|x] s1].
    + pose proof (proj1 (proj1 (eval_glob G MP Fflat (no_coll Fflat) (pmach_inv G Fflat)) _ _ _ _ _ W1 E)) as Hr. simpl in Hr.
      apply IH in E; auto. eapply IHk in H; auto. by eapply fg_seq.
    + injection H as <- <-. by apply IH in E.
  - intros z k IH caught s o s' W H. wfold W. cbn [eval] in H. apply IH in H; auto. eapply fg_pre; [|exact H]. done.
  - intros its k IH caught s o s' W H. wfold W. cbn [eval] in H. unfold gnew in H. ok_inv H. apply IH in H; [|apply W].
    apply fl_id_load in E. by eapply fg_pre.
  - intros id its k IH caught s o s' W H. wfold W. cbn [eval] in H. ok_inv H. apply IH in H; auto. apply fl_id_load in E. by eapply fg_pre.
  - intros k IH caught s o s' W H. wfold W. cbn [eval] in H. apply IH in H; auto.
  - intros oi x its caught s o s' _ H. cbn [eval] in H.
    destruct (match oi with Some id => (id, snd s) | None => let '(id, g) := gnew G (snd s) in (mk id, g) end) as [id g] eqn:Hg.
    ok_inv H. destruct a as [m1 g1]. pose proof (fg_throw caught m1 g1 id x) as Ht.
    assert (o = fst (throw_leaf MP id x (m1, g1)) /\ s' = snd (throw_leaf MP id x (m1, g1))) as [-> ->].
    { destruct (throw_leaf MP id x (m1, g1)). by injection H as <- <-. }
    eapply fg_pre; [|exact Ht]. apply fl_id_load in E. eapply fl_trans; [|exact E]. destruct oi; [by simplify_eq|]. unfold gnew in Hg. by simplify_eq.
  - intros x caught s o s' _ H. cbn [eval] in H. unfold throw_plain in H. injection H as <- <-. split; simpl; [lia|done|]. intros y id [= <-]. done.
  - intros caught s o s' _ H. cbn [eval] in H. destruct caught as [x|]; [|done]. injection H as <- <-. split; [lia|done|]. intros y id [= <-] _. by left.
  - (* PCatch *) intros p IH h IHh caught s o s' W H. wfold W. destruct W as (_ & W1 & W2). cbn [eval] in H. ok_inv H. destruct a as [[r|x] s1]; apply IH in E; auto.
    + injection H as <- <-. done.
    + ok_inv H. destruct a as [o2 s2]. apply IHh in E0; auto. injection H as <- <-. cbn [fst snd]. destruct E as [A B C], E0 as [A2 B2 C2].
      assert (flagged caught (snd s) o2 (snd s2) /\ (same_exn x caught || same_exn x (held_exn o2) = false -> x_leaf x <> None ->
        (oid (snd s) <= x_oid x)%nat /\ forall y, o2 = OThrow y -> x_oid y <> x_oid x)) as [F1 F2].
      { split.
        - split; [lia|intros; apply B2; [lia|auto]|]. intros y id Ho Hl. destruct (C2 y id Ho Hl) as [Hy|[? ?]].
          + injection Hy as <-. destruct (C x id eq_refl Hl) as [?|[? ?]]; [auto|]. right. split; [lia|]. apply B2; [lia|done].
          + right. split; [lia|done].
        - intros Hr Hl. apply orb_false_iff in Hr as [Hr1 Hr2]. destruct (x_leaf x) as [id|] eqn:El; [|done].
          destruct (C x id eq_refl El) as [->|[Hb Hin]]; [simpl in Hr1; by rewrite Nat.eqb_refl in Hr1|]. split; [lia|].
          intros y ->. simpl in Hr2. by apply Nat.eqb_neq in Hr2. }
      unfold release. destruct (_ || _) eqn:Hr; [done|]. unfold exn_destroy. destruct (x_leaf x) as [id|] eqn:El; [|done].
      destruct (bool_decide _); [|done]. destruct (F2 eq_refl) as [Hx Hy]; [done|]. destruct F1 as [A3 B3 C3].
      assert (forall n, n <> x_oid x -> n ∈ clr (snd s2) -> n ∈ drop_oid (x_oid x) (clr (snd s2))) as Hd.
      { intros n Hn Hin. by apply elem_of_list_filter. }
      split.
      * by destruct (_ =? id).
      * intros n Hn Hin. destruct (_ =? id); simpl; apply Hd; auto; lia.
      * intros y id' Ho Hl.
        destruct (C3 y id' Ho Hl) as [?|[? ?]]; [auto|]. right. destruct (_ =? id); simpl; (split; [exact H|]); apply Hd; eauto.
  - (* POnError *) intros its p IH caught s o s' W H. wfold W. cbn [eval] in H. ok_inv H. destruct a as [o1 s1]. apply IH in E; auto.
    match type of H with (let '(_, _) := ?X in _) = _ => destruct X as [id g] eqn:Hg end.
    assert (fl (snd s1) g) as Hf.
    { destruct (negb _); [by simplify_eq|]. destruct o1; [by simplify_eq|]. unfold gnew in Hg. by simplify_eq. }
    destruct (id =? 0).
    + injection H as <- <-. by eapply fg_post.
    + ok_inv H. injection H as <- <-. apply fl_load_items in E0. eapply fg_post; [exact E|]. by eapply fl_trans.
  - intros k IH caught s o s' W H. wfold W. cbn [eval] in H. apply IH in H; auto.
  - intros m k IH caught s o s' W H. wfold W. cbn [eval] in H. apply IH in H; auto.
  - intros m k IH caught s o s' W H. wfold W. cbn [eval] in H. destruct (negb _); [apply IH in H; auto|]. unfold gnew in H.
    apply IH in H; [|apply W]. eapply fg_pre; [|exact H]. done.
  - intros p IH hs IHh caught s o s' W H. wfold W. by destruct W.
  - intros p IH hs IHh caught s o s' W H. wfold W. by destruct W.
  - intros p IH hs IHh caught s o s' W H. wfold W. by destruct W.
  - intros b p IH caught s o s' W H. wfold W. by destruct W.
  - intros r k IH caught s o s' W H. wfold W. destruct W as [Wr W]. cbn [eval] in H. ok_inv H. destruct a as [[r1|x] s1].
    + assert (ret_in Fflat r1) as Hr1 by (destruct r; simpl in E; simplify_eq; done). apply fl_unload_ret in E. apply IH in H; [|apply W; done]. by eapply fg_pre.
    + destruct r; simpl in Wr, E; simplify_eq.
  - intros r k IH caught s o s' W H. wfold W. destruct W as [Wr W]. cbn [eval] in H. destruct r as [z|id|id l ex|cat v]; try done.
    + apply IH in H; auto.
    + ok_inv H. destruct a as [[r1|x] s1]; [|by simpl in E; simplify_eq]. apply fl_unload_ret in E. destruct s1 as [m1 g1]. eapply fg_pre; [exact E|].
      pose proof (fg_throw caught m1 g1 (mk id) (XSpec true [T_STDEX; T_BADRES] 0 None None)) as Ht.
      destruct (throw_leaf MP (mk id) (XSpec true [T_STDEX; T_BADRES] 0 None None) (m1, g1)). by injection H as <- <-.
  - intros r k IH caught s o s' W H. wfold W. destruct W as [Wr W]. cbn [eval] in H. ok_inv H. destruct a as [i s1]. apply fl_err_id in E.
    apply IH in H; [|apply W]. by eapply fg_pre.
  - intros cls p IH caught s o s' W H. wfold W. cbn [eval] in H. ok_inv H. destruct a as [[r|x] s1]; apply IH in E; auto.
    + by injection H as <- <-.
    + apply fl_e2r in H as [Hf [r ->]]. eapply fg_post; [|exact Hf]. destruct E as [A B C]. split; auto. done.
  - intros cat v k IH caught s o s' W H. wfold W. cbn [eval] in H. ok_inv H. destruct a as [i s1]. apply fl_import in E. apply IH in H; [|apply W]. by eapply fg_pre.
  - intros tup k IH caught s o s' W H. wfold W. destruct W as [_ W]. cbn [eval] in H. destruct (m_new MP _ _) as [c m1]. ok_inv H. destruct a as [o1 s1].
    apply IH in E; [|apply W]. unfold leave in H. ok_inv H. injection H as <- <-. apply fl_on_mem in E0. cbn [fst snd] in *. by rewrite E0.
  - intros c p IH caught s o s' W H. wfold W. cbn [eval] in H. ok_inv H. destruct a; [apply IH in H; auto|]. ok_inv H. ok_inv H. destruct a0 as [o1 s1].
    apply fl_on_mem in E0. apply IH in E1; auto. rewrite E0 in E1. ok_inv H. destruct a0.
    + ok_inv H. injection H as <- <-. apply fl_on_mem in E3. cbn [fst snd] in *. by rewrite E3.
    + by injection H as <- <-.
  - intros c id k IH caught s o s' W H. wfold W. cbn [eval] in H. ok_inv H. destruct a as [m1 g1]. apply IH in H; auto. eapply fg_pre; [|exact H]. exact (fl_unload _ _ _ _ _ _ E).
  - intros c id hs IH caught s o s' W H. wfold W. cbn [eval] in H. ok_inv H. ok_inv H. ok_inv H. eapply IH in H; [exact H|exact W|done].
  - intros caught c ei d s o s' _ Hd H. cbn [evalH] in H. by apply Hd.
  - intros args w b IHb rest IHr caught c ei d s o s' W Hd H. wfold W. destruct W as [W1 W2]. cbn [evalH] in H. ok_inv H. destruct a as [l|].
    + ok_inv H. exact (IHb l _ _ _ _ (W1 l) H).
    + by eapply IHr.
  - intros hs IHh rest IHr caught c ei d s o s' W Hd H. wfold W. destruct W as [W1 W2]. cbn [evalH] in H. eapply IHh; [exact W1| |exact H].
    intros s1 o1 s1' H1. exact (IHr _ _ _ _ _ _ _ W2 Hd H1).
Qed.
End flags.

(** An exception obtained by running any program is no longer flagged once it was examined. *)
Lemma gplay_clr G l n : forall g, (n < oid g)%nat -> n ∉ clr g -> (n < oid (gplay G g l))%nat /\ n ∉ clr (gplay G g l).
Proof.
  induction l as [|x l IH]; intros g Hn Hin; [done|]. change (gplay G g (x :: l)) with (gplay G (gdo G g x) l).
  apply IH; destruct x; simpl; auto; try lia.
  - destruct (bool_decide _); [destruct (_ =? _)|]; done.
  - intros [->|?]%elem_of_cons; [lia|done].
  - intros [_ ?]%elem_of_list_filter. done.
  - destruct (bool_decide _); [|done]. assert (n ∉ drop_oid o (clr g)) by (by intros [_ ?]%elem_of_list_filter). by destruct (_ =? _).
Qed.
Lemma gplay_oid G l : forall g, (oid g <= oid (gplay G g l))%nat.
Proof.
  induction l as [|x l IH]; intros g; [done|]. change (gplay G g (x :: l)) with (gplay G (gdo G g x) l). etransitivity; [|apply IH].
  destruct x; simpl; auto. destruct (bool_decide _); [destruct (_ =? _)|]; done.
Qed.

(** Every LEAF exception a program throws was created before the program ended. *)
Definition born (caught : option exn) (g : glob) : Prop := forall x, caught = Some x -> (x_oid x < oid g)%nat.

(** ** C26
    Caught by hand and let go; p and the handler have no LEAF scopes in them. id: the id it was thrown with, the last error started.
    The current error is reset to none; an on_error around finds no error pending: it does nothing at all. *)
Theorem C26_let_go_ends_error :
  forall G caught p h m g x id m1 g1 r m2 g2,
    within G Fflat p -> within G Fflat (h x) -> no_coll Fflat m -> born caught g ->
    lib_run G caught p m g (OThrow x) m1 g1 -> x_leaf x = Some id -> caught <> Some x ->
    lib_run G (Some x) (h x) m1 g1 (ORet r) m2 g2 ->
    (ngen g < ngen g2)%nat -> id = g_sup G (ngen g2 - 1) ->
    exists g', lib_run G caught (PCatch p h) m g (ORet r) m2 g' /\
      cur g' = 0 /\ ngen g' = ngen g2 /\ tr g' = tr g2 /\
      forall its, lib_run G caught (POnError its (PCatch p h)) m g (ORet r) m2 g'.
Proof.
  intros G caught p h m g x id m1 g1 r m2 g2 W1 W2 HI Hb H1 Hl Hc H2 Hn Hid.
  pose proof (proj1 (eval_flags G) p caught (m, g) _ _ W1 H1) as F1. pose proof (proj1 (eval_flags G) (h x) (Some x) (m1, g1) _ _ W2 H2) as F2. cbn [snd] in F1, F2.
  destruct (fg_new _ _ _ _ F1 x id eq_refl Hl) as [?|[Hx Hin]]; [done|].
  assert (x_oid x ∈ clr g2) as Hin2 by (apply (fg_old _ _ _ _ F2); [lia|done]).
  destruct (lib_no_coll _ _ _ _ _ _ _ _ _ W1 HI H1) as [HI1 _].
  assert (cur g2 = id \/ cur g2 = 0) as Hcur.
  { destruct (lib_glob _ _ _ _ _ _ _ _ _ W1 HI H1) as (l1 & L1 & E1). destruct (lib_glob _ _ _ _ _ _ _ _ _ W2 HI1 H2) as (l2 & L2 & E2).
    assert (g2 = gplay G g (l1 ++ l2)) as -> by (unfold gplay; rewrite foldl_app; unfold gplay in *; congruence).
    assert (Forall (lab_in Fflat) (l1 ++ l2)) as L by (by apply Forall_app). clear - L Hn Hid. subst id.
    set (l := l1 ++ l2) in *. clearbody l. revert Hn. induction l as [|y l IH] using rev_ind; [simpl; lia|]. apply Forall_app in L as [L Ly].
    apply Forall_cons in Ly as [Ly _]. unfold gplay. rewrite foldl_app. fold (gplay G g l). simpl. set (g1 := gplay G g l) in *.
    destruct y as [|e|id| | |o|o id]; simpl in *; try done; try (intros; by apply IH).
    - intros _. left. f_equal. lia.
    - destruct (bool_decide (o ∈ clr g1)); [|intros; by apply IH]. destruct (cur g1 =? id); simpl; [auto|]. intros. by apply IH. }
  set (g' := set_clr (drop_oid (x_oid x) (clr g2)) (if cur g2 =? id then set_cur 0 g2 else g2)).
  assert (out_in Fflat (ORet r)) as Hr by exact (proj2 (lib_no_coll _ _ _ _ _ _ _ _ _ W2 HI1 H2)).
  assert (lib_run G caught (PCatch p h) m g (ORet r) m2 g') as HP.
  { cbn [eval]. eapply rb_ok; [exact H1|]. cbv beta iota. eapply rb_ok; [exact H2|]. cbn [fst snd]. unfold release.
    assert (same_exn x caught = false) as ->.
    { destruct caught as [y|]; [|done]. simpl. apply Nat.eqb_neq. specialize (Hb y eq_refl). lia. }
    assert (same_exn x (held_exn (ORet r)) = false) as -> by (by destruct r). cbn [orb]. unfold exn_destroy. rewrite Hl, bool_decide_true by done. done. }
  assert (cur g' = 0) as H0.
  { unfold g'. simpl. destruct (Z.eqb_spec (cur g2) id); simpl; [done|]. by destruct Hcur. }
  exists g'. split; [done|]. split; [done|]. split; [unfold g'; by destruct (_ =? id)|]. split; [unfold g'; by destruct (_ =? id)|].
  intros its. cbn [eval]. fold eval. eapply rb_ok; [exact HP|]. cbn [snd fst]. rewrite H0. destruct (negb (0 =? cur g)); done.
Qed.
Print Assumptions C26_let_go_ends_error.

(** If it is not the current error when it is let go, or it was examined by a scope, nothing changes; whatever the programs. *)
Theorem C26_other_error_current :
  forall G caught p h m g x id m1 g1 o m2 g2,
    lib_run G caught p m g (OThrow x) m1 g1 -> x_leaf x = Some id -> lib_run G (Some x) (h x) m1 g1 o m2 g2 -> cur g2 <> id ->
    exists g', lib_run G caught (PCatch p h) m g o m2 g' /\ cur g' = cur g2.
Proof.
  intros G caught p h m g x id m1 g1 o m2 g2 H1 Hl H2 Hne. eexists. split.
  - cbn [eval]. eapply rb_ok; [exact H1|]. cbv beta iota. eapply rb_ok; [exact H2|]. reflexivity.
  - cbn [fst snd]. unfold release, exn_destroy. destruct (_ || _); [done|]. rewrite Hl. destruct (bool_decide _); [|done].
    by rewrite (proj2 (Z.eqb_neq _ _)).
Qed.
Print Assumptions C26_other_error_current.

(** After a scope has examined a LEAF exception it stays examined. *)
Lemma scope_examines G k caught p hs m g c ob mb gb x id ei caught' m3 g3 o m' g' :
  failed G k caught p hs m g c ob mb gb (OThrow x) ei caught' m3 g3 -> x_leaf x = Some id -> x_std x = true -> (x_oid x < oid g3)%nat ->
  lib_run G caught (PScope k p hs) m g o m' g' -> (x_oid x < oid g')%nat /\ x_oid x ∉ clr g'.
Proof.
  intros (m1 & m2 & g2 & A1 & A2 & A3 & A4 & A5) Hl Hs Hlt H.
  assert (scope_run G (pmach G) k caught p hs (m, g) = Ok (o, (m', g'))) as H'.
  { rewrite <- H. symmetry. apply eval_scope.
    - intros. by cbn.
    - intros id0 l0 m0 g0 m0' g0' H0. pose proof (mcap_unload_ctxs G _ _ _ _ _ _ H0) as [_ ->]. done. }
  clear H. unfold scope_run in H'. rewrite A1 in H'. cbn [rbind fst snd] in H'. rewrite A2 in H'. cbn [rbind] in H'. unfold scope_end in H'.
  rewrite A3 in H'. cbn [rbind fst snd] in H'. rewrite A4, A5 in H'. cbn [rbind] in H'. 
  match type of H' with rbind ?X _ = _ => destruct X as [[o4 s4]|] eqn:E4; [|done] end. cbn [rbind] in H'.
  assert (x_oid x ∉ clr g3) as Hn.
  { cbn [detect] in A5. ok_inv A5. destruct a as [ei0 s0]. injection A5 as <- <- ->. unfold exn_info in E. ok_inv E. unfold catch_info in E. rewrite Hs, Hl in E.
    ok_inv E. injection E as <- <- <-. simpl. intros [? _]%elem_of_list_filter. done. }
  pose proof (pmach_inv G Fall) as MI.
  assert (ok_st G (pmach G) Fall (no_coll Fall) (m3, g3) s4) as K1.
  { refine (proj2 (proj2 (eval_glob G (pmach G) Fall (no_coll Fall) MI) hs caught' c ei _ (m3, g3) o4 s4 (proj2 (within_all G) hs) _ E4)).
    intros s5 o5 s5' H5. simpl in H5. unfold unload_rethrow in H5. ok_inv H5. injection H5 as <- <-. split; [done|]. by eapply ok_unl. }
  assert (ok_st G (pmach G) Fall (no_coll Fall) s4 (m', g')) as K2.
  { destruct k; cbn [finish] in H'; [eapply ok_tha_end in H'|eapply ok_ths_end in H'|eapply ok_leave in H']; try exact MI; apply H'. }
  destruct (K1 (no_coll_all _)) as [HI (l1 & _ & E1)], (K2 (no_coll_all _)) as [_ (l2 & _ & E2)]. cbn [snd fst] in *. rewrite E2, E1.
  destruct (gplay_clr G l1 (x_oid x) g3 Hlt Hn). by apply gplay_clr.
Qed.

(** Examined by a scope (of any of the three kinds) that did not handle it: letting it go makes no difference to the current error. *)
Theorem C26_examined_left_alone :
  forall G k caught p hs h m g c ob mb gb x id ei caught' m3 g3 m1 g1 o m2 g2,
    failed G k caught p hs m g c ob mb gb (OThrow x) ei caught' m3 g3 -> x_leaf x = Some id -> x_std x = true -> (x_oid x < oid g3)%nat ->
    lib_run G caught (PScope k p hs) m g (OThrow x) m1 g1 ->
    lib_run G (Some x) (h x) m1 g1 o m2 g2 ->
    lib_run G caught (PCatch (PScope k p hs) h) m g o m2 g2.
Proof.
  intros G k caught p hs h m g c ob mb gb x id ei caught' m3 g3 m1 g1 o m2 g2 HF Hl Hs Hlt H1 H2.
  destruct (scope_examines _ _ _ _ _ _ _ _ _ _ _ _ _ _ _ _ _ _ _ _ HF Hl Hs Hlt H1) as [Hlt1 Hn1].
  destruct (lib_glob_all _ _ _ _ _ _ _ _ H2) as [l E]. destruct (gplay_clr G l _ _ Hlt1 Hn1) as [_ Hn2]. rewrite <- E in Hn2.
  cbn [eval]. eapply rb_ok; [exact H1|]. cbv beta iota. eapply rb_ok; [exact H2|]. cbn [fst snd]. unfold release, exn_destroy.
  destruct (_ || _); [done|]. rewrite Hl. by rewrite bool_decide_false.
Qed.
Print Assumptions C26_examined_left_alone.

(** An exception caught by hand, directly and after an inner scope that does not handle it; an on_error around. *)
Definition ex26_x : xspec := XSpec true [T_STDEX] 0 None None.
Definition ex26_obs (p : prog) : option (Z * option (Z * val) * nat) :=
  match eval GX (pmach GX) None (POnError [IVal TB (VZ 5)] (PCatch p (fun _ => PRet (RVal 3)))) (ex06_ctx, glob0) with
  | Ok (_, (m, g)) => Some (cur g, held m 0%nat TB, ngen g) | _ => None end.
Example ex26_direct : ex26_obs (PThrow None ex26_x [IVal TA (VZ 1)]) = Some (0, None, 1%nat).
Proof. vm_compute. reflexivity. Qed.
Example ex26_examined : ex26_obs (PTC (PThrow None ex26_x [IVal TA (VZ 1)]) (HCons [AE TC] (fun _ => PRet (RVal 1)) HNil)) = Some (g_sup GX 0, Some (g_sup GX 0, VZ 5), 1%nat).
Proof. vm_compute. reflexivity. Qed.
Example ex26_within : within GX Fflat (PThrow None ex26_x [IVal TA (VZ 1)]) /\ born None glob0.
Proof. split; [exact I|done]. Qed.
