(** Runs under two build configurations. *)
From Verif Require Export PropsSim.
Open Scope Z_scope.

(** ** Two runs that agree unless the first stops with an error of some kind E *)
Definition refp (E : fail -> Prop) {A B} (P : A -> B -> Prop) (x : res A) (y : res B) : Prop :=
  match x, y with
  | Ok a, Ok b => P a b
  | Fail e, _ => E e \/ y = Fail e
  | _, _ => False
  end.
Notation ref E := (refp E eq).
Lemma ref_refl E {A} (x : res A) : ref E x x.
Proof. destruct x; simpl; auto. Qed.
Lemma refp_bind E {A B A' B'} (P : A -> A' -> Prop) (Q : B -> B' -> Prop) x y (f : A -> res B) (g : A' -> res B') :
  refp E P x y -> (forall a b, P a b -> refp E Q (f a) (g b)) -> refp E Q (rbind x f) (rbind y g).
Proof. destruct x as [a|e], y as [b|e']; simpl; auto; try done. - intros [He|]; [by left|done]. - intros [He|[= ->]]; auto. Qed.
Lemma ref_bind E {A B} (x y : res A) (f g : A -> res B) : ref E x y -> (forall a, ref E (f a) (g a)) -> ref E (rbind x f) (rbind y g).
Proof. intros H1 H2. eapply refp_bind; [exact H1|]. intros a ? <-. apply H2. Qed.
Lemma ref_cases E {A} (x y : res A) : ref E x y <-> (exists e, x = Fail e /\ E e) \/ x = y.
Proof.
  destruct x as [a|e], y as [b|e']; simpl; split; try naive_solver.
Qed.

(** ** Handlers that do not look at what diagnostic_info shows *)

(** An argument without the list of shown objects. *)
Definition hide (v : argval) : argval :=
  match v with VDiag id ex loc _ => VDiag id ex loc [] | _ => v end.

(** D: the two configurations agree on BOOST_LEAF_CFG_DIAGNOSTICS. *)
Fixpoint blind (D : Prop) (p : prog) : Prop :=
  match p with
  | PRet _ | PThrow _ _ _ | PThrowX _ | PRethrow => True
  | PBind p k => blind D p /\ forall r, blind D (k r)
  | PEmit _ k | PLoad _ _ k | PCtxUnload _ _ k => blind D k
  | PNewError _ k | PCurErr k | PMonitor k | PCheck _ k | PAssigned _ k | PValue _ k | PErrId _ k | PImport _ _ k => forall z, blind D (k z)
  | PCatch p h => blind D p /\ forall x, blind D (h x)
  | POnError _ p | PCapture _ p | PE2R _ p | PAct _ p => blind D p
  | PTHA p hs | PTHS p hs | PTC p hs => blind D p /\ blindH D hs
  | PUnload _ k => forall r, blind D (k r)
  | PCtx _ k => forall c, blind D (k c)
  | PCtxHandle _ _ hs => blindH D hs
  end
with blindH (D : Prop) (hs : handlers) : Prop :=
  match hs with
  | HNil => True
  | HMut args w b rest =>
      (D \/ (ADetails ∉ args /\ forall l l', map hide l = map hide l' -> b l = b l' /\ w l = w l')) /\
      (forall l, blind D (b l)) /\ blindH D rest
  | HTup hs' rest => blindH D hs' /\ blindH D rest
  end.

Lemma blind_mono (D D' : Prop) : (D -> D') -> (forall p, blind D p -> blind D' p) /\ (forall hs, blindH D hs -> blindH D' hs).
Proof. intros HD. apply prog_handlers_ind; cbn [blind blindH]; intros; naive_solver. Qed.
Lemma blind_refl {A} {a : A} : (forall p, blind (a = a) p) /\ (forall hs, blindH (a = a) hs).
Proof. apply prog_handlers_ind; cbn [blind blindH]; intros; auto. Qed.

Section ref.
Context (E : fail -> Prop) (G1 G2 : cfg).
Notation M1 := (pmach G1).
Notation M2 := (pmach G2).
Notation ref := (refp E eq).
Notation D := (g_diag G1 = g_diag G2).

(** What the configurations have to do with each other: *)
Record below : Prop := Below {
  b_cap : g_capture G1 = g_capture G2;
  b_diag : D \/ g_diag G2 = false /\ E UAF;
  b_class : g_class G1 = g_class G2;
  b_abs : g_abs G1 = g_abs G2;
  b_sup : g_sup G1 = g_sup G2;
  b_assert : forall b, ref (assert G1 b) (assert G2 b);
  b_load : forall o id it m g, ref (mload G1 o id it m g) (mload G2 o id it m g);
  b_capunload : forall id l m g, ref (mcap_unload G1 id l m g) (mcap_unload G2 id l m g);
  b_new : forall tup m, mnew G1 tup m = mnew G2 tup m;
  b_act : forall c m, ref (mact G1 c m) (mact G2 c m);
  b_deact : forall c m, ref (mdeact G1 c m) (mdeact G2 c m);
  b_destroy : forall c m, ref (mdestroy G1 c m) (mdestroy G2 c m);
  b_drop : forall c m, ref (mdrop G1 c m) (mdrop G2 c m);
  b_unload : forall c id m g, ref (munload G1 c id m g) (munload G2 c id m g);
  b_get : forall c T id m, ref (mget G1 c T id m) (mget G2 c T id m);
  b_print : forall c id m, ref (mprint G1 c id m) (mprint G2 c id m);
  b_details : forall c id m, ref (mdetails G1 c id m) (mdetails G2 c id m);
  b_extract : forall c id b m, ref (mextract G1 c id b m) (mextract G2 c id b m) }.

Context (B : below).

Ltac gn := unfold gnew; rewrite (b_sup B); cbv beta zeta iota.

Lemma ref_on_mem f f' (s : st M1) : (forall m, ref (f m) (f' m)) -> ref (on_mem M1 f s) (on_mem M2 f' s).
Proof. intros H. apply ref_bind; [apply H|]. intros. apply ref_refl. Qed.
Lemma ref_load_items o id its : forall s : st M1, ref (load_items M1 o id its s) (load_items M2 o id its s).
Proof. induction its as [|it its IH]; intros s; cbn [load_items]; [apply ref_refl|]. apply ref_bind; [apply (b_load B)|done]. Qed.
Lemma ref_id_load id its (s : st M1) : ref (id_load M1 id its s) (id_load M2 id its s).
Proof. unfold id_load. destruct (id =? 0); [apply ref_refl|apply ref_load_items]. Qed.
Lemma ref_import cat v (s : st M1) : ref (import_ec G1 M1 cat v s) (import_ec G2 M2 cat v s).
Proof.
  unfold import_ec. destruct (v =? 0); [apply ref_refl|]. destruct (cat =? LEAFCAT)%nat.
  - apply ref_bind; [apply (b_assert B)|]. intros. apply ref_refl.
  - gn. apply ref_bind; [apply (b_load B)|]. intros. apply ref_refl.
Qed.
Lemma ref_err_id r (s : st M1) : ref (err_id_of G1 M1 r s) (err_id_of G2 M2 r s).
Proof. destruct r; cbn [err_id_of unload_ret]; try apply ref_refl. apply ref_import. Qed.
Lemma ref_unload_ret r (s : st M1) : ref (unload_ret M1 r s) (unload_ret M2 r s).
Proof. destruct r; cbn [err_id_of unload_ret]; try apply ref_refl. apply ref_bind; [apply (b_capunload B)|]. intros. apply ref_refl. Qed.
Lemma ref_peek T c ei (m : mem) : ref (peek G1 M1 T c ei m) (peek G2 M2 T c ei m).
Proof.
  unfold peek, peek_exn. rewrite (b_class B). destruct (ei_id ei =? 0); [apply ref_refl|].
  apply ref_bind; [apply (b_get B)|]. intros. apply ref_refl.
Qed.
Lemma ref_set_all c id l : forall m : mem, ref (set_all M1 c id l m) (set_all M2 c id l m).
Proof. induction l as [|[T v] l IH]; intros m; cbn [set_all]; [apply ref_refl|]. apply ref_bind; [apply ref_refl|done]. Qed.

(** The arguments of a handler, up to what is shown if the configurations differ in that. *)
Definition alike (v v' : argval) : Prop := hide v = hide v' /\ (D -> v = v').
Lemma alike_refl v : alike v v.
Proof. done. Qed.

Lemma print_fails c id m e : mprint G1 c id m = Fail e -> e = UAF.
Proof.
  unfold mprint. destruct (ctxs m !! c) as [k|]; simpl; [|by intros [= <-]]. induction (k_tup k) as [|t l IH]; simpl; [done|].
  destruct t; [|done]. destruct (hp m !! inl (c, T)); simpl; [|by intros [= <-]]. destruct (tup_print G1 c id l m); simpl; [done|]. intros [= <-]. by apply IH.
Qed.

Lemma arg_alike a c ei (m : mem) : (D \/ a <> ADetails) ->
  refp E (fun o o' => match o, o' with Some v, Some v' => alike v v' | None, None => True | _, _ => False end)
    (arg_get G1 M1 a c ei m) (arg_get G2 M2 a c ei m).
Proof.
  intros Ha. destruct a; cbn [arg_get].
  - eapply refp_bind; [apply ref_peek|]. intros [v|] ? <-; simpl; done.
  - eapply refp_bind; [apply ref_peek|]. intros o ? <-; simpl; done.
  - eapply refp_bind; [apply ref_peek|]. intros [v|] ? <-; simpl; [|done]. by destruct (f v).
  - simpl. by destruct (match ei_ex ei with None => None | Some _ => _ end).
  - simpl. by destruct (match ei_ex ei with None => None | Some _ => _ end).
  - done.
  - unfold shown. destruct (b_diag B) as [HD|[HD HE]].
    + rewrite HD. eapply (refp_bind _ eq); [|intros l ? <-; simpl; done]. destruct (g_diag G2); [apply (b_print B)|apply ref_refl].
    + rewrite HD. cbn [rbind]. destruct (g_diag G1) eqn:H1; [|simpl; done]. cbn [m_print pmach].
      destruct (mprint G1 c (ei_id ei) m) eqn:Ep; simpl.
      * split; [done|]. congruence.
      * left. by rewrite (print_fails _ _ _ _ Ep).
  - destruct Ha as [HD|]; [|done]. unfold shown. rewrite HD, (b_cap B). eapply (refp_bind _ eq).
    { destruct (g_diag G2); [apply (b_print B)|apply ref_refl]. }
    intros l ? <-. eapply (refp_bind _ eq); [|intros d ? <-; simpl; done]. destruct (g_diag G2 && g_capture G2); [apply (b_details B)|apply ref_refl].
Qed.

Lemma args_alike l c ei (m : mem) : (D \/ ADetails ∉ l) ->
  refp E (fun o o' => match o, o' with
    | Some v, Some v' => map hide v = map hide v' /\ (D -> v = v') | None, None => True | _, _ => False end)
    (args_get G1 M1 l c ei m) (args_get G2 M2 l c ei m).
Proof.
  induction l as [|a l IH]; intros Hl; cbn [args_get]; [done|].
  eapply refp_bind; [apply arg_alike|].
  { destruct Hl as [|Hl]; [by left|right]. intros ->. apply Hl. left. }
  intros [v|] [v'|] Ho; try done. eapply refp_bind; [apply IH|].
  { destruct Hl as [|Hl]; [by left|right]. intros Hi. apply Hl. by right. }
  intros [vs|] [vs'|] Ho'; try done. destruct Ho as [Ho1 Ho2], Ho' as [Hs1 Hs2].
  split; [simpl; congruence|]. intros HD. by rewrite Ho2, Hs2.
Qed.

(** The storage a scope provides. *)
Lemma types_alike a : (D \/ a <> ADetails) -> context_types G1 a = context_types G2 a.
Proof. intros [HD|Ha]; destruct a; simpl; try done. by rewrite HD, (b_cap B). Qed.
Lemma handlers_types hs : blindH D hs -> map (context_types G1) (handlers_args hs) = map (context_types G2) (handlers_args hs).
Proof.
  induction hs as [|args w b rest IH|hs1 IH1 rest IH]; cbn [blindH handlers_args]; [done|..].
  - intros ([HD|[Hn _]] & _ & Hr); rewrite !map_app, IH by done; f_equal; apply map_ext_in; intros a Ha; apply types_alike; [by left|right].
    intros ->. apply Hn. by apply elem_of_list_In.
  - intros [H1 H2]. by rewrite !map_app, IH1, IH.
Qed.
Lemma ref_deduce_list l : deduce_list G1 l = deduce_list G2 l.
Proof. unfold deduce_list. f_equal. unfold no_part. by rewrite (b_abs B). Qed.
Lemma ref_deduce hs : blindH D hs -> deduce G1 hs = deduce G2 hs.
Proof. intros H. unfold deduce. by rewrite handlers_types, ref_deduce_list. Qed.

Lemma ref_exn_info c x (s : st M1) : ref (exn_info M1 c x s) (exn_info M2 c x s).
Proof.
  unfold exn_info. apply ref_bind; [apply ref_on_mem, (b_deact B)|]. intros [m1 g1]. cbn [fst snd]. destruct (catch_info x g1) as [[id ex] g].
  apply ref_bind; [apply (b_get B)|]. intros. apply ref_refl.
Qed.
Lemma ref_unload_rethrow c id x (s : st M1) : ref (unload_rethrow M1 c id x s) (unload_rethrow M2 c id x s).
Proof. apply ref_bind; [apply (b_unload B)|]. intros. apply ref_refl. Qed.
Lemma ref_leave c o (s : st M1) : ref (leave M1 c o s) (leave M2 c o s).
Proof. apply ref_bind; [apply ref_on_mem, (b_destroy B)|]. intros. apply ref_refl. Qed.
Lemma ref_deact_leave c o (s : st M1) : ref (deact_leave M1 c o s) (deact_leave M2 c o s).
Proof. apply ref_bind; [apply ref_on_mem, (b_deact B)|]. intros. apply ref_leave. Qed.
Lemma ref_ths_end c o (s : st M1) : ref (ths_end G1 M1 c o s) (ths_end G2 M2 c o s).
Proof.
  unfold ths_end. destruct o as [r|]; [|apply ref_leave]. destruct (is_val r); [apply ref_leave|].
  apply ref_bind; [apply ref_err_id|]. intros. apply ref_bind; [apply (b_unload B)|]. intros. apply ref_leave.
Qed.
Lemma ref_tha_end c o (s : st M1) : ref (tha_end M1 c o s) (tha_end M2 c o s).
Proof. unfold tha_end. destruct o as [r|]; [|apply ref_leave]. destruct (is_val r); [apply ref_leave|apply ref_refl]. Qed.
Lemma ref_res_info c r (s : st M1) : ref (res_info G1 M1 c r s) (res_info G2 M2 c r s).
Proof.
  unfold res_info. apply ref_bind; [apply ref_unload_ret|]. intros [[r1|x] s1]; [|apply ref_refl].
  apply ref_bind; [apply ref_err_id|]. intros. apply ref_bind; [apply ref_on_mem, (b_deact B)|]. intros.
  apply ref_bind; [apply (b_get B)|]. intros. apply ref_refl.
Qed.
Lemma ref_e2r cls x (s : st M1) : ref (e2r G1 M1 cls x s) (e2r G2 M2 cls x s).
Proof. unfold e2r. gn. apply ref_bind; [apply ref_id_load|]. intros. apply ref_refl. Qed.

Theorem ref_eval :
  (forall p caught (s : st M1), blind D p -> ref (eval G1 M1 caught p s) (eval G2 M2 caught p s)) /\
  (forall hs caught c ei (d d' : st M1 -> _) (s : st M1), blindH D hs -> (forall s, ref (d s) (d' s)) ->
     ref (evalH G1 M1 caught hs c ei d s) (evalH G2 M2 caught hs c ei d' s)).
Proof.
  apply prog_handlers_ind; try (intros; cbn [eval evalH blind blindH] in *; apply ref_refl).
  - intros p IH k IHk caught s [W1 W2]. cbn [eval]. apply ref_bind; [by apply IH|]. intros [[r|x] s1]; [by apply IHk|apply ref_refl].
  - intros z k IH caught s W. cbn [eval]. by apply IH.
  - intros its k IH caught s W. cbn [eval blind] in *. gn. apply ref_bind; [apply ref_id_load|].
    intros. by apply IH.
  - intros id its k IH caught s W. cbn [eval blind] in *. apply ref_bind; [apply ref_id_load|]. intros. by apply IH.
  - intros k IH caught s W. cbn [eval blind] in *. by apply IH.
  - intros id x its caught s W. cbn [eval blind] in *. gn.
    destruct id; (apply ref_bind; [apply ref_id_load|]; intros; apply ref_refl).
  - intros p IH h IHh caught s [W1 W2]. cbn [eval]. apply ref_bind; [by apply IH|]. intros [[r|x] s1]; [apply ref_refl|].
    apply ref_bind; [by apply IHh|]. intros. apply ref_refl.
  - intros its p IH caught [m g] W. cbn [eval blind fst snd] in *. apply ref_bind; [by apply IH|]. intros [o [m1 g1]]. gn. cbn [fst snd].
    match goal with |- ref (match ?x with _ => _ end) _ => destruct x as [id g'] end. destruct (id =? 0); [apply ref_refl|].
    apply ref_bind; [apply ref_load_items|]. intros. apply ref_refl.
  - intros k IH caught s W. cbn [eval blind] in *. by apply IH.
  - intros m k IH caught s W. cbn [eval blind] in *. by apply IH.
  - intros m k IH caught s W. cbn [eval blind] in *. gn. destruct (negb _); by apply IH.
  - (* PTHA *) intros p IH hs IHh caught s [W1 W2]. cbn [eval]. rewrite ref_deduce by done. destruct s as [m g]. cbn [m_new pmach fst snd]. rewrite (b_new B).
    destruct (mnew G2 (deduce G2 hs) m) as [c m1]. apply ref_bind; [apply ref_on_mem, (b_act B)|]. intros s1.
    apply ref_bind; [by apply IH|]. intros os. apply ref_bind; [destruct os as [[r|x] s2]; [apply ref_unload_ret|apply ref_refl]|].
    intros [[r|x] s2].
    + destruct (is_val r); [apply ref_deact_leave|]. apply ref_bind; [apply ref_res_info|]. intros [[[ei r1] s3]|[x s3]].
      * apply ref_bind; [apply IHh; [done|intros; apply ref_refl]|]. intros. apply ref_tha_end.
      * apply ref_deact_leave.
    + apply ref_bind; [apply ref_exn_info|]. intros. apply ref_bind; [apply IHh; [done|intros; apply ref_unload_rethrow]|].
      intros. apply ref_tha_end.
  - (* PTHS *) intros p IH hs IHh caught s [W1 W2]. cbn [eval]. rewrite ref_deduce by done. destruct s as [m g]. cbn [m_new pmach fst snd]. rewrite (b_new B).
    destruct (mnew G2 (deduce G2 hs) m) as [c m1]. apply ref_bind; [apply ref_on_mem, (b_act B)|]. intros s1.
    apply ref_bind; [by apply IH|]. intros os. apply ref_bind; [destruct os as [[r|x] s2]; [apply ref_unload_ret|apply ref_refl]|].
    intros [[r|x] s2].
    + destruct (is_val r); [apply ref_deact_leave|]. apply ref_bind; [apply ref_res_info|]. intros [[[ei r1] s3]|[x s3]].
      * apply ref_bind; [apply IHh; [done|intros; apply ref_refl]|]. intros. apply ref_ths_end.
      * apply ref_deact_leave.
    + apply ref_bind; [apply ref_exn_info|]. intros. apply ref_bind; [apply IHh; [done|intros; apply ref_unload_rethrow]|].
      intros. apply ref_ths_end.
  - (* PTC *) intros p IH hs IHh caught s [W1 W2]. cbn [eval]. rewrite ref_deduce by done. destruct s as [m g]. cbn [m_new pmach fst snd]. rewrite (b_new B).
    destruct (mnew G2 (deduce G2 hs) m) as [c m1]. apply ref_bind; [apply ref_on_mem, (b_act B)|]. intros s1.
    apply ref_bind; [by apply IH|]. intros [[r|x] s2]; [apply ref_deact_leave|].
    apply ref_bind; [apply ref_exn_info|]. intros. apply ref_bind; [apply IHh; [done|intros; apply ref_unload_rethrow]|].
    intros. apply ref_leave.
  - (* PCapture *) intros isvoid p IH caught s W. cbn [eval blind] in *. rewrite (b_cap B). destruct (negb _); [apply ref_refl|].
    destruct s as [m g]. cbn [m_new pmach fst snd]. rewrite (b_new B).
    destruct (mnew G2 [SDA] m) as [c m1]. apply ref_bind; [apply ref_on_mem, (b_act B)|]. intros s1.
    apply ref_bind; [by apply IH|]. intros [[r|x] s2].
    + destruct isvoid.
      * destruct (is_val r); [|apply ref_refl]. apply ref_bind; [apply ref_on_mem, (b_drop B)|]. intros. apply ref_refl.
      * destruct r; [apply ref_deact_leave| | |apply ref_refl];
          (apply ref_bind; [apply ref_on_mem, (b_deact B)|]; intros; apply ref_bind; [apply (b_extract B)|]; intros; apply ref_leave).
    + apply ref_bind; [apply ref_on_mem, (b_deact B)|]. intros [m3 g3]. cbn [fst snd]. destruct (catch_info x g3) as [[id ex] g'].
      apply ref_bind; [apply (b_extract B)|]. intros. apply ref_leave.
  - intros r k IH caught s W. cbn [eval blind] in *. apply ref_bind; [apply ref_unload_ret|]. intros [[r1|x] s1]; [by apply IH|apply ref_refl].
  - intros r k IH caught s W. cbn [eval blind] in *.
    destruct r; [by apply IH| | |apply ref_refl]; (apply ref_bind; [apply ref_unload_ret|]; intros [[r1|x] s1]; apply ref_refl).
  - intros r k IH caught s W. cbn [eval blind] in *. apply ref_bind; [apply ref_err_id|]. intros. by apply IH.
  - intros cls p IH caught s W. cbn [eval blind] in *. apply ref_bind; [by apply IH|]. intros [[r|x] s1]; [apply ref_refl|apply ref_e2r].
  - intros cat v k IH caught s W. cbn [eval blind] in *. apply ref_bind; [apply ref_import|]. intros. by apply IH.
  - (* PCtx *) intros tup k IH caught s W. cbn [eval blind] in *. rewrite ref_deduce_list. destruct s as [m g]. cbn [m_new pmach fst snd]. rewrite (b_new B).
    destruct (mnew G2 (deduce_list G2 tup) m) as [c m1]. apply ref_bind; [by apply IH|]. intros. apply ref_leave.
  - (* PAct *) intros c p IH caught s W. cbn [eval blind] in *. apply ref_bind; [apply ref_refl|]. intros [|]; [by apply IH|].
    apply ref_bind; [apply ref_on_mem, (b_act B)|]. intros s1. apply ref_bind; [by apply IH|]. intros os.
    apply ref_bind; [apply ref_refl|]. intros [|]; [|apply ref_refl]. apply ref_bind; [apply ref_on_mem, (b_deact B)|]. intros. apply ref_refl.
  - intros c id k IH caught s W. cbn [eval blind] in *. apply ref_bind; [apply (b_unload B)|]. intros. by apply IH.
  - intros c id hs IH caught s W. cbn [eval blind] in *. apply ref_bind; [apply ref_refl|]. intros a.
    apply ref_bind; [apply (b_assert B)|]. intros. apply ref_bind; [apply (b_get B)|]. intros. apply IH; [done|]. intros. apply ref_refl.
  - intros caught c ei d d' s _ Hd. cbn [evalH]. apply Hd.
  - intros args w b IH rest IHr caught c ei d d' [m g] (W1 & W2 & W3) Hd. cbn [evalH fst snd].
    eapply refp_bind; [apply args_alike; destruct W1 as [|[]]; auto|]. intros [l|] [l'|] Ho; try done; [|by apply IHr].
    destruct Ho as [Ho1 Ho2].
    assert (b l' = b l /\ w l' = w l) as [-> ->].
    { destruct W1 as [HD|[_ W1]]; [by rewrite Ho2|]. destruct (W1 l l' Ho1). by split. }
    apply ref_bind; [apply ref_set_all|]. intros. by apply IH.
  - intros hs1 IH1 rest IHr caught c ei d d' s [W1 W2] Hd. cbn [evalH]. apply IH1; [done|]. intros. by apply IHr.
Qed.

End ref.

(** ** With and without assertions *)
Section asserts.
Context (G : cfg).
Notation Ga := (asserts_on G).
Notation ref := (refp (fun e => e = Assert) eq).

Lemma ref_assert b : ref (assert Ga b) (assert G b).
Proof. unfold assert. simpl. destruct b; simpl; [|by left]. by rewrite andb_false_r. Qed.

Ltac rf := change (g_capture Ga) with (g_capture G); change (g_def Ga) with (g_def G); repeat first
  [ apply ref_refl | apply ref_assert
  | match goal with |- ref (rbind _ _) (rbind _ _) => apply ref_bind; [|intros] end
  | match goal with |- ref (match ?x with _ => _ end) (match ?x with _ => _ end) => destruct x end
  | match goal with H : forall _, _ |- _ => apply H end ].

Lemma ra_slot_free a T m : ref (slot_free Ga a T m) (slot_free G a T m).
Proof. unfold slot_free. rf. Qed.
Lemma ra_slot_load a id v m : ref (slot_load Ga a id v m) (slot_load G a id v m).
Proof. unfold slot_load. rf. Qed.
Lemma ra_for_nodes f f' l : (forall T n m, ref (f T n m) (f' T n m)) -> forall m, ref (for_nodes f l m) (for_nodes f' l m).
Proof. intros H. induction l as [|[T n] l IH]; intros m; cbn [for_nodes]; rf. Qed.
Lemma ra_dslot_reset c m : ref (dslot_reset Ga c m) (dslot_reset G c m).
Proof. unfold dslot_reset. rf. apply ra_for_nodes. intros. apply ra_slot_free. Qed.
Lemma ra_dslot_load c id m : ref (dslot_load Ga c id m) (dslot_load G c id m).
Proof. unfold dslot_load. rf. apply ra_dslot_reset. Qed.
Lemma ra_dslot_free c m : ref (dslot_free Ga c m) (dslot_free G c m).
Proof. unfold dslot_free. rf. apply ra_dslot_reset. Qed.
Lemma ra_da_load c id T v m : ref (da_load Ga c id T v m) (da_load G c id T v m).
Proof. unfold da_load. rf. Qed.
Lemma ra_dyn_load id T v m : ref (dyn_load Ga id T v m) (dyn_load G id T v m).
Proof. unfold dyn_load. rf; first [apply ra_da_load|apply ra_dslot_load]. Qed.
Lemma ra_dyn_accumulate id T tag f m g : ref (dyn_accumulate Ga id T tag f m g) (dyn_accumulate G id T tag f m g).
Proof. unfold dyn_accumulate. rf; first [apply ra_da_load|apply ra_dslot_load]. Qed.
Lemma ra_load o id it m g : ref (mload Ga o id it m g) (mload G o id it m g).
Proof.
  destruct it; cbn [mload]; unfold load_slot, load_slot_deferred, load_slot_accumulate; rf;
    first [apply ra_slot_load|apply ra_dyn_load|apply ra_dyn_accumulate].
Qed.
Lemma ra_unload_to id T v m : ref (unload_to Ga id T v m) (unload_to G id T v m).
Proof. unfold unload_to. rf; first [apply ra_slot_load|apply ra_dyn_load]. Qed.
Lemma ra_slot_unload a T id m : ref (slot_unload Ga a T id m) (slot_unload G a T id m).
Proof. unfold slot_unload. rf. apply ra_unload_to. Qed.
Lemma ra_dslot_unload c id m g : ref (dslot_unload Ga c id m g) (dslot_unload G c id m g).
Proof. unfold dslot_unload. rf; apply ra_for_nodes; intros; first [apply ra_slot_unload|apply ra_slot_free]. Qed.
Lemma ra_cap_unload id l : forall m g, ref (mcap_unload Ga id l m g) (mcap_unload G id l m g).
Proof.
  intros m g. unfold mcap_unload. rf. revert m. induction l as [|[T [k v]] l IH]; intros m; cbn [cap_unload_nodes]; rf. apply ra_unload_to.
Qed.
Lemma ra_for_tup f f' l : (forall t m, ref (f t m) (f' t m)) -> forall m, ref (for_tup f l m) (for_tup f' l m).
Proof. intros H. induction l as [|t l IH]; intros m; cbn [for_tup]; rf. Qed.
Lemma ra_free c t m : ref (sty_free Ga c t m) (sty_free G c t m).
Proof. destruct t; cbn [sty_free]; first [apply ra_slot_free|apply ra_dslot_free]. Qed.
Lemma ra_tup_unload c id tup : forall m g, ref (tup_unload Ga c id tup m g) (tup_unload G c id tup m g).
Proof. induction tup as [|t tup IH]; intros m g; cbn [tup_unload]; rf; first [apply ra_slot_unload|apply ra_dslot_unload]. Qed.

Lemma below_asserts : below (fun e => e = Assert) Ga G.
Proof.
  constructor; intros; try done; try (by left).
  - apply ref_assert.
  - apply ra_load.
  - apply ra_cap_unload.
  - unfold mact. rf.
  - unfold mdeact. rf.
  - unfold mdestroy. rf. apply ra_for_tup. intros. apply ra_free.
  - unfold mdrop. rf. apply ra_for_tup. intros. apply ra_free.
  - unfold munload. rf. apply ra_tup_unload.
  - unfold mget. rf.
  - apply ref_refl.
  - apply ref_refl.
  - unfold mextract. rf. apply ra_dslot_load.
Qed.
End asserts.

(** ** With and without diagnostics *)
Definition diag_off (G : cfg) : cfg :=
  Cfg (g_capture G) false (g_asserts G) (g_class G) (g_abs G) (g_show G) (g_def G) (g_sup G).

Lemma below_diag G : below (fun e => e = UAF) G (diag_off G).
Proof. constructor; intros; try done; try apply ref_refl. by right. Qed.
