(** Replacing error ids by other ids, everywhere: in programs, error objects, results, exceptions and the library's storage. *)
From Verif Require Export Local PropsSim NoExcept.
Open Scope Z_scope.

(** A replacement of ids: no two ids become one; 0 stays 0; the low bits stay (f acts on the other bits, see mk). *)
Record renaming (f : Z -> Z) : Prop := Renaming {
  f_zero : f 0 = 0;
  f_inj : forall a b, f a = f b -> a = b;
  f_mk : forall z, mk (f z) = f (mk z);
  f_low : forall z, Z.land (f z) 3 = Z.land z 3 }.

Section ren.
Context (f : Z -> Z).

(** ** What becomes of values: ids are in exceptions, results, and codes of LEAF's category *)
Definition fc (cat : nat) (v : Z) : Z := if (cat =? LEAFCAT)%nat then f v else v.
Definition fcode (o : option (nat * Z)) : option (nat * Z) := match o with Some (c, v) => Some (c, fc c v) | None => None end.
Definition fx (x : exn) : exn := Exn (x_oid x) (x_std x) (x_cls x) (x_val x) (fcode (x_code x)) (f <$> x_eid x) (f <$> x_leaf x).
Definition fxs (x : xspec) : xspec := XSpec (xs_std x) (xs_cls x) (xs_val x) (fcode (xs_code x)) (f <$> xs_eid x).
Definition fv (v : val) : val := match v with VEC c z => VEC c (fc c z) | VX x => VX (fx x) | VZ _ | VLOC _ => v end.
Definition ftv (x : ety * val) : ety * val := (fst x, fv (snd x)).
Definition fnode (n : cnode) : cnode := (fst n, (f (fst (snd n)), fv (snd (snd n)))).
Definition fr (r : ret) : ret :=
  match r with RVal z => RVal z | RErr id => RErr (f id) | RCap id l ex => RCap (f id) (map fnode l) (fx <$> ex) | RFor c v => RFor c (fc c v) end.
Definition fa (a : argval) : argval :=
  match a with
  | VE v => VE (fv v) | VP o => VP (fv <$> o) | VCatch x => VCatch (fx x)
  | VInfo id ex loc => VInfo (f id) (fx <$> ex) (fv <$> loc)
  | VDiag id ex loc l => VDiag (f id) (fx <$> ex) (fv <$> loc) (map ftv l)
  | VDetails id ex loc l d => VDetails (f id) (fx <$> ex) (fv <$> loc) (map ftv l) (map ftv d)
  end.
Definition fo (o : out) : out := match o with ORet r => ORet (fr r) | OThrow x => OThrow (fx x) end.

(** ** What becomes of states; the events stay the same *)
Definition fs (s : eslot) : eslot := ESlot (f (e_key s)) (fv (e_val s)) (e_prev s).
Definition fd (d : dslot) : dslot := DSlot (f (d_key d)) (d_nodes d) (d_last d) (d_prev d).
Definition fm (m : mem) : mem := Mem (fs <$> hp m) (fd <$> dhp m) (tls m) (tlsd m) (ctxs m) (nc m) (na m).
Definition fg (g : glob) : glob := Glob (f (cur g)) (ngen g) (oid g) (clr g) (tr g).
Definition fmg (s : mem * glob) : mem * glob := (fm (fst s), fg (snd s)).
Definition fos (x : out * (mem * glob)) : out * (mem * glob) := (fo (fst x), fmg (snd x)).

(** ** Programs p and p' which are the same up to ids: wherever p is given an id (or a value containing ids), p' given the replaced one goes on alike. *)
Definition itlike (it it' : item) : Prop :=
  match it, it' with
  | IVal T v, IVal T' v' => T = T' /\ v' = fv v
  | IDef T t g, IDef T' t' g' => T = T' /\ t = t' /\ forall l, g' l = fv (g l)
  | IAcc T t h, IAcc T' t' h' => T = T' /\ t = t' /\ forall v, h' (fv v) = fv (h v)
  | IVoid t, IVoid t' => t = t'
  | _, _ => False
  end.
Definition hlike (a a' : harg) : Prop :=
  match a, a' with
  | AE T, AE T' | APtr T, APtr T' => T = T'
  | APred T h, APred T' h' => T = T' /\ forall v, h' (fv v) = h v
  | ACatch l, ACatch l' => l = l'
  | ABoost i h, ABoost i' h' => (forall x, i' (fx x) = i x) /\ forall z, h' z = h z
  | AInfo, AInfo | ADiag, ADiag | ADetails, ADetails => True
  | _, _ => False
  end.
Fixpoint like (p p' : prog) {struct p} : Prop :=
  match p, p' with
  | PRet r, PRet r' => r' = fr r
  | PBind p k, PBind p' k' => like p p' /\ forall r, like (k r) (k' (fr r))
  | PEmit z k, PEmit z' k' => z = z' /\ like k k'
  | PNewError its k, PNewError its' k' => Forall2 itlike its its' /\ forall z, like (k z) (k' (f z))
  | PLoad id its k, PLoad id' its' k' => id' = f id /\ Forall2 itlike its its' /\ like k k'
  | PCurErr k, PCurErr k' => forall z, like (k z) (k' (f z))
  | PThrow id x its, PThrow id' x' its' => id' = f <$> id /\ x' = fxs x /\ Forall2 itlike its its'
  | PThrowX x, PThrowX x' => x' = fxs x
  | PRethrow, PRethrow => True
  | PCatch p h, PCatch p' h' => like p p' /\ forall x, like (h x) (h' (fx x))
  | POnError its p, POnError its' p' => Forall2 itlike its its' /\ like p p'
  | PMonitor k, PMonitor k' => forall z, like (k z) (k' (f z))
  | PCheck m k, PCheck m' k' | PAssigned m k, PAssigned m' k' => m' = f m /\ forall z, like (k z) (k' (f z))
  | PTHA p hs, PTHA p' hs' | PTHS p hs, PTHS p' hs' | PTC p hs, PTC p' hs' => like p p' /\ likeH hs hs'
  | PCapture b p, PCapture b' p' => b = b' /\ like p p'
  | PUnload r k, PUnload r' k' => r' = fr r /\ forall r, like (k r) (k' (fr r))
  | PValue r k, PValue r' k' => r' = fr r /\ forall z, like (k z) (k' z)
  | PErrId r k, PErrId r' k' => r' = fr r /\ forall z, like (k z) (k' (f z))
  | PE2R cls p, PE2R cls' p' => cls = cls' /\ like p p'
  | PImport cat v k, PImport cat' v' k' => cat = cat' /\ v' = fc cat v /\ forall z, like (k z) (k' (f z))
  | PCtx tup k, PCtx tup' k' => tup = tup' /\ forall c, like (k c) (k' c)
  | PAct c p, PAct c' p' => c = c' /\ like p p'
  | PCtxUnload c id k, PCtxUnload c' id' k' => c = c' /\ id' = f id /\ like k k'
  | PCtxHandle c id hs, PCtxHandle c' id' hs' => c = c' /\ id' = f id /\ likeH hs hs'
  | _, _ => False
  end
with likeH (hs hs' : handlers) {struct hs} : Prop :=
  match hs, hs' with
  | HNil, HNil => True
  | HMut args w b rest, HMut args' w' b' rest' =>
      Forall2 hlike args args' /\ (forall l, w' (map fa l) = map ftv (w l)) /\ (forall l, like (b l) (b' (map fa l))) /\ likeH rest rest'
  | HTup hs rest, HTup hs' rest' => likeH hs hs' /\ likeH rest rest'
  | _, _ => False
  end.

Context (F : renaming f).
Context (G : cfg) (Gdef : forall T, fv (g_def G T) = g_def G T).
Notation M := (pmach G).

Lemma f_eqb a b : (f a =? f b) = (a =? b).
Proof. destruct (Z.eqb_spec a b) as [->|H]; [apply Z.eqb_refl|]. apply Z.eqb_neq. intros E. by apply H, (f_inj _ F). Qed.
Lemma f_eqb0 a : (f a =? 0) = (a =? 0).
Proof. rewrite <- (f_zero _ F) at 1. apply f_eqb. Qed.
Lemma fc_eqb0 c a : (fc c a =? 0) = (a =? 0).
Proof. unfold fc. destruct (_ =? _)%nat; [apply f_eqb0|done]. Qed.

(** *** Results of library functions *)
Definition rmap {A B} (h : A -> B) (x : res A) : res B := match x with Ok a => Ok (h a) | Fail e => Fail e end.
Lemma rm_bind {A B A' B'} (h : A -> A') (h2 : B -> B') x y k k' :
  y = rmap h x -> (forall a, k' (h a) = rmap h2 (k a)) -> rbind y k' = rmap h2 (rbind x k).
Proof. intros -> H. destruct x; simpl; auto. Qed.
Lemma rm_same {A B B'} (h2 : B -> B') (x : res A) k k' : (forall a, k' a = rmap h2 (k a)) -> rbind x k' = rmap h2 (rbind x k).
Proof. intros H. destruct x; simpl; auto. Qed.

Lemma fm_hp m a : hp (fm m) !! a = fs <$> hp m !! a.
Proof. apply lookup_fmap. Qed.
Lemma fm_dhp m c : dhp (fm m) !! c = fd <$> dhp m !! c.
Proof. apply lookup_fmap. Qed.
Lemma fm_set_hp a s m : fm (set_hp (<[a := s]> (hp m)) m) = set_hp (<[a := fs s]> (hp (fm m))) (fm m).
Proof. unfold fm, set_hp. simpl. by rewrite fmap_insert. Qed.
Lemma fm_del_hp a m : fm (set_hp (delete a (hp m)) m) = set_hp (delete a (hp (fm m))) (fm m).
Proof. unfold fm, set_hp. simpl. by rewrite fmap_delete. Qed.
Lemma fm_set_dhp c d m : fm (set_dhp (<[c := d]> (dhp m)) m) = set_dhp (<[c := fd d]> (dhp (fm m))) (fm m).
Proof. unfold fm, set_dhp. simpl. f_equal. exact (fmap_insert (K := cid) _ _ _ _). Qed.
Lemma fm_del_dhp c m : fm (set_dhp (delete c (dhp m)) m) = set_dhp (delete c (dhp (fm m))) (fm m).
Proof. unfold fm, set_dhp. simpl. f_equal. exact (fmap_delete (K := cid) _ _ _). Qed.
Lemma deref_map {A B} (h : A -> B) (o : option A) : deref (h <$> o) = rmap h (deref o).
Proof. by destruct o. Qed.

Lemma fd0 n l p : fd (DSlot 0 n l p) = DSlot 0 n l p.
Proof. unfold fd. simpl. by rewrite (f_zero _ F). Qed.
Lemma fs0 v p : fs (ESlot 0 v p) = ESlot 0 (fv v) p.
Proof. unfold fs. simpl. by rewrite (f_zero _ F). Qed.

(** *** The library's storage *)
Lemma rn_slot_activate a T m : slot_activate a T (fm m) = rmap fm (slot_activate a T m).
Proof.
  unfold slot_activate. rewrite fm_hp, deref_map. eapply rm_bind; [done|]. intros s. simpl. f_equal. unfold tls_write, set_tls, set_hp, fm. simpl. f_equal.
  by rewrite fmap_insert.
Qed.
Lemma rn_slot_deactivate a T m : slot_deactivate a T (fm m) = rmap fm (slot_deactivate a T m).
Proof. unfold slot_deactivate. rewrite fm_hp, deref_map. eapply rm_bind; [done|]. done. Qed.
Lemma rn_slot_free a T m : slot_free G a T (fm m) = rmap fm (slot_free G a T m).
Proof.
  unfold slot_free. rewrite fm_hp, deref_map. eapply rm_bind; [done|]. intros s. change (tls (fm m)) with (tls m). apply rm_same. intros []. simpl.
  by rewrite fm_del_hp.
Qed.
Lemma rn_slot_load a id v m : slot_load G a (f id) (fv v) (fm m) = rmap fm (slot_load G a id v m).
Proof.
  unfold slot_load. rewrite fm_hp, deref_map, f_eqb0. eapply rm_bind; [done|]. intros s. apply rm_same. intros []. simpl. by rewrite fm_set_hp.
Qed.
Lemma rn_slot_reset a m : slot_reset a (fm m) = rmap fm (slot_reset a m).
Proof.
  unfold slot_reset. rewrite fm_hp, deref_map. eapply rm_bind; [done|]. intros s. simpl. by rewrite fm_set_hp, fs0.
Qed.
Lemma rn_for_nodes h h' l : (forall T n m, h' T n (fm m) = rmap fm (h T n m)) -> forall m, for_nodes h' l (fm m) = rmap fm (for_nodes h l m).
Proof. intros H. induction l as [|[T n] l IH]; intros m; cbn [for_nodes]; [done|]. eapply rm_bind; [apply H|done]. Qed.
Lemma rn_dslot_activate c m : dslot_activate c (fm m) = rmap fm (dslot_activate c m).
Proof.
  unfold dslot_activate. rewrite fm_dhp, deref_map. eapply rm_bind; [done|]. intros s. simpl. f_equal. unfold set_tlsd, set_dhp, fm. simpl. f_equal.
  symmetry. exact (fmap_insert (K := cid) _ _ _ _).
Qed.
Lemma rn_dslot_deactivate c m : dslot_deactivate c (fm m) = rmap fm (dslot_deactivate c m).
Proof.
  unfold dslot_deactivate. rewrite fm_dhp, deref_map. eapply rm_bind; [done|]. intros s. simpl. rewrite f_eqb0. eapply (rm_bind fm); [|done].
  destruct (d_key s =? 0); [done|]. apply rn_for_nodes. intros. apply rn_slot_deactivate.
Qed.
Lemma rn_dslot_reset c m : dslot_reset G c (fm m) = rmap fm (dslot_reset G c m).
Proof.
  unfold dslot_reset. rewrite fm_dhp, deref_map. eapply rm_bind; [done|]. intros s. simpl. rewrite f_eqb0. eapply (rm_bind fm).
  - destruct (d_key s =? 0); [done|]. apply rn_for_nodes. intros. apply rn_slot_free.
  - intros m1. simpl. by rewrite fm_set_dhp, fd0.
Qed.
Lemma rn_dslot_load c id m : dslot_load G c (f id) (fm m) = rmap fm (dslot_load G c id m).
Proof.
  unfold dslot_load. rewrite f_eqb0. apply rm_same. intros []. eapply rm_bind; [apply rn_dslot_reset|]. intros m1. rewrite fm_dhp, deref_map.
  eapply rm_bind; [done|]. intros d. simpl. by rewrite fm_set_dhp.
Qed.
Lemma rn_dslot_free c m : dslot_free G c (fm m) = rmap fm (dslot_free G c m).
Proof.
  unfold dslot_free. rewrite fm_dhp, deref_map. eapply rm_bind; [done|]. intros d. apply rm_same. intros []. eapply rm_bind; [apply rn_dslot_reset|].
  intros m1. simpl. by rewrite fm_del_dhp.
Qed.
Lemma rn_da_load c id T v m : da_load G c (f id) T (fv v) (fm m) = rmap fm (da_load G c id T v m).
Proof.
  unfold da_load. rewrite fm_dhp, deref_map, f_eqb0. eapply rm_bind; [done|]. intros d. simpl. apply rm_same. intros []. apply rm_same. intros [].
  apply rm_same. intros []. rewrite <- rn_slot_activate. f_equal. unfold fm, set_dhp, set_na, set_hp. simpl. rewrite fmap_insert. f_equal.
  symmetry. exact (fmap_insert (K := cid) _ _ _ _).
Qed.
Lemma rn_dyn_load id T v m : dyn_load G (f id) T (fv v) (fm m) = rmap fm (dyn_load G id T v m).
Proof.
  unfold dyn_load. change (tlsd (fm m)) with (tlsd m). destruct (tlsd m) as [c|]; [|done]. rewrite fm_dhp, deref_map. eapply rm_bind; [done|]. intros d. simpl.
  rewrite f_eqb0. destruct (d_key d =? 0); simpl; [|apply rn_da_load]. eapply rm_bind; [apply rn_dslot_load|]. intros. apply rn_da_load.
Qed.
Lemma rn_dyn_accumulate id T tag h h' m g : (forall v, h' (fv v) = fv (h v)) ->
  dyn_accumulate G (f id) T tag h' (fm m) (fg g) = rmap fmg (dyn_accumulate G id T tag h m g).
Proof.
  intros Hh. unfold dyn_accumulate. change (tlsd (fm m)) with (tlsd m). destruct (tlsd m) as [c|]; [|done]. rewrite fm_dhp, deref_map. eapply rm_bind; [done|]. intros d. simpl.
  rewrite f_eqb. eapply (rm_bind fm); [destruct (d_key d =? id); [done|apply rn_dslot_load]|]. intros m1.
  replace (h' (g_def G T)) with (fv (h (g_def G T))) by (rewrite <- Hh; by rewrite Gdef). eapply rm_bind; [apply rn_da_load|]. done.
Qed.
Lemma rn_load_slot o id T v m : load_slot G o (f id) T (fv v) (fm m) = rmap fm (load_slot G o id T v m).
Proof.
  unfold load_slot. change (tls (fm m)) with (tls m). destruct (tls m !! T) as [a|].
  - rewrite fm_hp, deref_map. eapply rm_bind; [done|]. intros s. simpl. rewrite f_eqb. destruct (negb o || _); [apply rn_slot_load|done].
  - destruct (g_capture G); [apply rn_dyn_load|done].
Qed.
Lemma rn_load o id it it' m g : itlike it it' -> mload G o (f id) it' (fm m) (fg g) = rmap fmg (mload G o id it m g).
Proof.
  destruct it, it'; simpl; try done.
  - intros [<- ->]. eapply rm_bind; [apply rn_load_slot|]. done.
  - intros (<- & <- & Hg). unfold load_slot_deferred. change (tls (fm m)) with (tls m). change (tr (fg g)) with (tr g). rewrite Hg. destruct (tls m !! T) as [a|].
    + rewrite fm_hp, deref_map. eapply rm_bind; [done|]. intros s. simpl. rewrite f_eqb. destruct (negb o || _); [|done]. eapply rm_bind; [apply rn_slot_load|done].
    + destruct (g_capture G); [|done]. eapply rm_bind; [apply rn_dyn_load|done].
  - intros (<- & <- & Hh). unfold load_slot_accumulate. change (tls (fm m)) with (tls m). destruct (tls m !! T) as [a|].
    + rewrite fm_hp, deref_map. eapply rm_bind; [done|]. intros s. simpl. rewrite f_eqb.
      replace (if e_key s =? id then fv (e_val s) else g_def G T) with (fv (if e_key s =? id then e_val s else g_def G T)) by (destruct (e_key s =? id); auto).
      rewrite Hh. eapply rm_bind; [apply rn_slot_load|done].
    + destruct (g_capture G); [|done]. by apply rn_dyn_accumulate.
  - by intros <-.
Qed.
Lemma rn_unload_to id T v m : unload_to G (f id) T (fv v) (fm m) = rmap (fun bm => (fst bm, fm (snd bm))) (unload_to G id T v m).
Proof.
  unfold unload_to. change (tls (fm m)) with (tls m). destruct (tls m !! T) as [a|].
  - rewrite fm_hp, deref_map. eapply rm_bind; [done|]. intros s. simpl. rewrite f_eqb. destruct (negb _); [|done]. eapply rm_bind; [apply rn_slot_load|done].
  - destruct (g_capture G); [|done]. eapply rm_bind; [apply rn_dyn_load|done].
Qed.
Lemma rn_slot_unload a T id m : slot_unload G a T (f id) (fm m) = rmap fm (slot_unload G a T id m).
Proof.
  unfold slot_unload. rewrite f_eqb0. apply rm_same. intros []. rewrite fm_hp, deref_map. eapply rm_bind; [done|]. intros s. simpl. rewrite f_eqb.
  destruct (negb (e_key s =? id)); [done|]. change (tls (fm m)) with (tls m). destruct (_ && _ && _); [done|]. eapply rm_bind; [apply rn_unload_to|].
  intros [[] m1]; simpl; [apply rn_slot_reset|done].
Qed.
Lemma rn_dslot_unload c id m g : dslot_unload G c (f id) (fm m) (fg g) = rmap fmg (dslot_unload G c id m g).
Proof.
  unfold dslot_unload. rewrite f_eqb0. apply rm_same. intros []. rewrite fm_dhp, deref_map. eapply rm_bind; [done|]. intros d. simpl. rewrite f_eqb0.
  destruct (d_key d =? 0); [done|].
  eapply (rm_bind fm).
  - rewrite <- (rn_for_nodes _ (fun T n => slot_unload G (inr n) T (f id))) by (intros; apply rn_slot_unload). f_equal. by rewrite fm_set_dhp.
  - intros m2. eapply (rm_bind fm); [apply rn_for_nodes; intros; apply rn_slot_free|]. done.
Qed.
Lemma rn_cap_unload id l m g : mcap_unload G (f id) (map fnode l) (fm m) (fg g) = rmap fmg (mcap_unload G id l m g).
Proof.
  unfold mcap_unload. eapply (rm_bind fm); [|done]. revert m. induction l as [|[T [k v]] l IH]; intros m; cbn [map cap_unload_nodes fnode fst snd]; [done|].
  rewrite f_eqb0, f_eqb. apply rm_same. intros []. eapply (rm_bind fm); [|done]. destruct (negb _); [done|]. eapply rm_bind; [apply rn_unload_to|]. done.
Qed.
Lemma rn_new tup m : mnew G tup (fm m) = (fst (mnew G tup m), fm (snd (mnew G tup m))).
Proof.
  unfold mnew. simpl. f_equal. change (nc (fm m)) with (nc m). generalize (nc m). intros c.
  assert (new_slots G c tup (fm m) = fm (new_slots G c tup m)) as E; [|rewrite E; done].
  revert m. induction tup as [|[T|] tup IH]; intros m; cbn [new_slots]; [done| |].
  - rewrite <- IH. f_equal. by rewrite fm_set_hp, fs0, Gdef.
  - rewrite <- IH. f_equal. by rewrite fm_set_dhp, fd0.
Qed.
Lemma rn_for_tup h h' l : (forall t m, h' t (fm m) = rmap fm (h t m)) -> forall m, for_tup h' l (fm m) = rmap fm (for_tup h l m).
Proof. intros H. induction l as [|t l IH]; intros m; cbn [for_tup]; [done|]. eapply rm_bind; [apply H|done]. Qed.
Lemma rn_act c m : mact G c (fm m) = rmap fm (mact G c m).
Proof.
  unfold mact. change (ctxs (fm m)) with (ctxs m). apply rm_same. intros k. apply rm_same. intros []. eapply rm_bind; [apply (rn_for_tup (sty_activate c))|done].
  intros [T|] m1; [apply rn_slot_activate|apply rn_dslot_activate].
Qed.
Lemma rn_deact c m : mdeact G c (fm m) = rmap fm (mdeact G c m).
Proof.
  unfold mdeact. change (ctxs (fm m)) with (ctxs m). apply rm_same. intros k. apply rm_same. intros []. eapply rm_bind; [apply (rn_for_tup (sty_deactivate c))|done].
  intros [T|] m1; [apply rn_slot_deactivate|apply rn_dslot_deactivate].
Qed.
Lemma rn_free c t m : sty_free G c t (fm m) = rmap fm (sty_free G c t m).
Proof. destruct t; [apply rn_slot_free|apply rn_dslot_free]. Qed.
Lemma rn_destroy c m : mdestroy G c (fm m) = rmap fm (mdestroy G c m).
Proof.
  unfold mdestroy. change (ctxs (fm m)) with (ctxs m). apply rm_same. intros k. apply rm_same. intros []. eapply rm_bind; [apply (rn_for_tup (sty_free G c)); apply rn_free|done].
Qed.
Lemma rn_drop c m : mdrop G c (fm m) = rmap fm (mdrop G c m).
Proof. unfold mdrop. change (ctxs (fm m)) with (ctxs m). apply rm_same. intros k. eapply rm_bind; [apply (rn_for_tup (sty_free G c)); apply rn_free|done]. Qed.
Lemma rn_unload c id m g : munload G c (f id) (fm m) (fg g) = rmap fmg (munload G c id m g).
Proof.
  unfold munload. change (ctxs (fm m)) with (ctxs m). apply rm_same. intros k. apply rm_same. intros []. generalize (rev (k_tup k)). intros tup. revert m g.
  induction tup as [|t tup IH]; intros m g; cbn [tup_unload]; [done|]. rewrite f_eqb0. apply rm_same. intros []. eapply (rm_bind fmg).
  - destruct t; [eapply rm_bind; [apply rn_slot_unload|done]|apply rn_dslot_unload].
  - intros [m1 g1]. apply IH.
Qed.
Lemma rn_get c T id m : mget G c T (f id) (fm m) = rmap (fmap fv) (mget G c T id m).
Proof.
  unfold mget. change (ctxs (fm m)) with (ctxs m). apply rm_same. intros k. destruct (bool_decide _); [|done]. rewrite fm_hp, deref_map. eapply rm_bind; [done|]. intros s.
  simpl. rewrite f_eqb, f_eqb0. apply rm_same. intros []. destruct (e_key s =? id); [|done]. by destruct (id =? 0).
Qed.
Lemma rn_set c T id v m : mset c T (f id) (fv v) (fm m) = rmap fm (mset c T id v m).
Proof.
  unfold mset. change (ctxs (fm m)) with (ctxs m). apply rm_same. intros k. destruct (bool_decide _); [|done]. rewrite fm_hp, deref_map. eapply rm_bind; [done|]. intros s.
  simpl. rewrite f_eqb, f_eqb0. destruct (_ && _); [|done]. simpl. by rewrite fm_set_hp.
Qed.
Lemma rn_print_slot id T k v : print_slot G (f id) T (f k) (fv v) = map ftv (print_slot G id T k v).
Proof. unfold print_slot. rewrite !f_eqb0, f_eqb. by destruct (_ && _ && _). Qed.
Lemma rn_print c id m : mprint G c (f id) (fm m) = rmap (map ftv) (mprint G c id m).
Proof.
  unfold mprint. change (ctxs (fm m)) with (ctxs m). apply rm_same. intros k. induction (k_tup k) as [|[T|] l IH]; cbn [tup_print]; [done| |done].
  rewrite fm_hp, deref_map. eapply rm_bind; [done|]. intros s. eapply rm_bind; [apply IH|]. intros l1. simpl. by rewrite rn_print_slot, map_app.
Qed.
Lemma rn_nodes_print id l m : nodes_print G (f id) l (fm m) = rmap (map ftv) (nodes_print G id l m).
Proof.
  induction l as [|[T n] l IH]; cbn [nodes_print]; [done|].
  rewrite fm_hp, deref_map. eapply rm_bind; [done|]. intros s. eapply rm_bind; [apply IH|]. intros l1. simpl. by rewrite rn_print_slot, map_app.
Qed.
Lemma rn_details c id m : mdetails G c (f id) (fm m) = rmap (map ftv) (mdetails G c id m).
Proof.
  unfold mdetails. change (ctxs (fm m)) with (ctxs m). apply rm_same. intros k. destruct (bool_decide _); [|done]. rewrite fm_dhp, deref_map. eapply rm_bind; [done|]. intros d.
  simpl. rewrite f_eqb0. destruct (d_key d =? 0); [done|]. apply rn_nodes_print.
Qed.
Definition flm (x : list cnode * mem) : list cnode * mem := (map fnode (fst x), fm (snd x)).
Lemma rn_take_nodes l : forall m, take_nodes l (fm m) = rmap flm (take_nodes l m).
Proof.
  induction l as [|[T n] l IH]; intros m; cbn [take_nodes]; [done|]. rewrite fm_hp, deref_map. eapply rm_bind; [done|]. intros s. eapply rm_bind.
  - rewrite <- fm_del_hp. apply IH.
  - done.
Qed.
Lemma rn_extract c id b m : mextract G c (f id) b (fm m) = rmap flm (mextract G c id b m).
Proof.
  unfold mextract. rewrite fm_dhp, deref_map. eapply rm_bind; [done|]. intros d0. rewrite f_eqb0. apply rm_same. intros []. simpl. rewrite f_eqb.
  eapply (rm_bind fm); [destruct (d_key d0 =? id); [done|apply rn_dslot_load]|]. intros m1. rewrite fm_dhp, deref_map. eapply rm_bind; [done|]. intros d. simpl.
  apply rm_same. intros []. eapply rm_bind; [apply rn_take_nodes|]. intros [l m2]. unfold flm. simpl. by rewrite fm_set_dhp.
Qed.

(** *** The interpreter *)
Context (sup' : nat -> Z) (Hsup : forall n, sup' n = f (g_sup G n)).
Notation G' := (with_sup sup' G).

Definition fei (ei : einfo) : einfo := EInfo (f (ei_id ei)) (fx <$> ei_ex ei) (fv <$> ei_loc ei).

Lemma rn_gnew g : gnew G' (fg g) = (f (fst (gnew G g)), fg (snd (gnew G g))).
Proof. unfold gnew. simpl. by rewrite Hsup. Qed.
Lemma rn_on_mem h h' (s : mem * glob) : (forall m, h' (fm m) = rmap fm (h m)) -> on_mem M h' (fmg s) = rmap fmg (on_mem M h s).
Proof. intros H. unfold on_mem. eapply rm_bind; [apply H|]. done. Qed.
Lemma rn_load_items o id its its' : Forall2 itlike its its' -> forall s : mem * glob, load_items M o (f id) its' (fmg s) = rmap fmg (load_items M o id its s).
Proof. induction 1 as [|it it' its its' H _ IH]; intros s; cbn [load_items]; [done|]. eapply rm_bind; [by apply rn_load|]. done. Qed.
Lemma rn_id_load id its its' : Forall2 itlike its its' -> forall s : mem * glob, id_load M (f id) its' (fmg s) = rmap fmg (id_load M id its s).
Proof. intros H s. unfold id_load. rewrite f_eqb0. destruct (id =? 0); [done|]. by apply rn_load_items. Qed.
Definition fis (x : Z * (mem * glob)) : Z * (mem * glob) := (f (fst x), fmg (snd x)).
Lemma rn_import cat v (s : mem * glob) : import_ec G' M cat (fc cat v) (fmg s) = rmap fis (import_ec G M cat v s).
Proof.
  unfold import_ec. rewrite fc_eqb0. destruct (v =? 0); [unfold fis; simpl; by rewrite (f_zero _ F)|]. unfold fc. destruct (cat =? LEAFCAT)%nat eqn:E.
  - rewrite (f_low _ F). apply rm_same. intros []. unfold fis. simpl. by rewrite (f_mk _ F).
  - destruct s as [m g]. cbn [fst snd fmg]. rewrite rn_gnew. destruct (gnew G g) as [id g1]. cbn [fst snd]. eapply (rm_bind fmg).
    + apply (rn_load false id (IVal T_EC (VEC cat v))). simpl. unfold fc. by rewrite E.
    + intros s1. unfold fis. simpl. by rewrite (f_mk _ F).
Qed.
Lemma rn_err_id r (s : mem * glob) : err_id_of G' M (fr r) (fmg s) = rmap fis (err_id_of G M r s).
Proof.
  destruct r; cbn [fr err_id_of]; [|unfold fis; simpl; by rewrite (f_mk _ F)..|apply rn_import]. unfold fis. simpl. by rewrite (f_zero _ F).
Qed.
Lemma rn_unload_ret r (s : mem * glob) : unload_ret M (fr r) (fmg s) = rmap fos (unload_ret M r s).
Proof.
  destruct r as [| |id l ex|]; cbn [fr unload_ret]; try done. rewrite (f_mk _ F). eapply rm_bind; [apply rn_cap_unload|]. intros s1. by destruct ex.
Qed.
Lemma rn_throw_leaf id x (s : mem * glob) : throw_leaf M (f id) (fxs x) (fmg s) = fos (throw_leaf M id x s).
Proof. done. Qed.
Lemma rn_throw_plain x (s : mem * glob) : throw_plain M (fxs x) (fmg s) = fos (throw_plain M x s).
Proof. done. Qed.
Lemma rn_exn_destroy x g : exn_destroy (fx x) (fg g) = fg (exn_destroy x g).
Proof.
  unfold exn_destroy. simpl. destruct (x_leaf x) as [id|]; simpl; [|done]. destruct (bool_decide _); [|done]. rewrite f_eqb.
  destruct (cur g =? id); [|done]. unfold set_clr, set_cur, fg. simpl. by rewrite (f_zero _ F).
Qed.
Lemma rn_release caught x o g : release (fx <$> caught) (fx x) (fo o) (fg g) = fg (release caught x o g).
Proof.
  unfold release. replace (same_exn (fx x) (fx <$> caught)) with (same_exn x caught) by (by destruct caught).
  replace (same_exn (fx x) (held_exn (fo o))) with (same_exn x (held_exn o)) by (destruct o as [[| |? ? []|]|]; done).
  destruct (_ || _); [done|apply rn_exn_destroy].
Qed.
Lemma rn_catch_info x g : catch_info (fx x) (fg g) = (let '(id, ex, g') := catch_info x g in (f id, fx <$> ex, fg g')).
Proof.
  unfold catch_info. simpl. destruct (x_std x); [|by rewrite (f_mk _ F)]. destruct (x_leaf x); simpl; [done|]. destruct (x_eid x); simpl; [done|]. by rewrite (f_mk _ F).
Qed.
Lemma rn_peek T c ei (m : mem) : peek G' M T c (fei ei) (fm m) = rmap (fmap fv) (peek G M T c ei m).
Proof.
  unfold peek. simpl. rewrite f_eqb0. destruct (ei_id ei =? 0); [done|]. eapply rm_bind; [apply rn_get|]. intros [v|]; [done|]. simpl. f_equal.
  destruct (ei_ex ei) as [x|]; [|done]. simpl. destruct (negb _); [done|]. destruct (T =? T_EC)%nat; [by destruct (x_code x) as [[]|]|]. by destruct (bool_decide _).
Qed.
Lemma rn_shown c ei (m : mem) : shown G' M c (fei ei) (fm m) = rmap (map ftv) (shown G M c ei m).
Proof. unfold shown. simpl. destruct (g_diag G); [apply rn_print|done]. Qed.
Lemma rn_arg a a' c ei (m : mem) : hlike a a' -> arg_get G' M a' c (fei ei) (fm m) = rmap (fmap fa) (arg_get G M a c ei m).
Proof.
  destruct a, a'; cbn [hlike]; try done; cbn [arg_get].
  - intros <-. eapply rm_bind; [apply rn_peek|]. by intros [].
  - intros <-. eapply rm_bind; [apply rn_peek|]. done.
  - intros [<- H]. eapply rm_bind; [apply rn_peek|]. intros [v|]; [|done]. simpl. rewrite H. by destruct (f0 v).
  - intros <-. simpl. destruct (ei_ex ei) as [x|]; [|done]. simpl. destruct cls; [done|]. by destruct (existsb _ _).
  - intros [H1 H2]. simpl. destruct (ei_ex ei) as [x|]; [|done]. simpl. destruct (bool_decide _); [|done]. rewrite H1. destruct (info x); [|done]. rewrite H2. by destruct (f0 z).
  - intros _. eapply rm_bind; [apply rn_shown|]. done.
  - intros _. eapply rm_bind; [apply rn_shown|]. intros l. simpl. eapply (rm_bind (map ftv)); [|done]. destruct (_ && _); [apply rn_details|done].
Qed.
Lemma rn_args l l' c ei (m : mem) : Forall2 hlike l l' -> args_get G' M l' c (fei ei) (fm m) = rmap (fmap (map fa)) (args_get G M l c ei m).
Proof.
  induction 1 as [|a a' l l' H _ IH]; cbn [args_get]; [done|]. eapply rm_bind; [by apply rn_arg|]. intros [v|]; [|done]. simpl.
  eapply rm_bind; [apply IH|]. by intros [].
Qed.
Lemma rn_set_all c id l : forall m : mem, set_all M c (f id) (map ftv l) (fm m) = rmap fm (set_all M c id l m).
Proof. induction l as [|[T v] l IH]; intros m; cbn [set_all map ftv fst snd]; [done|]. eapply rm_bind; [apply rn_set|]. done. Qed.
Lemma rn_mutable l l' T : Forall2 hlike l l' -> mutable l' T = mutable l T.
Proof. unfold mutable. induction 1 as [|a a' l l' H _ IH]; simpl; [done|]. rewrite IH. f_equal. destruct a, a'; simpl in *; by subst. Qed.
Lemma rn_writes args args' l : Forall2 hlike args args' -> writes args' (map ftv l) = map ftv (writes args l).
Proof.
  intros H. unfold writes. induction l as [|[T v] l IH]; simpl; [done|]. rewrite (rn_mutable _ _ _ H), IH. by destruct (mutable args T).
Qed.
Lemma rn_types args args' : Forall2 hlike args args' -> map (context_types G') args' = map (context_types G) args.
Proof. induction 1 as [|a a' l l' H _ IH]; simpl; [done|]. rewrite IH. f_equal. destruct a, a'; simpl in *; try done; destruct_and?; by subst. Qed.
Lemma rn_deduce hs hs' : likeH hs hs' -> deduce G' hs' = deduce G hs.
Proof.
  intros H. unfold deduce. change (deduce_list G') with (deduce_list G). f_equal. f_equal. revert hs' H.
  induction hs as [|args w b rest IH|hs1 IH1 rest IH]; intros [] H; cbn [likeH handlers_args] in *; try done.
  - destruct H as (H1 & _ & _ & H2). rewrite !map_app. f_equal; [by apply rn_types|auto].
  - destruct H as [H1 H2]. rewrite !map_app. f_equal; auto.
Qed.
Definition fes (x : einfo * (mem * glob)) : einfo * (mem * glob) := (fei (fst x), fmg (snd x)).
Lemma rn_exn_info c x (s : mem * glob) : exn_info M c (fx x) (fmg s) = rmap fes (exn_info M c x s).
Proof.
  unfold exn_info. eapply rm_bind; [apply rn_on_mem, rn_deact|]. intros [m1 g1]. simpl. rewrite rn_catch_info. destruct (catch_info x g1) as [[id ex] g].
  eapply rm_bind; [apply rn_get|]. done.
Qed.
Lemma rn_unload_rethrow c id x (s : mem * glob) : unload_rethrow M c (f id) (fx x) (fmg s) = rmap fos (unload_rethrow M c id x s).
Proof. unfold unload_rethrow. eapply rm_bind; [apply rn_unload|]. done. Qed.
Lemma rn_leave c o (s : mem * glob) : leave M c (fo o) (fmg s) = rmap fos (leave M c o s).
Proof. unfold leave. eapply rm_bind; [apply rn_on_mem, rn_destroy|]. done. Qed.
Lemma rn_deact_leave c o (s : mem * glob) : deact_leave M c (fo o) (fmg s) = rmap fos (deact_leave M c o s).
Proof. unfold deact_leave. eapply rm_bind; [apply rn_on_mem, rn_deact|]. intros. apply rn_leave. Qed.
Lemma is_val_fr r : is_val (fr r) = is_val r.
Proof. by destruct r. Qed.
Lemma rn_ths_end c o (s : mem * glob) : ths_end G' M c (fo o) (fmg s) = rmap fos (ths_end G M c o s).
Proof.
  unfold ths_end. destruct o as [r|x]; simpl fo; cbv iota; [|apply (rn_leave c (OThrow x))]. rewrite is_val_fr. destruct (is_val r); [apply (rn_leave c (ORet r))|].
  eapply rm_bind; [apply rn_err_id|]. intros [id [m1 g1]]. cbn [fst snd fis fmg]. eapply rm_bind; [apply rn_unload|]. intros. apply (rn_leave c (ORet r)).
Qed.
Lemma rn_tha_end c o (s : mem * glob) : tha_end M c (fo o) (fmg s) = rmap fos (tha_end M c o s).
Proof.
  unfold tha_end. destruct o as [r|x]; simpl fo; cbv iota; [|apply (rn_leave c (OThrow x))]. rewrite is_val_fr. destruct (is_val r); [apply (rn_leave c (ORet r))|done].
Qed.
Definition fri (i : (einfo * ret * (mem * glob)) + (exn * (mem * glob))) : (einfo * ret * (mem * glob)) + (exn * (mem * glob)) :=
  match i with inl (ei, r, s) => inl (fei ei, fr r, fmg s) | inr (x, s) => inr (fx x, fmg s) end.
Lemma rn_res_info c r (s : mem * glob) : res_info G' M c (fr r) (fmg s) = rmap fri (res_info G M c r s).
Proof.
  unfold res_info. eapply rm_bind; [apply rn_unload_ret|]. intros [[r1|x] s1]; [|done]. cbn [fos fo fst snd].
  eapply rm_bind; [apply rn_err_id|]. intros [id s2]. cbn [fst snd fis]. eapply rm_bind; [apply rn_on_mem, rn_deact|]. intros s3.
  eapply rm_bind; [apply rn_get|]. done.
Qed.
Lemma rn_slices cls x : Forall2 itlike (slices cls x) (slices cls (fx x)).
Proof. unfold slices. simpl. induction (filter _ _); simpl; constructor; [done|]. auto. Qed.
Lemma rn_e2r cls x (s : mem * glob) : e2r G' M cls (fx x) (fmg s) = rmap fos (e2r G M cls x s).
Proof.
  unfold e2r. destruct s as [m g]. cbn [fst snd fmg]. rewrite rn_gnew. destruct (gnew G g) as [id g1]. cbn [fst snd]. rewrite (f_mk _ F).
  eapply (rm_bind fmg); [|done]. apply (rn_id_load (mk id) _ _) with (s := (m, g1)). constructor; [done|]. simpl. destruct (x_std x); [apply rn_slices|constructor].
Qed.

Theorem rn_eval :
  (forall p p' caught (s : mem * glob), like p p' -> eval G' M (fx <$> caught) p' (fmg s) = rmap fos (eval G M caught p s)) /\
  (forall hs hs' caught c ei (d d' : mem * glob -> _) (s : mem * glob), likeH hs hs' -> (forall s, d' (fmg s) = rmap fos (d s)) ->
     evalH G' M (fx <$> caught) hs' c (fei ei) d' (fmg s) = rmap fos (evalH G M caught hs c ei d s)).
Proof.
  apply prog_handlers_ind.
  - intros r []; try done. intros caught s ->. done.
  - intros p IH k IHk []; try done. intros caught s [H1 H2]. cbn [eval]. eapply rm_bind; [by apply IH|]. intros [[r|x] s1]; [by apply IHk|done].
  - intros z k IH []; try done. intros caught [m g] [<- H]. cbn [eval]. by apply (IH _ caught (m, emit (EvUser z) g)).
  - intros its k IH []; try done. intros caught [m g] [H1 H2]. cbn [eval fst snd fmg]. rewrite rn_gnew. destruct (gnew G g) as [id g1]. cbn [fst snd]. rewrite (f_mk _ F).
    eapply rm_bind; [by apply (rn_id_load _ its its0) with (s := (m, g1))|]. intros s1. by apply IH.
  - intros id its k IH []; try done. intros caught s (-> & H1 & H2). cbn [eval]. eapply rm_bind; [by apply rn_id_load|]. intros s1. by apply IH.
  - intros k IH []; try done. intros caught [m g] H. cbn [eval fst snd fmg]. simpl cur. rewrite (f_mk _ F). by apply (IH _ _ caught (m, g)).
  - intros id x its []; try done. intros caught [m g] (-> & -> & H). cbn [eval fst snd fmg]. rewrite rn_gnew. destruct id as [id|]; simpl.
    + eapply rm_bind; [by apply (rn_id_load id its its0) with (s := (m, g))|]. done.
    + rewrite (f_mk _ F). eapply rm_bind; [by apply (rn_id_load _ its its0) with (s := (m, snd (gnew G g)))|]. done.
  - intros x []; try done. intros caught s ->. done.
  - intros []; try done. intros [x|] s _; done.
  - intros p IH h IHh []; try done. intros caught s [H1 H2]. cbn [eval]. eapply rm_bind; [by apply IH|]. intros [[r|x] s1]; [done|]. cbn [fos fo fst snd].
    eapply rm_bind; [by apply (IHh x _ (Some x))|]. intros [o [m2 g2]]. cbn [fos fmg fst snd rmap]. by rewrite rn_release.
  - intros its p IH []; try done. intros caught [m g] [H1 H2]. cbn [eval fst snd fmg]. eapply rm_bind; [by apply (IH _ caught (m, g))|]. intros [o [m1 g1]].
    cbn [fos fmg fst snd]. change (cur (fg g1)) with (f (cur g1)). change (cur (fg g)) with (f (cur g)). rewrite f_eqb.
    assert ((if negb (cur g1 =? cur g) then (f (cur g1), fg g1) else match fo o with OThrow _ => gnew G' (fg g1) | ORet _ => (0, fg g1) end) =
      (f (fst (if negb (cur g1 =? cur g) then (cur g1, g1) else match o with OThrow _ => gnew G g1 | ORet _ => (0, g1) end)),
       fg (snd (if negb (cur g1 =? cur g) then (cur g1, g1) else match o with OThrow _ => gnew G g1 | ORet _ => (0, g1) end)))) as ->.
    { destruct (negb _); [done|]. destruct o; simpl; [by rewrite (f_zero _ F)|apply rn_gnew]. }
    destruct (if negb (cur g1 =? cur g) then _ else _) as [id g2]. cbn [fst snd]. rewrite f_eqb0. destruct (id =? 0); [done|].
    eapply rm_bind; [by apply (rn_load_items true id its its0) with (s := (m1, g2))|]. done.
  - intros k IH []; try done. intros caught [m g] H. cbn [eval fst snd fmg]. apply (IH _ _ caught (m, g)). exact (H (cur g)).
  - intros m0 k IH [| | | | | | | | | | | |m0' k'|m0' k'| | | | | | | | | | | | |]; try done. intros caught [m g] [-> H]. cbn [eval fst snd fmg]. change (cur (fg g)) with (f (cur g)). rewrite f_eqb.
    replace (mk (if negb (cur g =? m0) then f (cur g) else 0)) with (f (mk (if negb (cur g =? m0) then cur g else 0))) by (rewrite <- (f_mk _ F); destruct (negb _); [done|by rewrite (f_zero _ F)]).
    by apply (IH _ _ caught (m, g)).
  - intros m0 k IH [| | | | | | | | | | | |m0' k'|m0' k'| | | | | | | | | | | | |]; try done. intros caught [m g] [-> H]. cbn [eval fst snd fmg]. change (cur (fg g)) with (f (cur g)). rewrite f_eqb, rn_gnew.
    destruct (gnew G g) as [id g1]. cbn [fst snd]. rewrite !(f_mk _ F). destruct (negb _); [by apply (IH _ _ caught (m, g))|by apply (IH _ _ caught (m, g1))].
  - (* PTHA *) intros p IH hs IHh []; try done. intros caught [m g] [H1 H2]. cbn [eval fst snd fmg]. rewrite (rn_deduce _ _ H2). cbn [m_new pmach]. rewrite rn_new.
    destruct (mnew G (deduce G hs) m) as [c m1]. cbn [fst snd]. eapply rm_bind; [apply (rn_on_mem (mact G c) _ (m1, g)), rn_act|]. intros s1.
    eapply rm_bind; [by apply IH|]. intros os. eapply (rm_bind fos); [destruct os as [[r|x] s2]; [apply rn_unload_ret|done]|].
    intros [[r|x] s2]; cbn [fos fo fst snd].
    + rewrite is_val_fr. destruct (is_val r); [apply (rn_deact_leave c (ORet r))|]. eapply rm_bind; [apply rn_res_info|]. intros [[[ei r1] s3]|[x s3]]; cbn [fri].
      * eapply rm_bind; [apply IHh; [done|done]|]. intros [o s4]. apply rn_tha_end.
      * apply (rn_deact_leave c (OThrow x)).
    + eapply rm_bind; [apply rn_exn_info|]. intros [ei s3]. cbn [fes fst snd]. eapply rm_bind; [apply (IHh _ (Some x)); [done|intros; apply rn_unload_rethrow]|].
      intros [o s4]. apply rn_tha_end.
  - (* PTHS *) intros p IH hs IHh []; try done. intros caught [m g] [H1 H2]. cbn [eval fst snd fmg]. rewrite (rn_deduce _ _ H2). cbn [m_new pmach]. rewrite rn_new.
    destruct (mnew G (deduce G hs) m) as [c m1]. cbn [fst snd]. eapply rm_bind; [apply (rn_on_mem (mact G c) _ (m1, g)), rn_act|]. intros s1.
    eapply rm_bind; [by apply IH|]. intros os. eapply (rm_bind fos); [destruct os as [[r|x] s2]; [apply rn_unload_ret|done]|].
    intros [[r|x] s2]; cbn [fos fo fst snd].
    + rewrite is_val_fr. destruct (is_val r); [apply (rn_deact_leave c (ORet r))|]. eapply rm_bind; [apply rn_res_info|]. intros [[[ei r1] s3]|[x s3]]; cbn [fri].
      * eapply rm_bind; [apply IHh; [done|done]|]. intros [o s4]. apply rn_ths_end.
      * apply (rn_deact_leave c (OThrow x)).
    + eapply rm_bind; [apply rn_exn_info|]. intros [ei s3]. cbn [fes fst snd]. eapply rm_bind; [apply (IHh _ (Some x)); [done|intros; apply rn_unload_rethrow]|].
      intros [o s4]. apply rn_ths_end.
  - (* PTC *) intros p IH hs IHh []; try done. intros caught [m g] [H1 H2]. cbn [eval fst snd fmg]. rewrite (rn_deduce _ _ H2). cbn [m_new pmach]. rewrite rn_new.
    destruct (mnew G (deduce G hs) m) as [c m1]. cbn [fst snd]. eapply rm_bind; [apply (rn_on_mem (mact G c) _ (m1, g)), rn_act|]. intros s1.
    eapply rm_bind; [by apply IH|]. intros [[r|x] s2]; cbn [fos fo fst snd]; [apply (rn_deact_leave c (ORet r))|].
    eapply rm_bind; [apply rn_exn_info|]. intros [ei s3]. cbn [fes fst snd]. eapply rm_bind; [apply (IHh _ (Some x)); [done|intros; apply rn_unload_rethrow]|].
    intros [o s4]. apply rn_leave.
  - (* PCapture *) intros b p IH []; try done. intros caught [m g] [<- H]. cbn [eval]. simpl g_capture. destruct (negb _); [done|]. cbn [fst snd fmg m_new pmach]. rewrite rn_new.
    destruct (mnew G [SDA] m) as [c m1]. cbn [fst snd]. eapply rm_bind; [apply (rn_on_mem (mact G c) _ (m1, g)), rn_act|]. intros s1.
    eapply rm_bind; [by apply IH|]. intros [[r|x] s2]; cbn [fos fo fst snd].
    + destruct b.
      * rewrite is_val_fr. destruct (is_val r); [|done]. eapply rm_bind; [apply rn_on_mem, rn_drop|]. done.
      * replace (bool_decide (fx <$> caught ≠ None)) with (bool_decide (caught ≠ None)) by (by destruct caught).
        destruct r as [z|id|id l ex|]; cbn [fr]; [apply (rn_deact_leave c (ORet (RVal z)))| | |done]; rewrite (f_mk _ F);
          (eapply rm_bind; [apply rn_on_mem, rn_deact|]; intros s3; eapply rm_bind; [apply rn_extract|]; intros [l1 m4]; apply (rn_leave c (ORet (RCap (mk id) l1 caught)) (m4, snd s3))).
    + eapply rm_bind; [apply rn_on_mem, rn_deact|]. intros [m3 g3]. cbn [fst snd fmg]. rewrite rn_catch_info. destruct (catch_info x g3) as [[id ex] g4].
      eapply rm_bind; [apply rn_extract|]. intros [l1 m4]. apply (rn_leave c (ORet (RCap id l1 (Some x))) (m4, g4)).
  - intros r k IH []; try done. intros caught s [-> H]. cbn [eval]. eapply rm_bind; [apply rn_unload_ret|]. intros [[r1|x] s1]; [by apply IH|done].
  - intros r k IH []; try done. intros caught s [-> H]. cbn [eval].
    destruct r as [z|id|id l ex|]; cbn [fr]; [by apply IH| | |done]; rewrite (f_mk _ F).
    + eapply rm_bind; [apply (rn_unload_ret (RErr id))|]. intros [[r1|x] s1]; done.
    + eapply rm_bind; [apply (rn_unload_ret (RCap id l ex))|]. intros [[r1|x] s1]; done.
  - intros r k IH []; try done. intros caught s [-> H]. cbn [eval]. eapply rm_bind; [apply rn_err_id|]. intros [id s1]. apply IH, H.
  - intros cls p IH []; try done. intros caught s [<- H]. cbn [eval]. eapply rm_bind; [by apply IH|]. intros [[r|x] s1]; [done|apply rn_e2r].
  - intros cat v k IH []; try done. intros caught s (<- & -> & H). cbn [eval]. eapply rm_bind; [apply rn_import|]. intros [id s1]. apply IH, H.
  - (* PCtx *) intros tup k IH []; try done. intros caught [m g] [<- H]. cbn [eval fst snd fmg m_new pmach]. change (deduce_list G') with (deduce_list G). rewrite rn_new.
    destruct (mnew G (deduce_list G tup) m) as [c m1]. cbn [fst snd]. eapply rm_bind; [by apply (IH c _ caught (m1, g))|]. intros [o s1]. apply rn_leave.
  - (* PAct *) intros c p IH []; try done. intros caught s [<- H]. cbn [eval]. apply rm_same. intros [|]; [by apply IH|].
    eapply rm_bind; [apply rn_on_mem, rn_act|]. intros s1. eapply rm_bind; [by apply IH|]. intros [o s2]. apply rm_same. intros [|]; [|done].
    eapply rm_bind; [apply rn_on_mem, rn_deact|]. done.
  - intros c id k IH []; try done. intros caught s (<- & -> & H). cbn [eval]. eapply rm_bind; [apply rn_unload|]. intros s1. by apply IH.
  - intros c id hs IH []; try done. intros caught s (<- & -> & H). cbn [eval]. apply rm_same. intros a. apply rm_same. intros []. eapply rm_bind; [apply rn_get|].
    intros loc. by apply (IH _ caught c (EInfo id None loc)).
  - intros [] caught c ei d d' s H Hd; [apply Hd|done..].
  - intros args w b IH rest IHr [] caught c ei d d' [m g]; try done. intros (H1 & H2 & H3 & H4) Hd. cbn [evalH fst snd fmg].
    eapply rm_bind; [by apply rn_args|]. intros [l|]; [|by apply (IHr _ caught c ei d d' (m, g))]. cbn [fmap option_fmap option_map]. rewrite H2, (rn_writes _ _ _ H1).
    eapply rm_bind; [apply rn_set_all|]. intros m1. by apply (IH l _ caught (m1, g)).
  - intros hs1 IH1 rest IHr [] caught c ei d d' s; try done. intros [H1 H2] Hd. cbn [evalH]. apply IH1; [done|]. intros. by apply IHr.
Qed.

(** ** The same for builds without exceptions *)
Definition frs (x : ret * (mem * glob)) : ret * (mem * glob) := (fr (fst x), fmg (snd x)).
Lemma rn_unload_retN r (s : mem * glob) : unload_retN M (fr r) (fmg s) = rmap frs (unload_retN M r s).
Proof. destruct r as [| |id l [x|]|]; cbn [fr unload_retN fmap option_fmap option_map]; try done. rewrite (f_mk _ F). eapply rm_bind; [apply rn_cap_unload|]. done. Qed.
Definition feiN (ei : einfoN) : einfoN := EInfoN (f (eiN_id ei)) (fv <$> eiN_loc ei).
Lemma rn_peekN T c ei (m : mem) : peekN M T c (feiN ei) (fm m) = rmap (fmap fv) (peekN M T c ei m).
Proof. unfold peekN. simpl. rewrite f_eqb0. destruct (eiN_id ei =? 0); [done|]. apply rn_get. Qed.
Lemma rn_argN a a' c ei (m : mem) : hlike a a' -> arg_getN G' M a' c (feiN ei) (fm m) = rmap (fmap fa) (arg_getN G M a c ei m).
Proof.
  destruct a, a'; cbn [hlike]; try done; cbn [arg_getN].
  - intros <-. eapply rm_bind; [apply rn_peekN|]. by intros [].
  - intros <-. eapply rm_bind; [apply rn_peekN|]. done.
  - intros [<- H]. eapply rm_bind; [apply rn_peekN|]. intros [v|]; [|done]. simpl. rewrite H. by destruct (f0 v).
  - intros _. eapply (rm_bind (map ftv)); [simpl; destruct (g_diag G); [apply rn_print|done]|]. done.
  - intros _. eapply (rm_bind (map ftv)); [simpl; destruct (g_diag G); [apply rn_print|done]|]. intros l.
    eapply (rm_bind (map ftv)); [simpl; destruct (_ && _); [apply rn_details|done]|]. done.
Qed.
Lemma rn_argsN l l' c ei (m : mem) : Forall2 hlike l l' -> args_getN G' M l' c (feiN ei) (fm m) = rmap (fmap (map fa)) (args_getN G M l c ei m).
Proof.
  induction 1 as [|a a' l l' H _ IH]; cbn [args_getN]; [done|]. eapply rm_bind; [by apply rn_argN|]. intros [v|]; [|done]. simpl.
  eapply rm_bind; [apply IH|]. by intros [].
Qed.
Definition friN (i : einfoN * ret * (mem * glob)) : einfoN * ret * (mem * glob) := (feiN (fst (fst i)), fr (snd (fst i)), fmg (snd i)).
Lemma rn_res_infoN c r (s : mem * glob) : res_infoN G' M c (fr r) (fmg s) = rmap friN (res_infoN G M c r s).
Proof.
  unfold res_infoN. eapply rm_bind; [apply rn_unload_retN|]. intros [r1 s1]. cbn [frs fst snd].
  eapply rm_bind; [apply rn_err_id|]. intros [id s2]. cbn [fst snd fis]. eapply rm_bind; [apply rn_on_mem, rn_deact|]. intros s3.
  apply rm_same. intros a. apply rm_same. intros []. eapply rm_bind; [apply rn_get|]. done.
Qed.
Theorem rn_evalN :
  (forall p p' (s : mem * glob), like p p' -> evalN G' M p' (fmg s) = rmap fos (evalN G M p s)) /\
  (forall hs hs' c ei (d d' : mem * glob -> _) (s : mem * glob), likeH hs hs' -> (forall s, d' (fmg s) = rmap fos (d s)) ->
     evalHN G' M hs' c (feiN ei) d' (fmg s) = rmap fos (evalHN G M hs c ei d s)).
Proof.
  apply prog_handlers_ind.
  - intros r []; try done. intros s ->. done.
  - intros p IH k IHk []; try done. intros s [H1 H2]. cbn [evalN]. eapply rm_bind; [by apply IH|]. intros [[r|x] s1]; [by apply IHk|done].
  - intros z k IH []; try done. intros [m g] [<- H]. cbn [evalN]. by apply (IH _ (m, emit (EvUser z) g)).
  - intros its k IH []; try done. intros [m g] [H1 H2]. cbn [evalN fst snd fmg]. rewrite rn_gnew. destruct (gnew G g) as [id g1]. cbn [fst snd]. rewrite (f_mk _ F).
    eapply rm_bind; [by apply (rn_id_load _ its its0) with (s := (m, g1))|]. intros s1. by apply IH.
  - intros id its k IH []; try done. intros s (-> & H1 & H2). cbn [evalN]. eapply rm_bind; [by apply rn_id_load|]. intros s1. by apply IH.
  - intros k IH []; try done. intros [m g] H. cbn [evalN fst snd fmg]. simpl cur. rewrite (f_mk _ F). by apply (IH _ _ (m, g)).
  - intros id x its []; try done. intros [m g] (-> & -> & H). cbn [evalN fst snd fmg]. rewrite rn_gnew. destruct id as [id|]; simpl.
    + eapply rm_bind; [by apply (rn_id_load id its its0) with (s := (m, g))|]. done.
    + rewrite (f_mk _ F). eapply rm_bind; [by apply (rn_id_load _ its its0) with (s := (m, snd (gnew G g)))|]. done.
  - intros x []; done.
  - intros []; done.
  - intros p IH h IHh []; done.
  - intros its p IH []; try done. intros [m g] [H1 H2]. cbn [evalN fst snd fmg]. eapply rm_bind; [by apply (IH _ (m, g))|]. intros [[r|x] [m1 g1]]; [|done].
    cbn [fos fo fmg fst snd]. change (cur (fg g1)) with (f (cur g1)). change (cur (fg g)) with (f (cur g)). rewrite f_eqb.
    replace (if negb (cur g1 =? cur g) then f (cur g1) else 0) with (f (if negb (cur g1 =? cur g) then cur g1 else 0)) by (destruct (negb _); [done|by rewrite (f_zero _ F)]).
    rewrite f_eqb0. destruct (_ =? 0); [done|]. eapply rm_bind; [by apply (rn_load_items true _ its its0) with (s := (m1, g1))|]. done.
  - intros k IH []; try done. intros [m g] H. cbn [evalN fst snd fmg]. apply (IH _ _ (m, g)). exact (H (cur g)).
  - intros m0 k IH [| | | | | | | | | | | |m0' k'|m0' k'| | | | | | | | | | | | |]; try done. intros [m g] [-> H]. cbn [evalN fst snd fmg]. change (cur (fg g)) with (f (cur g)). rewrite f_eqb.
    replace (mk (if negb (cur g =? m0) then f (cur g) else 0)) with (f (mk (if negb (cur g =? m0) then cur g else 0))) by (rewrite <- (f_mk _ F); destruct (negb _); [done|by rewrite (f_zero _ F)]).
    by apply (IH _ _ (m, g)).
  - intros m0 k IH [| | | | | | | | | | | |m0' k'|m0' k'| | | | | | | | | | | | |]; try done. intros [m g] [-> H]. cbn [evalN fst snd fmg]. change (cur (fg g)) with (f (cur g)). rewrite f_eqb, rn_gnew.
    destruct (gnew G g) as [id g1]. cbn [fst snd]. rewrite !(f_mk _ F). destruct (negb _); [by apply (IH _ _ (m, g))|by apply (IH _ _ (m, g1))].
  - (* PTHA *) intros p IH hs IHh []; try done. intros [m g] [H1 H2]. cbn [evalN fst snd fmg]. rewrite (rn_deduce _ _ H2). cbn [m_new pmach]. rewrite rn_new.
    destruct (mnew G (deduce G hs) m) as [c m1]. cbn [fst snd]. eapply rm_bind; [apply (rn_on_mem (mact G c) _ (m1, g)), rn_act|]. intros s1.
    eapply rm_bind; [by apply IH|]. intros [[r|x] s2]; cbn [fos fo fst snd]; [|done].
    rewrite is_val_fr. destruct (is_val r); [apply (rn_deact_leave c (ORet r))|]. eapply rm_bind; [apply rn_res_infoN|]. intros [[ei r1] s3]. cbn [friN fst snd].
    eapply rm_bind; [apply IHh; [done|done]|]. intros [[r2|x] s4]; cbn [fos fo fst snd]; [|done]. rewrite is_val_fr. destruct (is_val r2); [apply (rn_leave c (ORet r2))|done].
  - (* PTHS *) intros p IH hs IHh []; try done. intros [m g] [H1 H2]. cbn [evalN fst snd fmg]. rewrite (rn_deduce _ _ H2). cbn [m_new pmach]. rewrite rn_new.
    destruct (mnew G (deduce G hs) m) as [c m1]. cbn [fst snd]. eapply rm_bind; [apply (rn_on_mem (mact G c) _ (m1, g)), rn_act|]. intros s1.
    eapply rm_bind; [by apply IH|]. intros [[r|x] s2]; cbn [fos fo fst snd]; [|done].
    rewrite is_val_fr. destruct (is_val r); [apply (rn_deact_leave c (ORet r))|]. eapply rm_bind; [apply rn_res_infoN|]. intros [[ei r1] s3]. cbn [friN fst snd].
    eapply rm_bind; [apply IHh; [done|done]|]. intros [[r2|x] s4]; cbn [fos fo fst snd]; [|done]. rewrite is_val_fr. destruct (is_val r2); [apply (rn_leave c (ORet r2))|].
    eapply rm_bind; [apply rn_err_id|]. intros [id [m5 g5]]. cbn [fst snd fis fmg]. eapply rm_bind; [apply rn_unload|]. intros. apply (rn_leave c (ORet r2)).
  - (* PTC *) intros p IH hs IHh []; try done. intros s [H1 H2]. cbn [evalN]. by apply IH.
  - (* PCapture *) intros b p IH []; try done. intros [m g] [<- H]. cbn [evalN]. simpl g_capture. destruct (negb _); [done|]. cbn [fst snd fmg m_new pmach]. rewrite rn_new.
    destruct (mnew G [SDA] m) as [c m1]. cbn [fst snd]. eapply rm_bind; [apply (rn_on_mem (mact G c) _ (m1, g)), rn_act|]. intros s1.
    eapply rm_bind; [by apply IH|]. intros [[r|x] s2]; cbn [fos fo fst snd]; [|done]. destruct b.
    + rewrite is_val_fr. destruct (is_val r); [|done]. eapply rm_bind; [apply rn_on_mem, rn_drop|]. done.
    + destruct r as [z|id|id l ex|]; cbn [fr]; [apply (rn_deact_leave c (ORet (RVal z)))| | |done]; rewrite (f_mk _ F);
        (eapply rm_bind; [apply rn_on_mem, rn_deact|]; intros s3; eapply rm_bind; [apply rn_extract|]; intros [l1 m4]; apply (rn_leave c (ORet (RCap (mk id) l1 None)) (m4, snd s3))).
  - intros r k IH []; try done. intros s [-> H]. cbn [evalN]. eapply rm_bind; [apply rn_unload_retN|]. intros [r1 s1]. apply IH, H.
  - intros r k IH []; try done. intros s [-> H]. cbn [evalN].
    destruct r as [z|id|id l ex|]; cbn [fr]; [by apply IH| | |done]; rewrite (f_mk _ F).
    + eapply rm_bind; [apply (rn_unload_retN (RErr id))|]. done.
    + eapply rm_bind; [apply (rn_unload_retN (RCap id l ex))|]. done.
  - intros r k IH []; try done. intros s [-> H]. cbn [evalN]. eapply rm_bind; [apply rn_err_id|]. intros [id s1]. apply IH, H.
  - intros cls p IH []; done.
  - intros cat v k IH []; try done. intros s (<- & -> & H). cbn [evalN]. eapply rm_bind; [apply rn_import|]. intros [id s1]. apply IH, H.
  - (* PCtx *) intros tup k IH []; try done. intros [m g] [<- H]. cbn [evalN fst snd fmg m_new pmach]. change (deduce_list G') with (deduce_list G). rewrite rn_new.
    destruct (mnew G (deduce_list G tup) m) as [c m1]. cbn [fst snd]. eapply rm_bind; [by apply (IH c _ (m1, g))|]. intros [[r|x] s1]; [apply (rn_leave c (ORet r))|done].
  - (* PAct *) intros c p IH []; try done. intros s [<- H]. cbn [evalN]. apply rm_same. intros [|]; [by apply IH|].
    eapply rm_bind; [apply rn_on_mem, rn_act|]. intros s1. eapply rm_bind; [by apply IH|]. intros [[r|x] s2]; [|done]. apply rm_same. intros [|]; [|done].
    eapply rm_bind; [apply rn_on_mem, rn_deact|]. done.
  - intros c id k IH []; try done. intros s (<- & -> & H). cbn [evalN]. eapply rm_bind; [apply rn_unload|]. intros s1. by apply IH.
  - intros c id hs IH []; try done. intros s (<- & -> & H). cbn [evalN]. apply rm_same. intros a. apply rm_same. intros []. eapply rm_bind; [apply rn_get|].
    intros loc. by apply (IH _ c (EInfoN id loc)).
  - intros [] c ei d d' s H Hd; [apply Hd|done..].
  - intros args w b IH rest IHr [] c ei d d' [m g]; try done. intros (H1 & H2 & H3 & H4) Hd. cbn [evalHN fst snd fmg].
    eapply rm_bind; [by apply rn_argsN|]. intros [l|]; [|by apply (IHr _ c ei d d' (m, g))]. cbn [fmap option_fmap option_map]. rewrite H2, (rn_writes _ _ _ H1).
    eapply rm_bind; [apply rn_set_all|]. intros m1. by apply (IH l _ (m1, g)).
  - intros hs1 IH1 rest IHr [] c ei d d' s; try done. intros [H1 H2] Hd. cbn [evalHN]. apply IH1; [done|]. intros. by apply IHr.
Qed.
End ren.
