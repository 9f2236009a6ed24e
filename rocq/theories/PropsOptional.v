(** C39: error object storage never leaks or double-destroys. *)
From Verif Require Export Optional.
Open Scope Z_scope.

(** ** Specification: a cell is empty or has a key other than 0 and a value. *)
Notation contents := (gmap nat (option (Z * Z))).

(** Which operations a program may do: on cells that exist, with keys other than 0; objects are moved out only if they are there.
    A cell may be assigned to itself. *)
Definition allowed (op : oop) (m : contents) : Prop :=
  match op with
  | ONew c => m !! c = None
  | ONewCopy c x | ONewMove c x => m !! c = None /\ is_Some (m !! x)
  | ONewVal c k _ | ONewValMove c k _ => m !! c = None /\ k <> 0
  | OAssign c x | OAssignMove c x => is_Some (m !! c) /\ is_Some (m !! x)
  | ODestroy c | OReset c => is_Some (m !! c)
  | OLoad c k | OLoadVal c k _ | OLoadMove c k _ | ORead c k | OGetDefault c k => is_Some (m !! c) /\ k <> 0
  | OMoveOut c k => exists v, m !! c = Some (Some (k, v)) /\ k <> 0
  end.

(** What the operation does if no constructor throws. Assigning a cell to itself empties it. *)
Definition effect (dflt : Z) (op : oop) (m : contents) : contents :=
  match op with
  | ONew c => <[c := None]> m
  | ONewCopy c x => <[c := default None (m !! x)]> m
  | ONewMove c x => <[x := None]> (<[c := default None (m !! x)]> m)
  | ONewVal c k v | ONewValMove c k v | OLoadVal c k v | OLoadMove c k v => <[c := Some (k, v)]> m
  | OAssign c x => <[c := if decide (c = x) then None else default None (m !! x)]> m
  | OAssignMove c x => if decide (c = x) then <[c := None]> m else <[x := None]> (<[c := default None (m !! x)]> m)
  | ODestroy c => delete c m
  | OReset c | OMoveOut c _ => <[c := None]> m
  | OLoad c k => <[c := Some (k, dflt)]> m
  | ORead _ _ => m
  | OGetDefault c k => match m !! c with Some (Some (k', v)) => if decide (k' = k) then m else <[c := Some (k, dflt)]> m | _ => <[c := Some (k, dflt)]> m end
  end.
(** What it does if one throws: the cell is empty; if it was being constructed, it does not exist. *)
Definition effect_thrown (op : oop) (m : contents) : contents :=
  match op with
  | ONewCopy c _ | ONewVal c _ _ => delete c m
  | OAssign c _ | OLoad c _ | OLoadVal c _ _ => <[c := None]> m
  | _ => m
  end.

Definition occupied (m : contents) : nat := size (filter (fun kv => is_Some (snd kv)) m).

(** ** Proof *)
Definition good (x : ocell) : Prop := match o_obj x with Some _ => o_key x <> 0 | None => o_key x = 0 end.
Definition view (x : ocell) : option (Z * Z) := (fun v => (o_key x, v)) <$> o_obj x.
Record oinv (m : contents) (s : ostate) : Prop := {
  v_good : forall c x, o_cells s !! c = Some x -> good x;
  v_view : m = view <$> o_cells s;
  v_count : o_made s = (o_gone s + occupied m)%nat }.

Lemma occ_insert_none m c : m !! c = None \/ m !! c = Some None -> occupied (<[c := None]> m) = occupied m.
Proof.
  intros H. unfold occupied. f_equal. apply map_eq. intros i. destruct (decide (i = c)) as [->|Hn].
  - rewrite map_filter_insert_False by (simpl; by intros ?%is_Some_None).
    rewrite (proj2 (map_filter_lookup_None _ _ _)) by (left; apply lookup_delete).
    symmetry. apply map_filter_lookup_None. destruct H as [H|H]; [by left|]. right. intros x Hx. rewrite H in Hx. injection Hx as <-. simpl. by intros ?%is_Some_None.
  - rewrite map_filter_insert_False by (simpl; by intros ?%is_Some_None). by rewrite map_filter_delete, lookup_delete_ne.
Qed.
Lemma occ_insert_some m c x : m !! c = None \/ m !! c = Some None -> occupied (<[c := Some x]> m) = S (occupied m).
Proof.
  intros H. unfold occupied. rewrite map_filter_insert_True by (simpl; eauto). rewrite map_size_insert_None; [done|].
  apply map_filter_lookup_None. destruct H as [H|H]; [by left|]. right. intros y Hy. rewrite H in Hy. injection Hy as <-. simpl. by intros ?%is_Some_None.
Qed.
Lemma occ_insert_over m c x : m !! c = Some (Some x) -> S (occupied (<[c := None]> m)) = occupied m.
Proof.
  intros H. rewrite <- (insert_id m c (Some x) H) at 2. rewrite <- (insert_insert m c (Some x) None).
  rewrite (occ_insert_some (<[c := None]> m)); [done|]. right. by rewrite lookup_insert.
Qed.
Lemma occ_delete m c : m !! c = Some None \/ m !! c = None -> occupied (delete c m) = occupied m.
Proof.
  intros [H|H]; [|by rewrite delete_notin]. rewrite <- (insert_id m c None H) at 2. rewrite <- (insert_delete_insert m c None).
  symmetry. apply occ_insert_none. left. apply lookup_delete.
Qed.

(** Steps of the code in terms of contents *)
Lemma inv_lookup m s c : oinv m s -> (m !! c = None <-> o_cells s !! c = None).
Proof. intros I. rewrite (v_view _ _ I), lookup_fmap. by destruct (o_cells s !! c). Qed.
Lemma inv_some m s c o : oinv m s -> m !! c = Some o -> exists x, o_cells s !! c = Some x /\ view x = o /\ good x.
Proof.
  intros I H. rewrite (v_view _ _ I), lookup_fmap in H. destruct (o_cells s !! c) as [x|] eqn:E; [|done]. simpl in H. injection H as H.
  exists x. split; [done|]. split; [done|]. by eapply v_good.
Qed.
Lemma inv_empty m s c : oinv m s -> m !! c = Some None -> o_cells s !! c = Some (OCell 0 None).
Proof.
  intros I H. destruct (inv_some _ _ _ _ I H) as ([k [v|]] & E & Hv & Hg); simpl in *; [done|]. unfold good in Hg. simpl in Hg. by subst.
Qed.
Lemma inv_full m s c k v : oinv m s -> m !! c = Some (Some (k, v)) -> o_cells s !! c = Some (OCell k (Some v)) /\ k <> 0.
Proof.
  intros I H. destruct (inv_some _ _ _ _ I H) as ([k' [v'|]] & E & Hv & Hg); simpl in *; [|done]. unfold view in Hv. simpl in Hv. injection Hv as -> ->. done.
Qed.

Lemma reset_ok m s c : oinv m s -> is_Some (m !! c) -> exists s', reset c s = ODone s' /\ oinv (<[c := None]> m) s' /\ o_tries s' = o_tries s.
Proof.
  intros I [[[k v]|] Hc].
  - destruct (inv_full _ _ _ _ _ I Hc) as [E Hk]. unfold reset, key. rewrite E. simpl. rewrite (proj2 (Z.eqb_neq _ _)) by done.
    unfold destruct_. rewrite E. simpl. unfold set_key. simpl. rewrite lookup_insert. simpl. eexists. split; [done|]. split; [|done].
    destruct I as [I1 I2 I3]. unfold set_cell. simpl. constructor; simpl.
    + intros c' x. rewrite insert_insert. intros [[<- <-]|[Hn Hx]]%lookup_insert_Some; [done|]. by eapply I1.
    + rewrite insert_insert, fmap_insert, <- I2. done.
    + pose proof (occ_insert_over _ _ _ Hc). lia.
  - pose proof (inv_empty _ _ _ I Hc) as E. unfold reset, key. rewrite E. simpl. exists s. split; [done|]. rewrite insert_id by done. done.
Qed.

Lemma construct_ok throws m s can c v k s0 : oinv m s -> m !! c = Some None -> k <> 0 -> 
  (o_cells s0 = <[c := OCell k None]> (o_cells s) /\ o_made s0 = o_made s /\ o_gone s0 = o_gone s /\ o_tries s0 = o_tries s) ->
  exists s', (construct throws can c v s0 = ODone s' /\ oinv (<[c := Some (k, v)]> m) s' \/
              can = true /\ construct throws can c v s0 = OThrown s' /\ o_cells s' = o_cells s0 /\ o_made s' = o_made s0 /\ o_gone s' = o_gone s0).
Proof.
  intros I Hc Hk (E1 & E2 & E3 & E4). unfold construct. rewrite E1, lookup_insert. destruct (can && throws (o_tries s0)) eqn:Et.
  - apply andb_true_iff in Et as [-> _]. eexists. right. repeat split; done.
  - eexists. left. split; [done|]. destruct I as [I1 I2 I3]. constructor; simpl.
    + intros c' x. rewrite insert_insert. intros [[<- <-]|[Hn Hx]]%lookup_insert_Some; [done|]. by eapply I1.
    + by rewrite insert_insert, fmap_insert, <- I2.
    + rewrite occ_insert_some by auto. lia.
Qed.

(** load of a value into an empty cell with key 0 *)
Lemma load_new throws m s can c v k : oinv m s -> m !! c = Some None -> k <> 0 ->
  exists s', (seq (construct throws can c v s) (set_key c k) = ODone s' /\ oinv (<[c := Some (k, v)]> m) s') \/
             (can = true /\ seq (construct throws can c v s) (set_key c k) = OThrown s' /\ oinv m s').
Proof.
  intros I Hc Hk. pose proof (inv_empty _ _ _ I Hc) as E. unfold construct. rewrite E. destruct (can && throws (o_tries s)) eqn:Et.
  - apply andb_true_iff in Et as [-> _]. eexists. right. split; [done|]. split; [done|]. by destruct I.
  - simpl. unfold set_key. simpl. rewrite lookup_insert. simpl. eexists. left. split; [done|]. destruct I as [I1 I2 I3]. constructor; simpl.
    + intros c' x. rewrite insert_insert. intros [[<- <-]|[Hn Hx]]%lookup_insert_Some; [done|]. by eapply I1.
    + by rewrite insert_insert, fmap_insert, <- I2.
    + rewrite occ_insert_some by auto. lia.
Qed.
Lemma load_ok throws m s can c v k : oinv m s -> is_Some (m !! c) -> k <> 0 ->
  exists s', (load_ throws can c k (Some v) s = ODone s' /\ oinv (<[c := Some (k, v)]> m) s') \/
             (can = true /\ load_ throws can c k (Some v) s = OThrown s' /\ oinv (<[c := None]> m) s').
Proof.
  intros I Hc Hk. unfold load_. rewrite (proj2 (Z.eqb_neq _ _)) by done. destruct (reset_ok _ _ _ I Hc) as (s1 & -> & I1 & _). cbn [seq].
  destruct (load_new throws _ _ can c v k I1) as (s' & [[E I2]|(-> & E & I2)]); [apply lookup_insert|done|..].
  - exists s'. left. rewrite insert_insert in I2. done.
  - exists s'. right. done.
Qed.
Lemma load_from_ok throws m s can c x k v : oinv m s -> is_Some (m !! c) -> c <> x -> m !! x = Some (Some (k, v)) ->
  exists s', (load_from throws can c k x s = ODone s' /\ oinv (<[c := Some (k, v)]> m) s') \/
             (can = true /\ load_from throws can c k x s = OThrown s' /\ oinv (<[c := None]> m) s').
Proof.
  intros I Hc Hne Hx. destruct (inv_full _ _ _ _ _ I Hx) as [_ Hk]. unfold load_from. rewrite (proj2 (Z.eqb_neq _ _)) by done.
  destruct (reset_ok _ _ _ I Hc) as (s1 & -> & I1 & _). cbn [seq].
  destruct (inv_full (<[c := None]> m) s1 x k v) as [Ex _]; [done|by rewrite lookup_insert_ne|]. unfold rd. rewrite Ex.
  destruct (load_new throws _ _ can c v k I1) as (s' & [[E I2]|(-> & E & I2)]); [apply lookup_insert|done|..].
  - exists s'. left. rewrite insert_insert in I2. done.
  - exists s'. right. done.
Qed.

Lemma fresh_ok m s c k : oinv m s -> m !! c = None -> fresh c k s = ODone (set_cell c (OCell k None) s).
Proof. intros I Hc. unfold fresh. by rewrite (proj1 (inv_lookup _ _ _ I) Hc). Qed.
Lemma fresh_inv m s c : oinv m s -> m !! c = None -> oinv (<[c := None]> m) (set_cell c (OCell 0 None) s).
Proof.
  intros [I1 I2 I3] Hc. constructor; simpl.
  - intros c' x [[<- <-]|[Hn Hx]]%lookup_insert_Some; [done|]. by eapply I1.
  - by rewrite fmap_insert, <- I2.
  - rewrite occ_insert_none by auto. done.
Qed.
(** a constructor that makes a value *)
Lemma ctor_ok throws m s can c k v : oinv m s -> m !! c = None -> k <> 0 ->
  exists s', (seq (fresh c k s) (construct throws can c v) = ODone s' /\ oinv (<[c := Some (k, v)]> m) s') \/
             (can = true /\ ctor c (seq (fresh c k s) (construct throws can c v)) = OThrown s' /\ oinv (delete c m) s').
Proof.
  intros I Hc Hk. rewrite (fresh_ok _ _ _ _ I Hc). cbn [seq].
  destruct (construct_ok throws _ _ can c v k (set_cell c (OCell k None) s) (fresh_inv _ _ _ I Hc)) as (s' & H); [apply lookup_insert|done| |].
  { unfold set_cell. simpl. by rewrite insert_insert. }
  destruct H as [[E I']|(-> & E & F1 & F2 & F3)].
  - exists s'. left. rewrite insert_insert in I'. done.
  - rewrite E. unfold ctor. rewrite F1. unfold set_cell in *. simpl in *. rewrite lookup_insert. eexists. right. split; [done|]. split; [done|].
    pose proof (proj1 (inv_lookup _ _ _ I) Hc) as Hn. rewrite delete_insert by done. rewrite delete_notin by done.
    destruct I as [I1 I2 I3]. constructor; simpl; [done|done|congruence].
Qed.

(** ** C39 *)
Lemma ostep_ok throws dflt op m s : oinv m s -> allowed op m ->
  match ostep throws dflt op s with
  | ODone s' => oinv (effect dflt op m) s'
  | OThrown s' => oinv (effect_thrown op m) s'
  | OTerminate => True
  | OAssert | OBad => False
  end.
Proof.
  intros I A. destruct op as [c|c x|c x|c k v|c k v|c x|c x|c|c|c k|c k v|c k v|c k|c k|c k]; cbn [allowed effect effect_thrown ostep] in *.
  - rewrite (fresh_ok _ _ _ _ I A). by apply fresh_inv.
  - destruct A as [Hc [o Hx]]. assert (c <> x) as Hne by congruence. rewrite Hx. simpl. destruct o as [[k v]|].
    + destruct (inv_full _ _ _ _ _ I Hx) as [E Hk]. unfold key. rewrite E. simpl o_key.
      assert (forall s1, (fun s => if k =? 0 then ODone s else match rd x s with None => OBad | Some v => construct throws true c v s end) s1 =
        (match rd x s1 with None => OBad | Some v => construct throws true c v s1 end)) as Eq by (intros; simpl; by rewrite (proj2 (Z.eqb_neq _ _))).
      assert (seq (fresh c k s) (fun s => if k =? 0 then ODone s else match rd x s with None => OBad | Some v => construct throws true c v s end) = seq (fresh c k s) (construct throws true c v)) as ->.
      { rewrite (fresh_ok _ _ _ _ I Hc). cbn [seq]. rewrite (proj2 (Z.eqb_neq _ _)) by done. unfold rd, set_cell. simpl. by rewrite lookup_insert_ne, E by done. }
      destruct (ctor_ok throws _ _ true c k v I Hc Hk) as (s' & [[E' I']|(_ & E' & I')]); rewrite E'; simpl; done.
    + pose proof (inv_empty _ _ _ I Hx) as E. unfold key. rewrite E. simpl o_key. rewrite (fresh_ok _ _ _ _ I Hc). simpl. by apply fresh_inv.
  - destruct A as [Hc [o Hx]]. assert (c <> x) as Hne by congruence. rewrite Hx. simpl. destruct o as [[k v]|].
    + destruct (inv_full _ _ _ _ _ I Hx) as [E Hk]. unfold key. rewrite E. simpl o_key. rewrite (fresh_ok _ _ _ _ I Hc). cbn [seq]. rewrite (proj2 (Z.eqb_neq _ _)) by done.
      unfold rd, set_cell at 1. simpl. rewrite lookup_insert_ne, E by done.
      destruct (ctor_ok throws _ _ false c k v I Hc Hk) as (s' & [[E' I']|(? & _)]); [|done].
      rewrite (fresh_ok _ _ _ _ I Hc) in E'. cbn [seq] in E'. rewrite E'. simpl.
      destruct (reset_ok _ _ x I') as (s2 & -> & I2 & _); [rewrite lookup_insert_ne, Hx by done; eauto|]. done.
    + pose proof (inv_empty _ _ _ I Hx) as E. unfold key. rewrite E. simpl o_key. rewrite (fresh_ok _ _ _ _ I Hc). simpl.
      rewrite (insert_id (<[c := None]> m) x None) by (rewrite lookup_insert_ne; done). by apply fresh_inv.
  - destruct A as [Hc Hk]. rewrite (proj2 (Z.eqb_neq _ _)) by done.
    destruct (ctor_ok throws _ _ true c k v I Hc Hk) as (s' & [[E' I']|(_ & E' & I')]); rewrite E'; simpl; done.
  - destruct A as [Hc Hk]. rewrite (proj2 (Z.eqb_neq _ _)) by done.
    destruct (ctor_ok throws _ _ false c k v I Hc Hk) as (s' & [[E' I']|(? & _)]); [|done]. rewrite E'; simpl; done.
  - destruct A as [Hc [o Hx]]. destruct (reset_ok _ _ _ I Hc) as (s1 & -> & I1 & _). cbn [seq]. destruct (decide (c = x)) as [->|Hne].
    + unfold key. rewrite (inv_empty _ _ x I1) by apply lookup_insert. simpl. done.
    + rewrite Hx. simpl. destruct o as [[k v]|].
      * destruct (inv_full (<[c := None]> m) s1 x k v) as [Ex Hk]; [done|by rewrite lookup_insert_ne|]. unfold key. rewrite Ex. simpl o_key.
        rewrite (proj2 (Z.eqb_neq _ _)) by done.
        destruct (load_from_ok throws _ _ true c x k v I1) as (s2 & [[-> I2]|(_ & -> & I2)]); [rewrite lookup_insert; eauto|done|by rewrite lookup_insert_ne|..].
        -- rewrite insert_insert in I2. cbn [seq]. unfold set_key. destruct (inv_full _ _ c k v I2) as [Ec _]; [apply lookup_insert|]. rewrite Ec. simpl.
           destruct I2 as [J1 J2 J3]. constructor; simpl; [|by rewrite (insert_id (o_cells s2))|done].
           intros c' y. rewrite (insert_id (o_cells s2)) by done. apply J1.
        -- rewrite insert_insert in I2. done.
      * unfold key. rewrite (inv_empty (<[c := None]> m) s1 x) by (done || by rewrite lookup_insert_ne). simpl. done.
  - destruct A as [Hc [o Hx]]. destruct (reset_ok _ _ _ I Hc) as (s1 & -> & I1 & _). cbn [seq]. destruct (decide (c = x)) as [->|Hne].
    + unfold key. rewrite (inv_empty _ _ x I1) by apply lookup_insert. simpl. done.
    + rewrite Hx. simpl. destruct o as [[k v]|].
      * destruct (inv_full (<[c := None]> m) s1 x k v) as [Ex Hk]; [done|by rewrite lookup_insert_ne|]. unfold key. rewrite Ex. simpl o_key.
        rewrite (proj2 (Z.eqb_neq _ _)) by done.
        destruct (load_from_ok throws _ _ false c x k v I1) as (s2 & [[-> I2]|(? & _)]); [rewrite lookup_insert; eauto|done|by rewrite lookup_insert_ne| |done].
        rewrite insert_insert in I2. cbn [seq]. destruct (reset_ok _ _ x I2) as (s3 & -> & I3 & _); [rewrite lookup_insert_ne, Hx by done; eauto|]. done.
      * unfold key. rewrite (inv_empty (<[c := None]> m) s1 x) by (done || by rewrite lookup_insert_ne). simpl.
        rewrite (insert_id (<[c := None]> m) x None) by (rewrite lookup_insert_ne; done). done.
  - destruct (reset_ok _ _ _ I A) as (s1 & -> & I1 & _). cbn [seq]. pose proof (inv_empty _ _ c I1 ltac:(apply lookup_insert)) as E. rewrite E.
    destruct I1 as [J1 J2 J3]. constructor; simpl.
    + intros c' x Hx. apply lookup_delete_Some in Hx as [_ Hx]. by eapply J1.
    + rewrite fmap_delete, <- J2. by rewrite delete_insert_delete.
    + rewrite J3, <- (delete_insert_delete m c None). rewrite occ_delete; [done|]. left. apply lookup_insert.
  - destruct (reset_ok _ _ _ I A) as (s1 & -> & I1 & _). done.
  - destruct A as [Hc Hk]. destruct (load_ok throws _ _ true c dflt k I Hc Hk) as (s' & [[-> I']|(_ & -> & I')]); done.
  - destruct A as [Hc Hk]. destruct (load_ok throws _ _ true c v k I Hc Hk) as (s' & [[-> I']|(_ & -> & I')]); done.
  - destruct A as [Hc Hk]. destruct (load_ok throws _ _ false c v k I Hc Hk) as (s' & [[-> I']|(? & _)]); done.
  - destruct A as (v & Hc & Hk). destruct (inv_full _ _ _ _ _ I Hc) as [E _]. rewrite (proj2 (Z.eqb_neq _ _)) by done. unfold key, rd. rewrite E. simpl.
    rewrite Z.eqb_refl. simpl. destruct (reset_ok _ _ c I) as (s1 & -> & I1 & _); [eauto|]. done.
  - destruct A as [[o Hc] Hk]. rewrite (proj2 (Z.eqb_neq _ _)) by done. destruct o as [[k' v]|].
    + destruct (inv_full _ _ _ _ _ I Hc) as [E _]. unfold key, rd. rewrite E. simpl. by destruct (k' =? k).
    + unfold key. rewrite (inv_empty _ _ _ I Hc). cbn [o_key]. rewrite (proj2 (Z.eqb_neq 0 k)) by congruence. done.
  - destruct A as [[o Hc] Hk]. rewrite (proj2 (Z.eqb_neq _ _)) by done. destruct (load_ok throws _ _ true c dflt k I ltac:(eauto) Hk) as (s' & HL). destruct o as [[k' v]|].
    + destruct (inv_full _ _ _ _ _ I Hc) as [E _]. unfold key, rd. rewrite E. simpl. rewrite Hc. destruct (k' =? k) eqn:Ek.
      * apply Z.eqb_eq in Ek. by rewrite decide_True.
      * apply Z.eqb_neq in Ek. rewrite decide_False by done. destruct HL as [[-> I']|(_ & -> & I')]; done.
    + unfold key. rewrite (inv_empty _ _ _ I Hc). cbn [o_key]. rewrite (proj2 (Z.eqb_neq 0 k)) by congruence. rewrite Hc.
      destruct HL as [[-> I']|(_ & -> & I')]; done.
Qed.

(** Every operation of a sequence is allowed at its turn: given the contents that follow from the effects of the operations before
    it, some of which threw. *)
Fixpoint allowed_run (throws : nat -> bool) (dflt : Z) (ops : list oop) (m : contents) (s : ostate) : Prop :=
  match ops with
  | [] => True
  | op :: ops' =>
      allowed op m /\
      match ostep throws dflt op s with
      | ODone s' => allowed_run throws dflt ops' (effect dflt op m) s'
      | OThrown s' => allowed_run throws dflt ops' (effect_thrown op m) s'
      | _ => True
      end
  end.

(** C39. Whatever constructors throw, and whenever: nothing is accessed that does not live, nothing is constructed over a living object, no
    storage goes away with a living object in it ([OBad] does not happen), no assertion fails; and at the end the objects constructed are
    those destroyed and those in cells. *)
Theorem C39_storage_lifetimes :
  forall throws dflt ops, allowed_run throws dflt ops ∅ oinit ->
    orun throws dflt ops oinit = OTerminate \/
    exists s m, orun throws dflt ops oinit = ODone s /\
      (forall c, m !! c = view <$> o_cells s !! c) /\ (forall c x, o_cells s !! c = Some x -> good x) /\
      o_made s = (o_gone s + occupied m)%nat /\ (o_cells s = ∅ -> o_made s = o_gone s).
Proof.
  intros throws dflt ops. assert (oinv ∅ oinit) as I by (constructor; [intros c x H; simpl in H; by rewrite lookup_empty in H|simpl; by rewrite fmap_empty|by vm_compute]). revert I. generalize (∅ : contents) oinit.
  induction ops as [|op ops IH]; intros m s I A.
  - right. exists s, m. split; [done|]. destruct I as [I1 I2 I3]. split; [intros c; by rewrite I2, lookup_fmap|]. split; [done|]. split; [done|].
    intros E. rewrite I3, I2, E, fmap_empty. unfold occupied. rewrite map_filter_empty, map_size_empty. lia.
  - destruct A as [Hop A]. pose proof (ostep_ok throws dflt op m s I Hop) as H. cbn [orun].
    destruct (ostep throws dflt op s); [by eapply IH|by eapply IH|by left|done|done].
Qed.
Print Assumptions C39_storage_lifetimes.

(** One operation: the new contents, exactly; after an exception the cell concerned is empty (or does not exist, if it was to be constructed). *)
Theorem C39_storage_contents :
  forall throws dflt op m s, oinv m s -> allowed op m ->
    match ostep throws dflt op s with
    | ODone s' => oinv (effect dflt op m) s'
    | OThrown s' => oinv (effect_thrown op m) s'
    | OTerminate => True
    | OAssert | OBad => False
    end.
Proof. exact ostep_ok. Qed.
Print Assumptions C39_storage_contents.

(** The third construction throws: that is the copy into cell 1. Then everything is destroyed. *)
Definition oex : list oop :=
  [ONew 0; ONew 1; OLoadVal 0 5 50; OLoadVal 1 5 51; OAssign 1 0; OAssignMove 0 0; OLoad 1 9; ONewCopy 2 1; OAssignMove 0 2; OMoveOut 0 9;
   ODestroy 0; ODestroy 1; ODestroy 2].
Example ex39 : allowed_run (fun n => Nat.eqb n 2) 7 oex ∅ oinit /\
  match orun (fun n => Nat.eqb n 2) 7 oex oinit with ODone s => map_to_list (o_cells s) = [] /\ o_made s = 5%nat /\ o_gone s = 5%nat | _ => False end.
Proof.
  split; [|vm_compute; done]. vm_compute. repeat split; try done; try (by eexists); try (by eexists; split).
Qed.
