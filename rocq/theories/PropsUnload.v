(** C09, C46: where objects go when a scope ends without handling its error. *)
From Verif Require Export Recv.
Open Scope Z_scope.

(** The object if it belongs to error id. *)
Definition sees (id : Z) (o : option (Z * val)) : option val :=
  match o with Some (k, v) => if k =? id then Some v else None | None => None end.
Definition active (m : mem) (c : cid) : Prop := exists k, ctxs m !! c = Some k /\ k_act k = true.
Definition inactive (m : mem) (c : cid) : Prop := exists k, ctxs m !! c = Some k /\ k_act k = false.

(** The innermost collecting context can take more objects. *)
Definition usable (m : mem) : Prop := forall c d, tlsd m = Some c -> dhp m !! c = Some d -> d_key d <> 0 -> d_last d = true.

(** [moved src]: the objects [src] of error id have become available in the active contexts.
    An object goes to the context serving its type, where it replaces an object of another error, but not one of the same error.
    If no context serves its type, the innermost collecting context takes it. Nothing else changes. *)
Definition moved (G : cfg) (id : Z) (src : ety -> option val) (m m' : mem) : Prop :=
  forall c T, active m c ->
    match src T with
    | None => held m' c T = held m c T
    | Some v =>
        (serves m T c -> held m' c T = match sees id (held m c T) with Some _ => held m c T | None => Some (id, v) end) /\
        (tls m !! T = None -> g_capture G = true -> tlsd m = Some c -> held m' c T = Some (id, v)) /\
        (~ serves m T c -> ~ (tls m !! T = None /\ g_capture G = true /\ tlsd m = Some c) -> held m' c T = held m c T)
    end.

Lemma R_active m s c : R m s -> active m c <-> c ∈ stack s.
Proof.
  intros HR. unfold active. rewrite (R_ctxs _ _ c HR). split.
  - intros (k & H & Hk). destruct (actxs s !! c); simplify_eq/=. by apply bool_decide_eq_true in Hk.
  - intros Hin. destruct (R_in _ _ HR c Hin) as [a Ha]. rewrite Ha. simpl. eexists. split; [done|]. simpl. by apply bool_decide_eq_true.
Qed.
Lemma R_inactive m s c : R m s -> inactive m c <-> c ∉ stack s /\ is_Some (actxs s !! c).
Proof.
  intros HR. unfold inactive. rewrite (R_ctxs _ _ c HR). split.
  - intros (k & H & Hk). destruct (actxs s !! c); simplify_eq/=. apply bool_decide_eq_false in Hk. eauto.
  - intros [Hin [a Ha]]. rewrite Ha. simpl. eexists. split; [done|]. simpl. by apply bool_decide_eq_false.
Qed.
Lemma R_usable m s : R m s -> usable m <-> dok s.
Proof.
  intros HR. pose proof (find_d_R _ _ HR) as H. unfold usable, dok. destruct (find_d s) as [[c a]|].
  - destruct H as (Ha & Hin & Hd & Ht & d & Hd1 & Hd2). split.
    + intros Hu c1 a1 q E Hq. simplify_eq. rewrite Hq in Hd2. destruct Hd2 as (Hk & Hk' & <- & _). eapply Hu; eauto. by rewrite Hk'.
    + intros Hk c1 d1 E1 E2 Hz. simplify_eq. destruct (ac_coll a) as [q|] eqn:Eq.
      * destruct Hd2 as (_ & _ & -> & _). eauto.
      * by destruct Hd2 as (? & _).
  - split; [done|]. intros _ c d E. congruence.
Qed.

Lemma same_ctxs m s m' s' : R m s -> R m' s' -> same s s' -> ctxs m' = ctxs m.
Proof.
  intros HR HR' Hs. apply map_eq. intros c. rewrite (R_ctxs _ _ c HR), (R_ctxs _ _ c HR'), (sm_stack _ _ Hs).
  destruct (actxs s !! c) as [a|] eqn:Ha; simpl.
  - destruct (sm_tup _ _ Hs _ _ Ha) as (a' & -> & Ht). simpl. by rewrite Ht.
  - by rewrite (sm_none _ _ Hs).
Qed.

Lemma sees_key id o : sees id o = None \/ key_of o = id.
Proof. destruct o as [[k v]|]; simpl; [|by left]. destruct (k =? id) eqn:E; [right; lia|by left]. Qed.

Lemma recv_moved G x id src m s m' s' : id <> 0 -> R m s -> R m' s' -> recv G x id src s s' -> moved G id src m m'.
Proof.
  intros Hid HR HR' Hr c T Hact. apply (R_active _ _ _ HR) in Hact. destruct (R_in _ _ HR c Hact) as [a Ha].
  pose proof (rv_same _ _ _ _ _ _ Hr) as Hs. destruct (sm_tup _ _ Hs _ _ Ha) as (a' & Ha' & _).
  rewrite (R_held _ _ _ _ T HR Ha), (R_held _ _ _ _ T HR' Ha'), (rv_get _ _ _ _ _ _ Hr _ _ _ T Hact Ha Ha').
  unfold after. destruct (src T) as [v|]; [|done]. rewrite !(R_serves _ _ _ _ HR). rewrite (R_tlsd_find _ _ HR).
  assert (tls m !! T = None <-> find_e T s = None) as EN.
  { pose proof (find_e_R _ _ T HR) as Hx. destruct (find_e T s) as [[c1 a1]|]; [|done]. destruct Hx as (_ & _ & _ & ad & sl & -> & _). done. }
  rewrite EN. split; [|split].
  - intros E. rewrite decide_True by done. unfold sees. destruct (get_e T a) as [[k v0]|]; simpl; [by destruct (k =? id)|].
    by destruct id.
  - intros E1 E2 E3. rewrite decide_False; [|by rewrite E1]. by rewrite decide_True.
  - intros E1 E2. by rewrite decide_False, decide_False.
Qed.

(** ** C09, C46
    context::unload(id) of an inactive context, in any state of the enclosing scopes. *)
Theorem C09_unload_moves_objects :
  forall G m s g c id,
    R m s -> inactive m c -> id <> 0 -> usable m ->
    exists m' g' s', munload G c id m g = Ok (m', g') /\ R m' s' /\
      ctxs m' = ctxs m /\
      moved G id (fun T => sees id (held m c T)) m m' /\
      (forall c' T, inactive m c' -> c' <> c -> held m' c' T = held m c' T).
Proof.
  intros G m s g c id HR Hi Hid Hu. pose proof (R_wf _ _ HR) as Hwf. apply (R_inactive _ _ _ HR) in Hi as [Hn [a Ha]].
  apply (R_usable _ _ HR) in Hu. destruct (sunload_recv G c id s g a Hid Hwf Hu Hn Ha (R_awf _ _ _ _ HR Ha)) as (s' & E & _ & Hr).
  destruct (sim_unload G c id (m, g) (s, g)) as [H1 _]; [by split|]. destruct (H1 _ E) as ([m' g'] & E' & HR' & Hg). simpl in E', HR', Hg.
  exists m', g', s'. split; [done|]. split; [done|]. pose proof (rv_same _ _ _ _ _ _ Hr) as Hs. split; [by eapply same_ctxs|]. split.
  - assert (forall T, src_ctx id a T = sees id (held m c T)) as Es.
    { intros T. rewrite (R_held _ _ _ _ T HR Ha). done. }
    eapply recv_moved; eauto. eapply recv_ext; [|exact Hr]. exact Es.
  - intros c' T Hc' Hne. apply (R_inactive _ _ _ HR) in Hc' as [Hn' [a' Ha']].
    rewrite (R_held _ _ _ _ T HR Ha'). apply (R_held _ _ _ _ T HR'). rewrite (rv_inact _ _ _ _ _ _ Hr); auto. congruence.
Qed.
Print Assumptions C09_unload_moves_objects.

(** Two scopes active, each with a cell for TA, the inner one also for TB; a third, inactive one holds objects of error 5. *)
Definition ex09 : option (list (option (Z * val))) :=
  let '(c0, m) := mnew GX [SE TA; SE TB] mem0 in
  let '(c1, m) := mnew GX [SE TA; SE TB] m in
  let '(c2, m) := mnew GX [SE TA; SE TC; SE TB] m in
  match (let! m := mact GX c0 m in let! m := mact GX c1 m in let! m := mact GX c2 m in
         let! x := mload GX false 5 (IVal TA (VZ 1)) m glob0 in
         let! x := mload GX false 5 (IVal TB (VZ 2)) (fst x) glob0 in
         let! x := mload GX false 9 (IVal TC (VZ 3)) (fst x) glob0 in
         let! m := mdeact GX c2 (fst x) in
         let! x := mload GX false 5 (IVal TB (VZ 4)) m glob0 in
         let! x := mload GX false 1 (IVal TA (VZ 7)) (fst x) glob0 in
         let! x := munload GX c2 5 (fst x) glob0 in
         Ok (flat_map (fun c => map (held (fst x) c) [TA; TB; TC]) [c0; c1; c2]))
  with Ok l => Some l | _ => None end.
Example ex09_runs : ex09 = Some [None; None; None;
  Some (5, VZ 1); Some (5, VZ 4); None;
  None; Some (5, VZ 2); Some (9, VZ 3)].
Proof. vm_compute. reflexivity. Qed.
