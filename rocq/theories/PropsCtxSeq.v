(** C46: any sequence of operations on contexts: context objects made by hand are activated, deactivated, unloaded again and again. *)
From Verif Require Export PropsLoad.
Open Scope Z_scope.

(** ** Specification
    What contexts hold, without slots or pointers: the active ones (the innermost first), the error types each has a place for,
    and the object in each place with the error it belongs to. *)
Record world := World {
  w_open : list cid;
  w_types : cid -> option (list ety);
  w_obj : cid -> ety -> option (Z * val);
  w_next : cid }.
Definition world0 : world := World [] (fun _ => None) (fun _ _ => None) 0%nat.

Definition handles (w : world) (T : ety) (c : cid) : bool :=
  match w_types w c with Some l => bool_decide (T ∈ l) | None => false end.
(** the innermost active context with a place for objects of type T *)
Definition innermost (w : world) (T : ety) : option cid := find (handles w T) (w_open w).

(** The object context [c'] has of type T after unload(id) of [c] (in a build that captures, an object nobody wants is dropped). *)
Definition unloaded (capture : bool) (w : world) (c : cid) (id : Z) (c' : cid) (T : ety) : option (Z * val) :=
  match sees id (w_obj w c T) with
  | None => w_obj w c' T
  | Some v =>
      match innermost w T with
      | Some d =>
          match sees id (w_obj w d T) with
          | Some _ => w_obj w c' T                                       (* one of the same error is there: nothing happens *)
          | None => if decide (c' = d) then Some (id, v) else if decide (c' = c) then None else w_obj w c' T
          end
      | None => if capture && bool_decide (c' = c) then None else w_obj w c' T
      end
  end.

Inductive cop :=
| CNew (l : list ety)
| CNewD (l : list ety)                   (* a context that also collects (diagnostic_details) *)
| CAct (c : cid)
| CDeact (c : cid)
| CUnload (c : cid) (id : Z)
| CLoad (id : Z) (T : ety) (v : val)
| CDestroy (c : cid).

(** None: not a permitted use. A context is activated if it is not active, the innermost one is deactivated, an inactive one is
    unloaded (for the id of an error) or destroyed. *)
Definition wstep (capture : bool) (o : cop) (w : world) : option world :=
  match o with
  | CNew l =>
      if decide (NoDup l) then
        Some (World (w_open w) (fun c => if decide (c = w_next w) then Some l else w_types w c) (w_obj w) (S (w_next w)))
      else None
  | CNewD l => None                      (* not covered *)
  | CAct c =>
      if decide (is_Some (w_types w c) /\ c ∉ w_open w) then Some (World (c :: w_open w) (w_types w) (w_obj w) (w_next w)) else None
  | CDeact c =>
      match w_open w with
      | c' :: l => if decide (c = c') then Some (World l (w_types w) (w_obj w) (w_next w)) else None
      | [] => None
      end
  | CUnload c id =>
      if decide (is_Some (w_types w c) /\ c ∉ w_open w /\ id <> 0) then
        Some (World (w_open w) (w_types w) (unloaded capture w c id) (w_next w))
      else None
  | CLoad id T v =>
      if decide (id <> 0) then
        Some (World (w_open w) (w_types w)
                (fun c T' => if decide (T' = T /\ innermost w T = Some c) then Some (id, v) else w_obj w c T') (w_next w))
      else None
  | CDestroy c =>
      if decide (is_Some (w_types w c) /\ c ∉ w_open w) then
        Some (World (w_open w) (fun c' => if decide (c' = c) then None else w_types w c')
                (fun c' T => if decide (c' = c) then None else w_obj w c' T) (w_next w))
      else None
  end.
Fixpoint wrun (capture : bool) (l : list cop) (w : world) : option world :=
  match l with [] => Some w | o :: l' => match wstep capture o w with Some w' => wrun capture l' w' | None => None end end.

(** The library. *)
Definition cstep (G : cfg) (o : cop) (m : mem) (g : glob) : res (mem * glob) :=
  match o with
  | CNew l => Ok (snd (mnew G (map SE l) m), g)
  | CNewD l => Ok (snd (mnew G (map SE l ++ [SDA]) m), g)
  | CAct c => let! m' := mact G c m in Ok (m', g)
  | CDeact c => let! m' := mdeact G c m in Ok (m', g)
  | CUnload c id => munload G c id m g
  | CLoad id T v => mload G false id (IVal T v) m g
  | CDestroy c => let! m' := mdestroy G c m in Ok (m', g)
  end.
Fixpoint crun (G : cfg) (l : list cop) (m : mem) (g : glob) : res (mem * glob) :=
  match l with [] => Ok (m, g) | o :: l' => let! x := cstep G o m g in crun G l' (fst x) (snd x) end.

(** What can be seen of the library's memory is what the specification says. *)
Definition agrees (w : world) (m : mem) : Prop :=
  (forall c, active m c <-> c ∈ w_open w) /\
  (forall c T, held m c T = w_obj w c T) /\
  (forall c T, serves m T c <-> innermost w T = Some c).

(** ** Proof *)
Record V (w : world) (s : smem) : Prop := MkV {
  v_stack : stack s = w_open w;
  v_next : snc s = w_next w;
  v_ctx : forall c, match actxs s !! c with
                    | Some a => (exists l, w_types w c = Some l /\ ac_tup a = map SE l) /\ ac_coll a = None
                    | None => w_types w c = None
                    end;
  v_obj : forall c T, w_obj w c T = match actxs s !! c with Some a => get_e T a | None => None end }.

Lemma in_map_SE T l : SE T ∈ map SE l <-> T ∈ l.
Proof.
  rewrite !elem_of_list_In, in_map_iff. split; [|eauto]. intros (T' & E & H). by simplify_eq.
Qed.

Lemma V_handles w s T c : V w s -> handles w T c = hasT T c s.
Proof.
  intros []. unfold handles, hasT. specialize (v_ctx0 c). destruct (actxs s !! c) as [a|].
  - destruct v_ctx0 as [(l & -> & Ht) Hq]. unfold has_e, nodes. rewrite Hq, Ht. unfold has_node. simpl. rewrite orb_false_r. apply bool_decide_ext. by rewrite in_map_SE.
  - by rewrite v_ctx0.
Qed.
Lemma first_of_find P l : first_of P l = find P l.
Proof. induction l as [|c l IH]; simpl; [done|]. by destruct (P c). Qed.
Lemma find_ext {A} (P Q : A -> bool) l : (forall x, P x = Q x) -> find P l = find Q l.
Proof. intros H. induction l as [|c l IH]; simpl; [done|]. by rewrite H, IH. Qed.
Lemma V_innermost w s T : swf s -> V w s -> innermost w T = fst <$> find_e T s.
Proof.
  intros Hwf HV. rewrite find_e_first by done. rewrite first_of_find. unfold innermost. rewrite (v_stack _ _ HV).
  apply find_ext. intros. by apply V_handles.
Qed.
Lemma V_find_d w s : V w s -> find_d s = None.
Proof.
  intros HV. destruct (find_d s) as [[c a]|] eqn:E; [|done]. apply find_ctx_in in E as (_ & Ha & Hd).
  pose proof (v_ctx _ _ HV c) as H. rewrite Ha in H. destruct H as [(l & _ & Ht) _]. unfold has_d in Hd. apply bool_decide_eq_true in Hd.
  rewrite Ht in Hd. apply elem_of_list_In, in_map_iff in Hd as (? & ? & _). done.
Qed.
Lemma V_ext w w' s : w_open w' = w_open w -> w_types w' = w_types w -> w_next w' = w_next w ->
  (forall c T, w_obj w' c T = w_obj w c T) -> V w s -> V w' s.
Proof.
  intros E1 E2 E3 E4 []. split; [congruence|congruence| |].
  - intros c. rewrite E2. apply v_ctx0.
  - intros. rewrite E4. done.
Qed.

Lemma V_put w w' s c a a0 : V w s -> actxs s !! c = Some a0 -> ac_tup a = ac_tup a0 -> ac_coll a = ac_coll a0 ->
  w_open w' = w_open w -> w_types w' = w_types w -> w_next w' = w_next w ->
  (forall c' T, w_obj w' c' T = if decide (c' = c) then get_e T a else w_obj w c' T) -> V w' (put c a s).
Proof.
  intros [] Ha Et Ec E1 E2 E3 E4. split; [simpl; congruence|simpl; congruence| |].
  - intros c'. rewrite put_lookup, E2. specialize (v_ctx0 c'). destruct (decide (c' = c)) as [->|?]; [|done].
    rewrite Ha in v_ctx0. by rewrite Et, Ec.
  - intros c' T. rewrite put_lookup, E4. destruct (decide (c' = c)) as [->|?]; [done|]. apply v_obj0.
Qed.

(** one place *)
Definition type_only (w : world) (f : cid -> ety -> option (Z * val)) (P : ety -> Prop) `{!forall T, Decision (P T)} : world :=
  World (w_open w) (w_types w) (fun c T => if decide (P T) then f c T else w_obj w c T) (w_next w).

Lemma sees_eq id (o : option (Z * val)) : id <> 0 -> sees id o = None <-> (key_of o =? id) = false.
Proof. intros Hid. destruct o as [[k v]|]; simpl; [by destruct (k =? id)|]. by destruct id. Qed.

Lemma V_unload1 G w s g c id T : swf s -> V w s -> is_Some (w_types w c) -> c ∉ w_open w -> id <> 0 -> handles w T c = true ->
  exists s', sunload1 G c id (SE T) s g = Ok (s', g) /\ swf s' /\
    V (type_only w (unloaded (g_capture G) w c id) (eq T)) s'.
Proof.
  intros Hwf HV Hty Hn Hid Hh. pose proof (v_ctx _ _ HV c) as Hc. unfold sunload1. destruct (actxs s !! c) as [a|] eqn:Ha; cycle 1.
  { rewrite Hc in Hty. by destruct Hty. }
  destruct Hc as [(l & El & Ht) Hq]. rewrite V_handles with (s := s) in Hh by done. unfold hasT in Hh. rewrite Ha in Hh.
  assert (SE T ∈ ac_tup a) as HT.
  { unfold has_e, nodes in Hh. rewrite Hq in Hh. apply orb_true_iff in Hh as [Hh|Hh]; [by apply bool_decide_eq_true in Hh|].
    unfold has_node in Hh. apply bool_decide_eq_true in Hh. by apply elem_of_nil in Hh. }
  assert (w_obj w c T = ac_cell a !! T) as Eo. { rewrite (v_obj _ _ HV), Ha. unfold get_e. by rewrite bool_decide_true. }
  assert ((forall c', unloaded (g_capture G) w c id c' T = w_obj w c' T) ->
    V (type_only w (unloaded (g_capture G) w c id) (eq T)) s) as Hno.
  { intros E. eapply V_ext; [..|exact HV]; try done. intros c' T'. simpl. destruct (decide (T = T')) as [<-|?]; [apply E|done]. }
  destruct (ac_cell a !! T) as [[k v]|] eqn:Hk; cycle 1.
  { exists s. split; [done|]. split; [done|]. apply Hno. intros. unfold unloaded. by rewrite Eo. }
  destruct (k =? id) eqn:Ek; cycle 1.
  { exists s. split; [done|]. split; [done|]. apply Hno. intros. unfold unloaded. rewrite Eo. simpl. by rewrite Ek. }
  assert (sees id (w_obj w c T) = Some v) as Es by (rewrite Eo; simpl; by rewrite Ek).
  pose proof (V_innermost w s T Hwf HV) as Hi. unfold sreceive. destruct (find_e T s) as [[d b]|] eqn:Hf; simpl in Hi.
  - pose proof (find_ctx_in _ _ _ _ _ Hf) as (Hin & Hb & HP). assert (d <> c) as Hdc. { intros ->. apply Hn. by rewrite <- (v_stack _ _ HV). }
    assert (get_e T b = w_obj w d T) as Ed by (by rewrite (v_obj _ _ HV), Hb). rewrite Ed.
    destruct (key_of (w_obj w d T) =? id) eqn:Ekd.
    + simpl. exists s. split; [done|]. split; [done|]. apply Hno. intros c'. unfold unloaded. rewrite Es, Hi.
      destruct (sees id (w_obj w d T)) eqn:E; [done|]. apply sees_eq in E; [|done]. congruence.
    + apply sees_eq in Ekd; [|done]. unfold sstore, sassert. rewrite (proj2 (Z.eqb_neq id 0)) by done. cbn [negb rbind fst snd].
      rewrite put_lookup, decide_False, Ha by done. 
      assert (same s (put d (set_e T (id, v) b) s)) as Hs1 by (eapply same_put; [done|apply set_e_tup]).
      eexists. split; [done|]. split.
      { eapply same_wf; [exact Hwf|]. eapply same_trans; [exact Hs1|]. eapply same_put; [rewrite put_lookup, decide_False by done; exact Ha|done]. }
      eapply (V_put (World (w_open w) (w_types w) (fun c' T' => if decide (c' = d) then get_e T' (set_e T (id, v) b) else w_obj w c' T') (w_next w)));
        [|rewrite put_lookup, decide_False by done; exact Ha|done..|].
      * eapply V_put; [exact HV|exact Hb|apply set_e_tup| |done..].
        unfold set_e. case_bool_decide; [done|]. simpl. pose proof (v_ctx _ _ HV d) as Hd. rewrite Hb in Hd. destruct Hd as [_ ->]. done.
      * intros c' T'. simpl. destruct (decide (T = T')) as [<-|HneT].
        -- unfold unloaded. rewrite Es, Hi, Ekd. destruct (decide (c' = c)) as [->|Hcc].
           ++ rewrite decide_False by done. unfold get_e. simpl. rewrite bool_decide_true by done. by rewrite lookup_delete.
           ++ destruct (decide (c' = d)); [symmetry; by apply get_e_set|done].
        -- destruct (decide (c' = c)) as [->|Hcc].
           ++ rewrite (v_obj _ _ HV), Ha. unfold get_e, cell_clear. simpl. by rewrite lookup_delete_ne.
           ++ destruct (decide (c' = d)) as [->|?]; [|done]. rewrite get_e_set_ne by done. by rewrite (v_obj _ _ HV), Hb.
  - unfold scollect. rewrite (V_find_d _ _ HV). destruct (g_capture G) eqn:EG; simpl.
    + rewrite Ha. eexists. split; [done|]. split.
      { eapply same_wf; [exact Hwf|]. by eapply same_put. }
      eapply V_put; [exact HV|exact Ha|done..|]. intros c' T'. simpl. destruct (decide (T = T')) as [<-|HneT].
      * unfold unloaded. rewrite Es, Hi. destruct (decide (c' = c)) as [->|Hcc].
        -- rewrite bool_decide_true by done. simpl. unfold get_e. simpl. rewrite bool_decide_true by done. by rewrite lookup_delete.
        -- by rewrite bool_decide_false.
      * destruct (decide (c' = c)) as [->|Hcc]; [|done]. rewrite (v_obj _ _ HV), Ha. unfold get_e, cell_clear. simpl. by rewrite lookup_delete_ne.
    + exists s. split; [done|]. split; [done|]. apply Hno. intros c'. unfold unloaded. by rewrite Es, Hi.
Qed.

Lemma V_unload_list G w0 c id : forall l w s g, swf s -> V w s -> is_Some (w_types w c) -> c ∉ w_open w -> id <> 0 ->
  w_open w = w_open w0 -> w_types w = w_types w0 -> w_next w = w_next w0 -> NoDup l ->
  (forall T, T ∈ l -> handles w T c = true /\ forall c', w_obj w c' T = w_obj w0 c' T) ->
  exists s', sunload_list G c id (map SE l) s g = Ok (s', g) /\ swf s' /\
    V (type_only w (unloaded (g_capture G) w0 c id) (fun T => T ∈ l)) s'.
Proof.
  induction l as [|T l IH]; intros w s g Hwf HV Hty Hn Hid E1 E2 E3 Hnd Hl.
  - exists s. split; [done|]. split; [done|]. eapply V_ext; [..|exact HV]; done.
  - cbn [map sunload_list]. unfold sassert. rewrite (proj2 (Z.eqb_neq id 0)) by done. cbn [negb rbind].
    apply NoDup_cons in Hnd as [HnT Hnd].
    destruct (V_unload1 G w s g c id T Hwf HV Hty Hn Hid) as (s1 & -> & Hwf1 & HV1). { apply Hl. constructor. }
    cbn [rbind fst snd]. destruct (IH _ s1 g Hwf1 HV1) as (s2 & -> & Hwf2 & HV2); auto.
    + intros T' HT'. split; [by apply (Hl T'); constructor|]. intros c'. simpl. rewrite decide_False by congruence. apply Hl. by constructor.
    + exists s2. split; [done|]. split; [done|]. eapply V_ext; [..|exact HV2]; try done. intros c' T'. simpl.
      destruct (decide (T' ∈ l)) as [Hx|Hx].
      * by rewrite decide_True by by constructor.
      * destruct (decide (T = T')) as [<-|Hne].
        -- rewrite decide_True by constructor. unfold unloaded, innermost, handles. rewrite E1, E2.
           rewrite !(proj2 (Hl T ltac:(constructor))). destruct (sees id (w_obj w0 c T)); [|done].
           destruct (find _ _); [|done]. by rewrite !(proj2 (Hl T ltac:(constructor))).
        -- rewrite decide_False; [done|]. intros Hy. apply elem_of_cons in Hy as [?|?]; [congruence|done].
Qed.

(** ** C46: one step, then any number of steps *)
Lemma R_tup_nodup m s c a : R m s -> actxs s !! c = Some a -> NoDup (ac_tup a).
Proof. intros HR Ha. by destruct (R_awf _ _ _ _ HR Ha). Qed.

Lemma V_agrees w m s : R m s -> V w s -> agrees w m.
Proof.
  intros HR HV. split; [|split].
  - intros c. rewrite (R_active _ _ _ HR). by rewrite (v_stack _ _ HV).
  - intros c T. rewrite (v_obj _ _ HV). destruct (actxs s !! c) as [a|] eqn:Ha; [by eapply R_held|].
    apply held_dead. exact (R_look_none _ _ _ HR Ha).
  - intros c T. rewrite (R_serves _ _ _ _ HR). by rewrite (V_innermost _ _ _ (R_wf _ _ HR) HV).
Qed.

Lemma step_both G o w w' m s g : R m s -> V w s -> wstep (g_capture G) o w = Some w' ->
  exists m' s', cstep G o m g = Ok (m', g) /\ R m' s' /\ V w' s'.
Proof.
  intros HR HV Hw. pose proof (R_wf _ _ HR) as Hwf. destruct o as [l|l|c|c|c id|id T v|c]; simpl in Hw; [|done|..].
  - destruct (decide (NoDup l)) as [Hnd|]; [|done]. injection Hw as <-.
    destruct (new_R G (map SE l) m s) as [Hc HR']; [|done|].
    { apply NoDup_ListNoDup. apply FinFun.Injective_map_NoDup; [intros ? ? E; by injection E|by apply NoDup_ListNoDup]. }
    eexists _, _. split; [reflexivity|]. split; [exact HR'|]. assert (actxs s !! snc s = None) as Hnone.
    { destruct (actxs s !! snc s) as [a|] eqn:Ha; [|done]. pose proof (wf_lt _ Hwf _ _ Ha). lia. }
    split; simpl.
    + apply (v_stack _ _ HV).
    + by rewrite (v_next _ _ HV).
    + intros c. rewrite <- (v_next _ _ HV). destruct (decide (c = snc s)) as [->|Hne].
      * rewrite lookup_insert. split; [|done]. by exists l.
      * rewrite lookup_insert_ne by done. apply (v_ctx _ _ HV).
    + intros c T. rewrite (v_obj _ _ HV). destruct (decide (c = snc s)) as [->|Hne].
      * rewrite lookup_insert, Hnone. unfold get_e. simpl. by case_bool_decide.
      * by rewrite lookup_insert_ne.
  - destruct (decide _) as [[Hty Hn]|]; [|done]. injection Hw as <-. pose proof (v_ctx _ _ HV c) as Hc.
    destruct (actxs s !! c) as [a|] eqn:Ha; [|rewrite Hc in Hty; by destruct Hty]. destruct Hc as [(l & _ & Ht) Hq].
    assert (sact c s = Ok (SMem (c :: stack s) (actxs s) (snc s))) as E.
    { unfold sact. rewrite Ha. rewrite bool_decide_false by by rewrite (v_stack _ _ HV). unfold nodes. by rewrite Hq. }
    destruct (act_R G _ _ _ _ HR E) as (m' & E' & HR'). simpl. rewrite E'. eexists _, _. split; [reflexivity|]. split; [exact HR'|].
    destruct HV. split; auto. simpl. by rewrite v_stack0.
  - destruct (w_open w) as [|c' l] eqn:Eo; [done|]. destruct (decide (c = c')) as [<-|]; [|done]. injection Hw as <-.
    assert (sdeact c s = Ok (SMem l (actxs s) (snc s))) as E.
    { unfold sdeact. rewrite (v_stack _ _ HV), Eo. by rewrite bool_decide_true. }
    destruct (deact_R G _ _ _ _ HR E) as (m' & E' & HR'). simpl. rewrite E'. eexists _, _. split; [reflexivity|]. split; [exact HR'|].
    destruct HV. split; auto.
  - destruct (decide _) as [(Hty & Hn & Hid)|]; [|done]. injection Hw as <-. pose proof (v_ctx _ _ HV c) as Hc.
    destruct (actxs s !! c) as [a|] eqn:Ha; [|rewrite Hc in Hty; by destruct Hty]. destruct Hc as [(l & El & Ht) Hq].
    pose proof (R_tup_nodup _ _ _ _ HR Ha) as Hnd. rewrite Ht in Hnd. 
    destruct (V_unload_list G w c id (rev l) w s g) as (s' & E & Hwf' & HV'); auto.
    { apply NoDup_ListNoDup, NoDup_rev. apply NoDup_ListNoDup in Hnd. by eapply NoDup_map_inv. }
    { intros T HT. split; [|done]. unfold handles. rewrite El. apply bool_decide_eq_true. apply elem_of_list_In, in_rev, elem_of_list_In in HT. done. }
    assert (sunload G c id s g = Ok (s', g)) as E1.
    { unfold sunload. rewrite Ha. rewrite bool_decide_false by by rewrite (v_stack _ _ HV). by rewrite Ht, <- map_rev. }
    destruct (unload_R G _ _ _ _ _ _ _ HR E1) as (m' & E' & HR'). simpl. exists m', s'. split; [exact E'|]. split; [exact HR'|].
    eapply V_ext; [..|exact HV']; try done. intros c' T. simpl. destruct (decide (T ∈ rev l)) as [?|HT]; [done|].
    unfold unloaded. enough (w_obj w c T = None) as -> by done. rewrite (v_obj _ _ HV), Ha. unfold get_e, nodes. rewrite Hq. simpl.
    rewrite bool_decide_false; [done|]. rewrite Ht, in_map_SE. intros Hx. apply HT. apply elem_of_list_In. rewrite <- in_rev. by apply elem_of_list_In.
  - destruct (decide (id <> 0)) as [Hid|]; [|done]. injection Hw as <-. pose proof (V_innermost _ _ T Hwf HV) as Hi.
    assert (exists s', sload G false id (IVal T v) s g = Ok (s', g) /\
      V (World (w_open w) (w_types w) (fun c T' => if decide (T' = T /\ innermost w T = Some c) then Some (id, v) else w_obj w c T') (w_next w)) s') as (s' & E & HV').
    { unfold sload. destruct (find_e T s) as [[d b]|] eqn:Hf; simpl in Hi.
      - pose proof (find_ctx_in _ _ _ _ _ Hf) as (Hin & Hb & HP). unfold sstore, sassert. rewrite (proj2 (Z.eqb_neq id 0)) by done. simpl.
        eexists. split; [reflexivity|]. eapply V_put; [exact HV|exact Hb|apply set_e_tup| |done..|].
        + unfold set_e. case_bool_decide; [done|]. simpl. pose proof (v_ctx _ _ HV d) as Hd. rewrite Hb in Hd. destruct Hd as [_ ->]. done.
        + intros c' T'. simpl. rewrite Hi. destruct (decide (c' = d)) as [->|Hne].
          * destruct (decide (T' = T)) as [->|HneT]; [rewrite decide_True by done; by rewrite get_e_set|].
            rewrite decide_False by tauto. rewrite get_e_set_ne by done. by rewrite (v_obj _ _ HV), Hb.
          * rewrite decide_False; [done|]. intros [_ ?]. congruence.
      - unfold scollect. rewrite (V_find_d _ _ HV). destruct (g_capture _); simpl.
        all: eexists; split; [reflexivity|]; eapply V_ext; [..|exact HV]; try done; intros c' T'; simpl; rewrite Hi, decide_False; [done|by intros [_ ?]]. }
    destruct (load_R G _ _ _ _ _ _ _ _ HR E) as (m' & E' & HR'). simpl. exists m', s'. split; [exact E'|]. split; [exact HR'|exact HV'].
  - destruct (decide _) as [[Hty Hn]|]; [|done]. injection Hw as <-. pose proof (v_ctx _ _ HV c) as Hc.
    destruct (actxs s !! c) as [a|] eqn:Ha; [|rewrite Hc in Hty; by destruct Hty].
    assert (sdestroy c s = Ok (SMem (stack s) (delete c (actxs s)) (snc s))) as E.
    { unfold sdestroy. rewrite Ha. by rewrite bool_decide_false by by rewrite (v_stack _ _ HV). }
    destruct (destroy_R G _ _ _ _ HR E) as (m' & E' & HR'). simpl. rewrite E'. eexists _, _. split; [reflexivity|]. split; [exact HR'|].
    destruct HV. split; auto; simpl.
    + intros c'. destruct (decide (c' = c)) as [->|Hne]; [by rewrite lookup_delete|]. rewrite lookup_delete_ne by done. apply v_ctx0.
    + intros c' T. destruct (decide (c' = c)) as [->|Hne]; [by rewrite lookup_delete|]. rewrite lookup_delete_ne by done. apply v_obj0.
Qed.

(** Contexts without diagnostic_details: every sequence of operations has exactly the effects of the specification, in every build;
    no assertion fails, no destroyed object is touched, the current error id stays what it was. Missing: contexts that collect, for
    which the claim is false, see C46_reactivated_refuted below (for these, C09_unload_moves_objects describes a single unload). *)
Theorem C46_context_operations_partial :
  forall G l w g, wrun (g_capture G) l world0 = Some w ->
    exists m, crun G l mem0 g = Ok (m, g) /\ agrees w m.
Proof.
  intros G l w g. assert (forall l w0 w m s, R m s -> V w0 s -> wrun (g_capture G) l w0 = Some w ->
    exists m' s', crun G l m g = Ok (m', g) /\ R m' s' /\ V w s') as H.
  { clear. induction l as [|o l IH]; simpl; intros w0 w m s HR HV Hw; [simplify_eq; eauto|].
    destruct (wstep _ o w0) as [w1|] eqn:E1; [|done]. destruct (step_both G o w0 w1 m s g HR HV E1) as (m1 & s1 & -> & HR1 & HV1). simpl.
    by eapply IH. }
  intros Hw. destruct (H l world0 w mem0 smem0 R0) as (m & s & E & HR & HV); [|done|].
  - split; auto. intros c. simpl. by rewrite lookup_empty. 
  - exists m. split; [done|]. by eapply V_agrees.
Qed.
Print Assumptions C46_context_operations_partial.

(** unload(id) can be repeated: the second time changes nothing. *)
Lemma unloaded_twice capture w c id : c ∉ w_open w -> id <> 0 ->
  forall c' T, unloaded capture (World (w_open w) (w_types w) (unloaded capture w c id) (w_next w)) c id c' T = unloaded capture w c id c' T.
Proof.
  intros Hn Hid c' T. unfold unloaded at 1. simpl. change (innermost (World _ _ _ _) T) with (innermost w T).
  destruct (sees id (unloaded capture w c id c T)) as [v|] eqn:E; [|done].
  destruct (innermost w T) as [d|] eqn:Hi.
  - assert (d <> c) as Hdc. { intros ->. apply Hn. apply find_some in Hi as [Hi _]. by apply elem_of_list_In. }
    destruct (sees id (unloaded capture w c id d T)) eqn:E2; [done|]. exfalso. unfold unloaded in E, E2. rewrite Hi in E, E2.
    destruct (sees id (w_obj w c T)) eqn:E3; [|congruence]. destruct (sees id (w_obj w d T)) eqn:E4; [congruence|].
    rewrite decide_True in E2 by done. simpl in E2. by rewrite Z.eqb_refl in E2.
  - destruct (capture && _) eqn:Ec; [|done]. apply andb_true_iff in Ec as [-> Ec]. apply bool_decide_eq_true in Ec as ->.
    unfold unloaded in E |- *. rewrite Hi in E |- *. rewrite bool_decide_true in E by done. simpl in E. destruct (sees id (w_obj w c T)) eqn:E3; [done|congruence].
Qed.
Theorem C46_unload_repeated :
  forall G l c id w g, wrun (g_capture G) (l ++ [CUnload c id]) world0 = Some w ->
    exists m m', crun G (l ++ [CUnload c id]) mem0 g = Ok (m, g) /\ crun G (l ++ [CUnload c id; CUnload c id]) mem0 g = Ok (m', g) /\
      (forall c' T, held m' c' T = held m c' T) /\ (forall c', active m' c' <-> active m c') /\ (forall c' T, serves m' T c' <-> serves m T c').
Proof.
  intros G l c id w g Hw. assert (forall l1 l2 w0, wrun (g_capture G) (l1 ++ l2) w0 =
    match wrun (g_capture G) l1 w0 with Some w1 => wrun (g_capture G) l2 w1 | None => None end) as Happ.
  { induction l1 as [|o l1 IH]; intros; simpl; [done|]. by destruct (wstep _ o w0). }
  destruct (C46_context_operations_partial G _ w g Hw) as (m & E & A1 & A2 & A3). rewrite Happ in Hw.
  destruct (wrun _ l world0) as [w1|] eqn:E1; [|done]. simpl in Hw. destruct (decide _) as [(Hty & Hn & Hid)|] eqn:Hd; [|done]. injection Hw as <-.
  destruct (C46_context_operations_partial G (l ++ [CUnload c id; CUnload c id])
    (World (w_open w1) (w_types w1) (unloaded (g_capture G) (World (w_open w1) (w_types w1) (unloaded (g_capture G) w1 c id) (w_next w1)) c id) (w_next w1)) g)
    as (m' & E' & B1 & B2 & B3).
  { rewrite Happ, E1. simpl. rewrite Hd. simpl. by rewrite Hd. }
  exists m, m'. split; [done|]. split; [done|]. split; [|split].
  - intros. rewrite A2, B2. simpl. by rewrite unloaded_twice.
  - intros. by rewrite A1, B1.
  - intros. rewrite A3, B3. done.
Qed.
Print Assumptions C46_unload_repeated.

(** A context with an object of error 5 is unloaded, activated again, given another object, and unloaded again, for two errors;
    the context around it has a place for one of the types. *)
Definition ex46 : list cop :=
  [CNew [TA; TB]; CNew [TB; TC]; CAct 0%nat; CAct 1%nat; CLoad 5 TB (VZ 1); CLoad 5 TC (VZ 2); CLoad 5 TA (VZ 3); CDeact 1%nat;
   CUnload 1%nat 9; CUnload 1%nat 5; CUnload 1%nat 5; CAct 1%nat; CLoad 9 TB (VZ 4); CDeact 1%nat; CUnload 1%nat 9; CLoad 5 TB (VZ 6);
   CAct 1%nat; CLoad 5 TB (VZ 7); CDeact 1%nat; CUnload 1%nat 5].
Definition ex46_show (w : world) := (w_open w, flat_map (fun c => map (w_obj w c) [TA; TB; TC]) [0%nat; 1%nat]).
Example ex46_spec : option_map ex46_show (wrun true ex46 world0) =
  Some ([0%nat], [Some (5, VZ 3); Some (5, VZ 6); None; None; Some (5, VZ 7); None]).
Proof. vm_compute. reflexivity. Qed.
Example ex46_lib : match crun GX ex46 mem0 glob0 with
  | Ok (m, _) => flat_map (fun c => map (held m c) [TA; TB; TC]) [0%nat; 1%nat] | Fail _ => [] end =
  [Some (5, VZ 3); Some (5, VZ 6); None; None; Some (5, VZ 7); None].
Proof. vm_compute. reflexivity. Qed.

(** ** Contexts that collect
    The discipline alone, for all contexts. *)
Definition permitted1 (o : cop) (x : list cid * list cid * cid) : option (list cid * list cid * cid) :=
  let '(open, alive, next) := x in
  match o with
  | CNew l | CNewD l => if decide (NoDup l) then Some (open, next :: alive, S next) else None
  | CAct c => if decide (c ∈ alive /\ c ∉ open) then Some (c :: open, alive, next) else None
  | CDeact c => match open with c' :: l => if decide (c = c') then Some (l, alive, next) else None | [] => None end
  | CUnload c id => if decide (c ∈ alive /\ c ∉ open /\ id <> 0) then Some x else None
  | CLoad id T v => if decide (id <> 0) then Some x else None
  | CDestroy c => if decide (c ∈ alive /\ c ∉ open) then Some (open, filter (fun c' => c' <> c) alive, next) else None
  end.
Fixpoint permitted (l : list cop) (x : list cid * list cid * cid) : bool :=
  match l with [] => true | o :: l' => match permitted1 o x with Some x' => permitted l' x' | None => false end end.

(** For contexts with diagnostic_details the claim is false in two ways.
    One that has been unloaded and is activated again makes the next load of an unwanted type write to freed memory
    (capture_list::unload, capture_list.hpp:86-96, leaves last_ pointing to a destroyed node);
    one that still has objects when it is activated again takes away, when it is deactivated, the place of a context
    around it (slot<dynamic_allocator>::deactivate, error.hpp:296-306, restores stale pointers): the outer context is active and
    has a place for the type, but loads no longer reach it. *)
Definition dangling_seq : list cop :=
  [CNewD []; CAct 0%nat; CLoad 5 TA (VZ 1); CDeact 0%nat; CUnload 0%nat 5; CAct 0%nat; CLoad 9 TB (VZ 2)].
Definition cutoff_seq : list cop :=
  [CNewD []; CAct 0%nat; CLoad 5 TA (VZ 1); CDeact 0%nat; CNew [TA]; CAct 1%nat; CAct 0%nat; CDeact 0%nat].
Theorem C46_reactivated_refuted :
  (exists l, permitted l ([], [], 0%nat) = true /\ crun GX l mem0 glob0 = Fail UAF) /\
  (exists l m g c, permitted l ([], [], 0%nat) = true /\ crun GX l mem0 glob0 = Ok (m, g) /\
     ctxs m !! c = Some (CCtx [SE TA] true) /\ ~ serves m TA c).
Proof.
  split.
  - exists dangling_seq. split; vm_compute; reflexivity.
  - destruct (crun GX cutoff_seq mem0 glob0) as [[m g]|f] eqn:E.
    + exists cutoff_seq, m, g, 1%nat.
      assert (match crun GX cutoff_seq mem0 glob0 with
              | Ok (m, g) => match ctxs m !! 1%nat with Some (CCtx [SE T] true) => bool_decide (T = TA) | _ => false end && match tls m !! TA with None => true | _ => false end
              | Fail _ => false end = true) as H by (vm_compute; reflexivity).
      rewrite E in H. apply andb_true_iff in H as [H1 H2].
      destruct (tls m !! TA) eqn:Et; [done|].
      destruct (ctxs m !! 1%nat) as [[[|[T|] [|? ?]] [|]]|] eqn:Ec; try done. apply bool_decide_eq_true in H1 as ->. split; [vm_compute; reflexivity|]. split; [done|]. split; [done|].
      intros (ad & H & _). congruence.
    + exfalso. assert (match crun GX cutoff_seq mem0 glob0 with Ok _ => true | Fail _ => false end = true) as H by (vm_compute; reflexivity).
      by rewrite E in H.
Qed.
Print Assumptions C46_reactivated_refuted.
