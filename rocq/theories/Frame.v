(** What a run can and cannot change in the contexts that exist when it starts. *)
From Verif Require Export Wb.
Open Scope Z_scope.

Record swf (s : smem) : Prop := Swf {
  wf_nodup : NoDup (stack s);
  wf_in : forall c, c ∈ stack s -> is_Some (actxs s !! c);
  wf_lt : forall c a, actxs s !! c = Some a -> (c < snc s)%nat }.

Lemma R_wf m s : R m s -> swf s.
Proof. intros HR. split; [apply (R_nodup _ _ HR)|apply (R_in _ _ HR)|apply (R_lt _ _ HR)]. Qed.

Lemma find_ctx_in P l cs c a : find_ctx P l cs = Some (c, a) -> c ∈ l /\ cs !! c = Some a /\ P a = true.
Proof.
  induction l as [|c' l IH]; simpl; [done|]. destruct (cs !! c') as [a'|] eqn:E; [|done].
  destruct (P a') eqn:EP; intros H; simplify_eq; [repeat split; auto; constructor|].
  destruct (IH H) as (? & ? & ?). repeat split; auto. by constructor.
Qed.

(** nothing before the one found satisfies P *)
Lemma find_ctx_first P l1 c l2 cs a c' a' : NoDup (l1 ++ c :: l2) -> cs !! c = Some a -> P a = true ->
  find_ctx P (l1 ++ c :: l2) cs = Some (c', a') -> c' ∉ l2.
Proof.
  intros Hnd Hc HP. induction l1 as [|c1 l1 IH]; simpl.
  - rewrite Hc, HP. intros. simplify_eq. apply NoDup_cons in Hnd as [? _]. done.
  - simpl in Hnd. apply NoDup_cons in Hnd as [Hn Hnd]. destruct (cs !! c1) as [a1|]; [|done]. destruct (P a1); [|by apply IH].
    intros. simplify_eq. intros Hin. apply Hn. apply elem_of_app. right. by constructor.
Qed.
Lemma find_ctx_exists P l cs c a : (forall c, c ∈ l -> is_Some (cs !! c)) -> c ∈ l -> cs !! c = Some a -> P a = true ->
  find_ctx P l cs <> None.
Proof.
  intros Hall Hin Hc HP. induction l as [|c1 l IH]; simpl; [by apply elem_of_nil in Hin|].
  destruct (Hall c1) as [a1 Ha1]; [constructor|]. rewrite Ha1. destruct (P a1) eqn:E; [done|].
  apply IH; [intros; apply Hall; by constructor|]. apply elem_of_cons in Hin as [->|?]; [congruence|done].
Qed.

Lemma set_e_tup T x a : ac_tup (set_e T x a) = ac_tup a.
Proof. unfold set_e. by case_bool_decide. Qed.
Lemma get_set_node_ne T T' x l : T <> T' -> get_node T (set_node T' x l) = get_node T l.
Proof.
  intros Hne. induction l as [|[T1 y] l IH]; simpl; [done|]. destruct (decide (T' = T1)); simpl; destruct (decide (T = T1)); congruence.
Qed.
Lemma get_set_node T x l : has_node T l = true -> get_node T (set_node T x l) = Some x.
Proof.
  unfold has_node. rewrite bool_decide_eq_true. induction l as [|[T1 y] l IH]; simpl; [intros H; by apply elem_of_nil in H|].
  intros H. destruct (decide (T = T1)); simpl.
  - by rewrite decide_True.
  - rewrite decide_False by done. apply IH. apply elem_of_cons in H as [?|?]; [by simpl in *|done].
Qed.
Lemma nodes_set_e T x a : nodes (set_e T x a) = if bool_decide (SE T ∈ ac_tup a) then nodes a else set_node T x (nodes a).
Proof. unfold set_e, nodes. case_bool_decide; simpl; [done|]. by destruct (ac_coll a). Qed.
Lemma get_e_set_ne T T' x a : T <> T' -> get_e T (set_e T' x a) = get_e T a.
Proof.
  intros Hne. unfold get_e. rewrite set_e_tup, nodes_set_e. case_bool_decide.
  - unfold set_e. case_bool_decide; simpl; [|done]. by rewrite lookup_insert_ne.
  - case_bool_decide; [done|]. by apply get_set_node_ne.
Qed.
Lemma get_e_set T x a : has_e T a = true -> get_e T (set_e T x a) = Some x.
Proof.
  unfold has_e, get_e. rewrite set_e_tup, nodes_set_e. unfold set_e. case_bool_decide; simpl; [intros; by rewrite lookup_insert|].
  apply get_set_node.
Qed.
Lemma has_e_alt T a : has_e T a = bool_decide (SE T ∈ ac_tup a) || bool_decide (is_Some (get_e T a)).
Proof.
  unfold has_e, get_e. case_bool_decide; simpl; [done|]. destruct (has_node T (nodes a)) eqn:E.
  - apply get_node_has in E. by rewrite bool_decide_true.
  - apply has_node_false in E. rewrite E. by rewrite bool_decide_false by (intros [? ?]; done).
Qed.
Lemma has_e_set T T' x a : has_e T (set_e T' x a) = has_e T a.
Proof.
  unfold has_e. rewrite set_e_tup, nodes_set_e. case_bool_decide; [done|]. simpl. case_bool_decide; [done|].
  unfold has_node. by rewrite set_node_types.
Qed.
Lemma get_node_app T l T' x : get_node T (l ++ [(T', x)]) =
  match get_node T l with Some y => Some y | None => if decide (T = T') then Some x else None end.
Proof. induction l as [|[T1 y] l IH]; simpl; [done|]. destruct (decide (T = T1)); auto. Qed.
Definition app_coll (key : Z) (T : ety) (x : Z * val) (a : actx) : actx := set_coll (Some (Coll key (nodes a ++ [(T, x)]) true)) a.
Lemma get_e_app T T' key x a : T <> T' -> get_e T (app_coll key T' x a) = get_e T a.
Proof.
  intros Hne. unfold get_e. simpl. case_bool_decide; [done|]. unfold nodes at 1. simpl. rewrite get_node_app.
  rewrite decide_False by done. by destruct (get_node T (nodes a)).
Qed.

(** ** Contexts are only created and destroyed in matching pairs *)
Record same (s s' : smem) : Prop := Same {
  sm_stack : stack s' = stack s;
  sm_tup : forall c a, actxs s !! c = Some a -> exists a', actxs s' !! c = Some a' /\ ac_tup a' = ac_tup a;
  sm_none : forall c, actxs s !! c = None -> actxs s' !! c = None;
  sm_snc : (snc s <= snc s')%nat }.

Lemma same_refl s : same s s.
Proof. split; eauto. Qed.
Lemma same_trans s1 s2 s3 : same s1 s2 -> same s2 s3 -> same s1 s3.
Proof.
  intros [] []. split; try congruence; try lia; auto.
  intros c a Ha. destruct (sm_tup0 _ _ Ha) as (a' & Ha' & E). destruct (sm_tup1 _ _ Ha') as (a2 & ? & ?). exists a2. split; congruence.
Qed.
Lemma same_wf s s' : swf s -> same s s' -> swf s'.
Proof.
  intros [] []. split.
  - by rewrite sm_stack0.
  - rewrite sm_stack0. intros c Hc. destruct (wf_in0 c Hc) as [a Ha]. destruct (sm_tup0 _ _ Ha) as (a' & ? & ?). eauto.
  - intros c a' Ha'. destruct (actxs s !! c) as [a|] eqn:E; [|by rewrite sm_none0 in Ha']. apply wf_lt0 in E. lia.
Qed.
Lemma same_put c a a' s : actxs s !! c = Some a -> ac_tup a' = ac_tup a -> same s (put c a' s).
Proof.
  intros Ha Ht. split; simpl; auto.
  - intros c1 a1 H1. destruct (decide (c1 = c)) as [->|Hne].
    + rewrite lookup_insert. exists a'. split; congruence.
    + rewrite lookup_insert_ne by done. eauto.
  - intros c1 H1. rewrite lookup_insert_ne; auto. congruence.
Qed.
Lemma atom_same s s' : atom s s' -> same s s'.
Proof.
  destruct 1 as [? c a T ? ? Hf|? c a T ? ? ? Hf Hd|? c a T|? c a q|? c a T ? ? ?].
  - apply find_ctx_in in Hf as (? & ? & ?). eapply same_put; eauto. apply set_e_tup.
  - apply find_ctx_in in Hd as (? & ? & ?). by eapply same_put.
  - by eapply same_put.
  - by eapply same_put.
  - by eapply same_put.
Qed.

Lemma snew_wf tup s : swf s -> swf (snd (snew tup s)).
Proof.
  intros []. split; simpl; auto.
  - intros c Hc. destruct (wf_in0 c Hc) as [a Ha]. destruct (decide (c = snc s)) as [->|?]; [rewrite lookup_insert; eauto|].
    rewrite lookup_insert_ne by done. eauto.
  - intros c a. destruct (decide (c = snc s)) as [->|?]; [lia|]. rewrite lookup_insert_ne by done. intros Ha. apply wf_lt0 in Ha. lia.
Qed.
Lemma wf_fresh s : swf s -> actxs s !! snc s = None /\ snc s ∉ stack s.
Proof.
  intros []. assert (actxs s !! snc s = None) as E.
  { destruct (actxs s !! snc s) as [a|] eqn:E; [|done]. apply wf_lt0 in E. lia. }
  split; auto. intros Hin. destruct (wf_in0 _ Hin). congruence.
Qed.
Lemma sact_wf c s s' : swf s -> sact c s = Ok s' -> swf s'.
Proof.
  intros []. unfold sact. destruct (actxs s !! c) as [a|] eqn:E; [|done]. case_bool_decide; [done|]. destruct (nodes a); [|done].
  intros. simplify_eq. split; simpl; auto.
  - by constructor.
  - intros c' Hc'. apply elem_of_cons in Hc' as [->|?]; eauto.
Qed.
Lemma same_scope tup s s2 s3 : swf s -> same (snd (snew tup s)) s2 -> sdestroy (snc s) s2 = Ok s3 -> same s s3.
Proof.
  intros Hwf [] Hd. apply sdestroy_inv in Hd as [Hni ->]. destruct (wf_fresh _ Hwf) as [Hf1 Hf2]. simpl in *. split; simpl; auto; [| |lia].
  - intros c a Ha. assert (c <> snc s) by congruence. rewrite lookup_delete_ne by done. apply sm_tup0. by rewrite lookup_insert_ne.
  - intros c Hc. destruct (decide (c = snc s)) as [->|?]; [by rewrite lookup_delete|]. rewrite lookup_delete_ne by done.
    apply sm_none0. by rewrite lookup_insert_ne.
Qed.
Lemma same_act c s s1 s2 s3 : sact c s = Ok s1 -> same s1 s2 -> sdeact c s2 = Ok s3 -> same s s3.
Proof.
  intros Ha [] Hd. apply sact_stack in Ha as (A1 & A2 & A3). apply sdeact_inv in Hd as (D1 & D2 & D3).
  rewrite A1, D1 in *. rewrite A2, A3 in *. split; rewrite ?D2, ?D3; auto. by simplify_eq.
Qed.

Lemma wb_same s s' : wb s s' -> swf s -> same s s'.
Proof.
  induction 1; intros Hwf.
  - apply same_refl.
  - pose proof (IHwb1 Hwf) as H1. eapply same_trans; eauto using same_wf.
  - by apply atom_same.
  - eapply same_scope; eauto. apply IHwb. by apply snew_wf.
  - eapply same_act; eauto. apply IHwb. by eapply sact_wf.
Qed.

(** ** Frame
    Contexts that are active below one with a cell for T keep their objects of type T. *)
Definition hides (T : ety) (c : cid) (s : smem) : Prop :=
  exists l1 c1 l2 a1, stack s = l1 ++ c1 :: l2 /\ actxs s !! c1 = Some a1 /\ SE T ∈ ac_tup a1 /\ c ∈ l2.

Definition hold (T : ety) (c : cid) (s : smem) : option (option (Z * val)) := get_e T <$> actxs s !! c.

Lemma hides_in T c s : hides T c s -> c ∈ stack s.
Proof. intros (l1 & c1 & l2 & a1 & -> & _ & _ & ?). apply elem_of_app. right. by constructor. Qed.

Lemma has_e_cell T a : SE T ∈ ac_tup a -> has_e T a = true.
Proof. intros. unfold has_e. by rewrite bool_decide_true. Qed.

Lemma hides_find_ne T c s c' a' : swf s -> hides T c s -> find_e T s = Some (c', a') -> c' <> c.
Proof.
  intros [] (l1 & c1 & l2 & a1 & E & Ha & Ht & Hc) Hf ->. unfold find_e in Hf. rewrite E in *. eapply find_ctx_first in Hf; eauto.
  by apply has_e_cell.
Qed.
Lemma hides_find T c s : swf s -> hides T c s -> find_e T s <> None.
Proof.
  intros [] (l1 & c1 & l2 & a1 & E & Ha & Ht & Hc). eapply find_ctx_exists; eauto; [|by apply has_e_cell]. rewrite E.
  apply elem_of_app. right. constructor.
Qed.
Lemma hides_same T c s s' : same s s' -> hides T c s -> hides T c s'.
Proof.
  intros [] (l1 & c1 & l2 & a1 & E & Ha & Ht & Hc). destruct (sm_tup0 _ _ Ha) as (a' & Ha' & E').
  exists l1, c1, l2, a'. rewrite E', sm_stack0. auto.
Qed.

Lemma atom_frame T c s s' : swf s -> atom s s' -> hides T c s -> hold T c s' = hold T c s.
Proof.
  intros Hwf Hat Hh. pose proof (hides_in _ _ _ Hh) as Hin. unfold hold.
  destruct Hat as [? c0 a T' ? ? Hf|? c0 a T' ? ? ? Hf Hd|? c0 a T'|? c0 a q|? c0 a T' ? ? ?]; simpl.
  - destruct (decide (c = c0)) as [->|?]; [|by rewrite lookup_insert_ne]. rewrite lookup_insert. 
    assert (T <> T') as Hne by (intros ->; by eapply hides_find_ne).
    apply find_ctx_in in Hf as (_ & -> & _). simpl. f_equal. by apply get_e_set_ne.
  - destruct (decide (c = c0)) as [->|?]; [|by rewrite lookup_insert_ne]. rewrite lookup_insert. 
    assert (T <> T') as Hne by (intros ->; by eapply hides_find).
    apply find_ctx_in in Hd as (_ & -> & _). simpl. f_equal. by apply get_e_app.
  - rewrite lookup_insert_ne; auto. congruence.
  - rewrite lookup_insert_ne; auto. congruence.
  - rewrite lookup_insert_ne; auto. congruence.
Qed.

Lemma wb_frame T c s s' : wb s s' -> swf s -> hides T c s -> hold T c s' = hold T c s.
Proof.
  induction 1; intros Hwf Hh; auto.
  - rewrite IHwb2, IHwb1; auto.
    + eapply same_wf; eauto. by apply wb_same.
    + eapply hides_same; eauto. by apply wb_same.
  - by apply atom_frame.
  - destruct (wf_fresh _ Hwf) as [Hf1 Hf2]. pose proof (hides_in _ _ _ Hh) as Hin. assert (c <> snc s) as Hne by congruence.
    apply sdestroy_inv in H1 as [_ ->]. unfold hold in *. simpl. rewrite lookup_delete_ne by done. rewrite IHwb.
    + simpl. by rewrite lookup_insert_ne.
    + by apply snew_wf.
    + destruct Hh as (l1 & c1 & l2 & a1 & E & Ha & Ht & Hc). exists l1, c1, l2, a1. simpl. repeat split; auto.
      rewrite lookup_insert_ne; auto. intros <-. congruence.
  - pose proof (sact_wf _ _ _ Hwf H) as Hwf1. pose proof H as Hx. apply sact_stack in H as (A1 & A2 & A3).
    apply sdeact_inv in H1 as (D1 & D2 & D3). unfold hold in *. rewrite D2, IHwb; auto; [by rewrite A2|].
    destruct Hh as (l1 & c1 & l2 & a1 & E & Ha & Ht & Hc). exists (c0 :: l1), c1, l2, a1. rewrite A1, A2, E. auto.
Qed.

(** ** Collections only grow, at the end, with types not yet available *)
Definition ctypes (c : cid) (s : smem) : list ety := match actxs s !! c with Some a => (nodes a).*1 | None => [] end.

Lemma atom_ctypes c s s' : atom s s' -> c ∈ stack s -> ctypes c s `prefix_of` ctypes c s'.
Proof.
  intros Hat Hin. unfold ctypes.
  destruct Hat as [? c0 a T' ? ? Hf|? c0 a T' ? ? ? Hf Hd|? c0 a T'|? c0 a q|? c0 a T' ? ? ?]; simpl.
  - destruct (decide (c = c0)) as [->|?]; [|by rewrite lookup_insert_ne]. rewrite lookup_insert.
    apply find_ctx_in in Hf as (_ & -> & _). rewrite nodes_set_e. case_bool_decide; [done|]. by rewrite set_node_types.
  - destruct (decide (c = c0)) as [->|?]; [|by rewrite lookup_insert_ne]. rewrite lookup_insert.
    apply find_ctx_in in Hd as (_ & -> & _). simpl. unfold nodes at 2. simpl. rewrite fmap_app. by apply prefix_app_r.
  - rewrite lookup_insert_ne; auto. congruence.
  - rewrite lookup_insert_ne; auto. congruence.
  - rewrite lookup_insert_ne; auto. congruence.
Qed.

Lemma wb_ctypes c s s' : wb s s' -> swf s -> c ∈ stack s -> ctypes c s `prefix_of` ctypes c s'.
Proof.
  induction 1; intros Hwf Hin; auto.
  - etrans; [by apply IHwb1|]. apply IHwb2; [eapply same_wf; eauto; by apply wb_same|]. by rewrite (wb_stack _ _ H).
  - by apply atom_ctypes.
  - destruct (wf_fresh _ Hwf) as [Hf1 Hf2]. assert (c <> snc s) as Hne by congruence.
    apply sdestroy_inv in H1 as [_ ->]. unfold ctypes in *. simpl. rewrite lookup_delete_ne by done.
    etrans; [|apply IHwb]; [|by apply snew_wf|done]. simpl. by rewrite lookup_insert_ne.
  - pose proof (sact_wf _ _ _ Hwf H) as Hwf1. apply sact_stack in H as (A1 & A2 & A3).
    apply sdeact_inv in H1 as (D1 & D2 & D3). unfold ctypes in *. rewrite D2. rewrite A2 in *. apply IHwb; auto. rewrite A1. by constructor.
Qed.

(** ** Which context a load goes to *)
Definition hasT (T : ety) (c : cid) (s : smem) : bool := match actxs s !! c with Some a => has_e T a | None => false end.
Definition hasD (c : cid) (s : smem) : bool := match actxs s !! c with Some a => has_d a | None => false end.

(** the first context on the stack with property P *)
Fixpoint first_of (P : cid -> bool) (l : list cid) : option cid :=
  match l with [] => None | c :: l' => if P c then Some c else first_of P l' end.

Lemma find_ctx_first_of P l (cs : gmap cid actx) : (forall c, c ∈ l -> is_Some (cs !! c)) ->
  fst <$> find_ctx P l cs = first_of (fun c => match cs !! c with Some a => P a | None => false end) l.
Proof.
  induction l as [|c l IH]; intros H; simpl; [done|]. destruct (H c) as [a Ha]; [constructor|]. rewrite Ha.
  destruct (P a); [done|]. apply IH. intros. apply H. by constructor.
Qed.
Lemma find_e_first T s : swf s -> fst <$> find_e T s = first_of (fun c => hasT T c s) (stack s).
Proof. intros []. unfold find_e. by rewrite find_ctx_first_of. Qed.
Lemma find_d_first s : swf s -> fst <$> find_d s = first_of (fun c => hasD c s) (stack s).
Proof. intros []. unfold find_d. by rewrite find_ctx_first_of. Qed.
Lemma first_of_ext P Q l : (forall c, c ∈ l -> P c = Q c) -> first_of P l = first_of Q l.
Proof.
  induction l as [|c l IH]; intros H; simpl; [done|]. rewrite H by constructor. destruct (Q c); [done|]. apply IH. intros. apply H. by constructor.
Qed.
Lemma first_of_None P l : first_of P l = None <-> forall c, c ∈ l -> P c = false.
Proof.
  induction l as [|c l IH]; simpl; [split; [intros _ c Hc; by apply elem_of_nil in Hc|done]|]. destruct (P c) eqn:E.
  - split; [done|]. intros H. rewrite H in E; [done|constructor].
  - rewrite IH. split.
    + intros H c1 H1. apply elem_of_cons in H1 as [->|?]; auto.
    + intros H c1 H1. apply H. by constructor.
Qed.
Lemma first_of_Some P l c : first_of P l = Some c -> c ∈ l /\ P c = true.
Proof.
  induction l as [|c1 l IH]; simpl; [done|]. destruct (P c1) eqn:E; intros H; simplify_eq; [split; [constructor|done]|].
  destruct (IH H). split; auto. by constructor.
Qed.

Lemma same_hasD c s s' : same s s' -> hasD c s' = hasD c s.
Proof.
  intros []. unfold hasD. destruct (actxs s !! c) as [a|] eqn:E; [|by rewrite sm_none0].
  destruct (sm_tup0 _ _ E) as (a' & -> & Ht). unfold has_d. by rewrite Ht.
Qed.
Lemma same_find_d s s' : swf s -> same s s' -> fst <$> find_d s' = fst <$> find_d s.
Proof.
  intros Hwf Hs. rewrite !find_d_first by eauto using same_wf. rewrite (sm_stack _ _ Hs). apply first_of_ext. intros.
  by apply same_hasD.
Qed.

Lemma atom_hasT T c s s' : swf s -> atom s s' -> c ∈ stack s ->
  hasT T c s' = hasT T c s \/ (find_e T s = None /\ fst <$> find_d s = Some c /\ hasT T c s' = true).
Proof.
  intros Hwf Hat Hin. unfold hasT.
  destruct Hat as [? c0 a T' ? ? Hf|? c0 a T' ? ? ? Hf Hd|? c0 a T'|? c0 a q|? c0 a T' ? ? ?]; simpl.
  - left. destruct (decide (c = c0)) as [->|?]; [|by rewrite lookup_insert_ne]. rewrite lookup_insert.
    apply find_ctx_in in Hf as (_ & -> & _). apply has_e_set.
  - destruct (decide (c = c0)) as [->|?]; [|left; by rewrite lookup_insert_ne]. rewrite lookup_insert.
    destruct (decide (T = T')) as [->|Hne].
    + right. split; auto. rewrite Hd. split; auto. unfold has_e, has_node, nodes. simpl. fold (nodes a).
      rewrite (bool_decide_true (T' ∈ _)); [by rewrite orb_true_r|]. rewrite fmap_app. apply elem_of_app. right. constructor.
    + left. apply find_ctx_in in Hd as (_ & -> & _). rewrite !has_e_alt. fold (app_coll key T' (id, v) a). rewrite get_e_app by done. done.
  - left. rewrite lookup_insert_ne; auto. congruence.
  - left. rewrite lookup_insert_ne; auto. congruence.
  - left. rewrite lookup_insert_ne; auto. congruence.
Qed.

(** An active context starts to keep objects of type T only by collecting one, if no other active context keeps them. *)
Lemma wb_hasT T s s' : wb s s' -> swf s -> forall c, c ∈ stack s ->
  hasT T c s' = hasT T c s \/ (find_e T s = None /\ fst <$> find_d s = Some c /\ hasT T c s' = true).
Proof.
  induction 1; intros Hwf c' Hin; auto.
  - pose proof (wb_same _ _ H Hwf) as Hs. pose proof (same_wf _ _ Hwf Hs) as Hwf2.
    assert (c' ∈ stack s2) as Hin2 by by rewrite (sm_stack _ _ Hs).
    destruct (IHwb2 Hwf2 c' Hin2) as [E2|(N2 & D2 & E2)].
    + rewrite E2. by apply IHwb1.
    + assert (forall c, c ∈ stack s1 -> hasT T c s1 = false) as Hn.
      { intros c Hc. destruct (IHwb1 Hwf c Hc) as [E1|(N1 & D1 & E1)].
        - rewrite <- E1. pose proof (find_e_first T s2 Hwf2) as F. rewrite N2 in F. simpl in F. symmetry in F.
          apply (proj1 (first_of_None _ _) F). by rewrite (sm_stack _ _ Hs).
        - pose proof (find_e_first T s1 Hwf) as F. rewrite N1 in F. simpl in F. symmetry in F.
          by apply (proj1 (first_of_None _ _) F). }
      right. repeat split; auto.
      * pose proof (find_e_first T s1 Hwf) as F. rewrite (proj2 (first_of_None _ _) Hn) in F. by destruct (find_e T s1).
      * rewrite <- D2. symmetry. by apply same_find_d.
  - by apply atom_hasT.
  - destruct (wf_fresh _ Hwf) as [Hf1 Hf2]. assert (c' <> snc s) as Hne by congruence.
    apply sdestroy_inv in H1 as [_ ->]. pose proof (snew_wf tup _ Hwf) as Hwf1.
    assert (forall P, find_ctx P (stack s) (actxs (snd (snew tup s))) = find_ctx P (stack s) (actxs s)) as HP.
    { intros P. simpl. clear -Hf2. induction (stack s) as [|c l IH]; simpl; [done|]. rewrite lookup_insert_ne.
      - destruct (actxs s !! c); [|done]. destruct (P a); [done|]. apply IH. intros ?. apply Hf2. by constructor.
      - intros <-. apply Hf2. constructor. }
    destruct (IHwb Hwf1 c' Hin) as [E|(N & D & E)]; unfold find_e, find_d, hasT in *; simpl in *; rewrite lookup_delete_ne by done.
    + left. rewrite E. by rewrite lookup_insert_ne.
    + right. rewrite HP in N, D. auto.
  - pose proof (sact_wf _ _ _ Hwf H) as Hwf1. apply sact_stack in H as (A1 & A2 & A3).
    apply sdeact_inv in H1 as (D1 & D2 & D3). assert (c' ∈ stack s1) as Hin1 by (rewrite A1; by constructor).
    assert (c' <> c) as Hne. { intros ->. pose proof (wf_nodup _ Hwf1) as Hn. rewrite A1 in Hn. by apply NoDup_cons in Hn as [? _]. }
    destruct (IHwb Hwf1 c' Hin1) as [E|(N & D & E)]; unfold find_e, find_d, hasT in *; rewrite D2.
    + left. by rewrite E, A2.
    + right. rewrite A1, A2 in *. simpl in N, D. destruct (actxs s !! c) as [ac|]; [|done].
      destruct (has_e T ac); [done|]. destruct (has_d ac); [simpl in D; congruence|]. auto.
Qed.

Lemma wb_find_e T s s' : wb s s' -> swf s ->
  fst <$> find_e T s' = fst <$> find_e T s \/ (find_e T s = None /\ fst <$> find_e T s' = fst <$> find_d s).
Proof.
  intros Hw Hwf. pose proof (wb_same _ _ Hw Hwf) as Hs. pose proof (same_wf _ _ Hwf Hs) as Hwf'.
  rewrite !find_e_first by done. rewrite (sm_stack _ _ Hs).
  destruct (find_e T s) as [[c a]|] eqn:Hf.
  - left. apply first_of_ext. intros c1 H1. destruct (wb_hasT T _ _ Hw Hwf c1 H1) as [?|(N & _)]; [done|congruence].
  - destruct (first_of (fun c => hasT T c s') (stack s)) as [c|] eqn:E.
    + right. split; auto. apply first_of_Some in E as [E1 E2]. destruct (wb_hasT T _ _ Hw Hwf c E1) as [E3|(_ & D & _)]; [|done].
      pose proof (find_e_first T s Hwf) as F. rewrite Hf in F. simpl in F. symmetry in F.
      rewrite (proj1 (first_of_None _ _) F c E1) in E3. congruence.
    + left. pose proof (find_e_first T s Hwf) as F. by rewrite Hf in F.
Qed.
