(** C24, C28, C30, C31: forwarding failures, converting error codes, exceptions and results. *)
From Verif Require Export PropsCatch PropsTry2 Derived.
Open Scope Z_scope.

(** ** C24 *)
(** A failed result whose id is one the library issues. *)
Definition failure (r : ret) : Prop :=
  match r with RVal _ => False | RErr id | RCap id _ _ => Z.land id 3 = 1 | RFor _ v => v <> 0 end.
Lemma failure_not_val r : failure r -> is_val r = false.
Proof. by destruct r. Qed.
Lemma fwd_failure r : failure r -> fwd r = r.
Proof. destruct r; simpl; intros H; try done; by rewrite (mk_good _ H). Qed.

Section c24.
Context (G : cfg) (M : machine) (caught : option exn).
Notation st := (st M).

(** The failure is returned as it is, in the very state in which the operation left the thread; the rest is not executed. *)
Theorem C24_check_forwards_failure :
  forall p k (s s1 : st) r, eval G M caught p s = Ok (ORet r, s1) -> failure r -> eval G M caught (leaf_check p k) s = Ok (ORet r, s1).
Proof.
  intros p k s s1 r H Hr. unfold leaf_check. cbn [eval]. rewrite H. cbn [rbind]. rewrite (failure_not_val _ Hr), (fwd_failure _ Hr). done.
Qed.
(** On success the rest of the function gets the value. *)
Theorem C24_check_continues :
  forall p k (s s1 : st) z, eval G M caught p s = Ok (ORet (RVal z), s1) -> eval G M caught (leaf_check p k) s = eval G M caught (k z) s1.
Proof. intros p k s s1 z H. unfold leaf_check. cbn [eval]. rewrite H. done. Qed.
Theorem C24_check_lets_exceptions_pass :
  forall p k (s s1 : st) x, eval G M caught p s = Ok (OThrow x, s1) -> eval G M caught (leaf_check p k) s = Ok (OThrow x, s1).
Proof. intros p k s s1 x H. unfold leaf_check. cbn [eval]. rewrite H. done. Qed.

(** A function which checks one operation after another, each of which may use the value of the one before. *)
Fixpoint chain (fs : list (Z -> prog)) (z : Z) : prog :=
  match fs with [] => PRet (RVal z) | f :: fs' => leaf_check (f z) (chain fs') end.
(** These operations all succeed, one after another. *)
Inductive succeed : list (Z -> prog) -> Z -> st -> Z -> st -> Prop :=
| suc_nil z s : succeed [] z s z s
| suc_cons f fs z s z1 s1 z2 s2 : eval G M caught (f z) s = Ok (ORet (RVal z1), s1) -> succeed fs z1 s1 z2 s2 -> succeed (f :: fs) z s z2 s2.

Theorem C24_first_failure_of_a_chain :
  forall fs f gs z s z1 s1 r s2,
    succeed fs z s z1 s1 -> eval G M caught (f z1) s1 = Ok (ORet r, s2) -> failure r ->
    eval G M caught (chain (fs ++ f :: gs) z) s = Ok (ORet r, s2).
Proof.
  intros fs f gs z s z1 s1 r s2 H. induction H as [z s|f0 fs z s z' s' z'' s'' E H IH]; intros Hf Hr; cbn [app chain].
  - by apply C24_check_forwards_failure.
  - rewrite (C24_check_continues _ _ _ _ _ E). by apply IH.
Qed.
Theorem C24_chain_without_failure :
  forall fs z s z1 s1, succeed fs z s z1 s1 -> eval G M caught (chain fs z) s = Ok (ORet (RVal z1), s1).
Proof.
  intros fs z s z1 s1 H. induction H as [z s|f0 fs z s z' s' z'' s'' E H IH]; cbn [chain]; [done|]. by rewrite (C24_check_continues _ _ _ _ _ E).
Qed.

(** Functions which call each other: each checks what the next one returns. *)
Fixpoint calls (ks : list (Z -> prog)) (p : prog) : prog := match ks with [] => p | k :: ks' => leaf_check (calls ks' p) k end.
Theorem C24_failure_through_calls :
  forall ks p s r s1, eval G M caught p s = Ok (ORet r, s1) -> failure r -> eval G M caught (calls ks p) s = Ok (ORet r, s1).
Proof. intros ks p s r s1 H Hr. induction ks as [|k ks IH]; [done|]. cbn [calls]. by apply C24_check_forwards_failure. Qed.
End c24.
Print Assumptions C24_check_forwards_failure.
Print Assumptions C24_check_continues.
Print Assumptions C24_check_lets_exceptions_pass.
Print Assumptions C24_first_failure_of_a_chain.
Print Assumptions C24_chain_without_failure.
Print Assumptions C24_failure_through_calls.

(** Two operations succeed, the third fails with a captured object, the fourth would be noticed. *)
Example ex24 :
  let fs := [fun z => PRet (RVal (z + 1)); fun z => PEmit z (PRet (RVal (z * 2))); fun z => PCapture false (PNewError [IVal TA (VZ z)] (fun id => PRet (RErr id)));
             fun z => PEmit 99 (PRet (RVal z))] in
  match eval GX (pmach GX) None (calls [fun z => PEmit 98 (PRet (RVal z))] (chain fs 20)) (mem0, glob0) with
  | Ok (o, (_, g)) => Some (o, tr g) | _ => None end = Some (ORet (RCap 5 [(TA, (5, VZ 42))] None), [EvUser 21]).
Proof. vm_compute. reflexivity. Qed.

(** ** C28 *)
(** The ids: 0, or what the library issues. *)
Definition an_id (id : Z) : Prop := id = 0 \/ Z.land id 3 = 1.

Theorem C28_id_to_code_and_back :
  forall G M caught id k s, an_id id -> eval G M caught (PImport (fst (to_code id)) (snd (to_code id)) k) s = eval G M caught (k id) s.
Proof.
  intros G M caught id k s H. cbn [eval to_code fst snd]. unfold import_ec. destruct H as [->|H]; [done|].
  rewrite (proj2 (Z.eqb_neq id 0) (good_nz _ H)). simpl. rewrite (proj2 (Z.eqb_eq _ _) H), (mk_good _ H). unfold assert. by rewrite andb_false_r.
Qed.
Print Assumptions C28_id_to_code_and_back.
Theorem C28_zero_code :
  forall G M caught cat k s, eval G M caught (PImport cat 0 k) s = eval G M caught (k 0) s.
Proof. done. Qed.
Print Assumptions C28_zero_code.
(** Another category, not zero: a new error, for which the code is available where std::error_code is handled. *)
Theorem C28_foreign_code :
  forall G caught cat v k m s g, R m s -> usable m -> good_sup G -> v <> 0 -> cat <> LEAFCAT ->
  let id := g_sup G (ngen g) in
  exists m' s' g', eval G (pmach G) caught (PImport cat v k) (m, g) = eval G (pmach G) caught (k id) (m', g') /\ R m' s' /\
    ngen g' = S (ngen g) /\ cur g' = id /\ tr g' = tr g /\ ctxs m' = ctxs m /\
    (forall c, serves m T_EC c -> held m' c T_EC = Some (id, VEC cat v)) /\
    (forall c, collects G m T_EC c -> held m' c T_EC = Some (id, VEC cat v)) /\
    (forall c T, T <> T_EC \/ ~ (serves m T c \/ collects G m T c) -> held m' c T = held m c T).
Proof.
  intros G caught cat v k m s g HR Hu Hg Hv Hc id. pose proof (Hg (ngen g)) as Hid. fold id in Hid.
  destruct (load_one G false id (IVal T_EC (VEC cat v)) m s (snd (gnew G g)) HR (good_nz _ Hid) Hu I) as (m' & g' & s' & E & HR' & Hu' & L).
  destruct (ld_quiet _ _ _ _ _ _ _ _ L) as (Q1 & Q2 & Q3 & Q4).
  exists m', s', g'. split; [|split; [done|]].
  - cbn [eval]. unfold import_ec. rewrite (proj2 (Z.eqb_neq v 0) Hv), (proj2 (Nat.eqb_neq cat LEAFCAT) Hc). unfold gnew in *. simpl in *. fold id.
    fold id in E. rewrite E. simpl. by rewrite (mk_good _ Hid).
  - split; [exact Q2|]. split; [exact Q1|]. split.
    { destruct (decide (tls m !! T_EC = None)) as [Hn|Hn].
      - destruct (decide (g_capture G = true)) as [Hcap|Hcap]; [destruct (tlsd m) as [c|] eqn:Hd|].
        + exact (ld_coll _ _ _ _ _ _ _ _ L T_EC c eq_refl (conj Hn (conj Hcap Hd))).
        + destruct (ld_lost _ _ _ _ _ _ _ _ L T_EC eq_refl Hn) as [H|(? & ? & ? & _)]; [|exact H|done]. intros c (_ & _ & ?). congruence.
        + destruct (ld_lost _ _ _ _ _ _ _ _ L T_EC eq_refl Hn) as [H|(? & ? & ? & _)]; [|exact H|done]. intros c (_ & ? & _). congruence.
      - destruct (not_unserved _ _ _ HR Hn) as [c Hs]. destruct (ld_served _ _ _ _ _ _ _ _ L T_EC c eq_refl Hs) as [[_ H]|[_ H]]; exact H. }
    split; [exact (ld_ctxs _ _ _ _ _ _ _ _ L)|]. split; [|split].
    + intros c Hs. apply (ld_new _ _ _ _ _ _ _ _ L c T_EC); [done|done|]. left. split; [done|]. intros [? _]. done.
    + intros c Hs. apply (ld_new _ _ _ _ _ _ _ _ L c T_EC); [done|done|]. by right.
    + intros c T HT. apply (ld_old _ _ _ _ _ _ _ _ L). intros Ei. injection Ei as <-. destruct HT as [?|HT]; [done|]. intros [[? _]|?]; apply HT; auto.
Qed.
Print Assumptions C28_foreign_code.
(** A function returning a leaf::result checks an operation which returns a third-party result: the rest of the function is not run, and its
    code arrives as above. *)
Theorem C28_check_foreign :
  forall G caught cat v p k m0 g0 m s g,
    eval G (pmach G) caught p (m0, g0) = Ok (ORet (RFor cat v), (m, g)) -> R m s -> usable m -> good_sup G -> v <> 0 -> cat <> LEAFCAT ->
  let id := g_sup G (ngen g) in
  exists m' s' g', eval G (pmach G) caught (leaf_check_foreign p k) (m0, g0) = Ok (ORet (RErr id), (m', g')) /\ R m' s' /\
    ngen g' = S (ngen g) /\ cur g' = id /\ tr g' = tr g /\ ctxs m' = ctxs m /\
    (forall c, serves m T_EC c \/ collects G m T_EC c -> held m' c T_EC = Some (id, VEC cat v)) /\
    (forall c T, T <> T_EC \/ ~ (serves m T c \/ collects G m T c) -> held m' c T = held m c T).
Proof.
  intros G caught cat v p k m0 g0 m s g H HR Hu Hg Hv Hc id.
  destruct (C28_foreign_code G caught cat v (fun id => PRet (RErr id)) m s g HR Hu Hg Hv Hc) as (m' & s' & g' & E & HR' & A1 & A2 & A3 & A4 & A5 & A6 & A7).
  exists m', s', g'. split; [|split; [done|]; split_and!; try done; intros c [?|?]; auto].
  unfold leaf_check_foreign. cbn [eval]. etransitivity; [eapply rb_ok; [exact H|reflexivity]|]. exact E.
Qed.
Print Assumptions C28_check_foreign.
(** If the code stands for an error id, the error goes on under this id; values go on as values. *)
Theorem C28_check_foreign_other :
  forall G M caught p k s s1,
    (forall id, Z.land id 3 = 1 -> eval G M caught p s = Ok (ORet (RFor (fst (to_code id)) (snd (to_code id))), s1) ->
       eval G M caught (leaf_check_foreign p k) s = Ok (ORet (RErr id), s1)) /\
    (forall z, eval G M caught p s = Ok (ORet (RVal z), s1) -> eval G M caught (leaf_check_foreign p k) s = eval G M caught (k z) s1) /\
    (forall x, eval G M caught p s = Ok (OThrow x, s1) -> eval G M caught (leaf_check_foreign p k) s = Ok (OThrow x, s1)).
Proof.
  intros G M caught p k s s1. unfold leaf_check_foreign. cbn [eval]. split; [|split].
  - intros id Hid H. rewrite H. cbn [rbind is_val]. exact (C28_id_to_code_and_back G M caught id (fun id => PRet (RErr id)) s1 (or_intror Hid)).
  - intros z H. by rewrite H.
  - intros x H. by rewrite H.
Qed.
Print Assumptions C28_check_foreign_other.
(** is_error_id *)
Theorem C28_is_error_id : forall c, is_error_id c = true <-> exists id, c = to_code id.
Proof.
  intros [cat v]. unfold is_error_id, to_code. simpl. rewrite Nat.eqb_eq. split; [intros ->; by exists v|]. intros [id H]. by injection H.
Qed.
Print Assumptions C28_is_error_id.

Definition ex28_m : mem := nest_m [[SE TA; SE T_EC]; [SE TB]].
Definition ex28_s : smem := nest_s [[SE TA; SE T_EC]; [SE TB]].
Lemma ex28_R : R ex28_m ex28_s.
Proof. nest. Qed.
Example ex28_check :
  map (fun r => match eval GX (pmach GX) None (leaf_check_foreign (PEmit 1 (PRet r)) (fun z => PEmit 2 (PRet (RVal (z + 1))))) (ex28_m, glob0) with
    | Ok (o, (m', g')) => Some (o, held m' 0%nat T_EC, tr g') | _ => None end) [RFor 5 42; RFor LEAFCAT 9; RVal 7] =
  [Some (ORet (RErr 5), Some (5, VEC 5 42), [EvUser 1]); Some (ORet (RErr 9), None, [EvUser 1]); Some (ORet (RVal 8), None, [EvUser 2; EvUser 1])].
Proof. vm_compute. reflexivity. Qed.
Example ex28 : serves ex28_m T_EC 0%nat /\ usable ex28_m /\
  match eval GX (pmach GX) None (PImport 5 42 (fun id => PRet (RErr id))) (ex28_m, glob0) with
  | Ok (o, (m', g')) => Some (o, held m' 0%nat T_EC, ngen g') | _ => None end = Some (ORet (RErr 5), Some (5, VEC 5 42), 1%nat) /\
  match eval GX (pmach GX) None (PImport (fst (to_code 9)) (snd (to_code 9)) (fun id => PRet (RErr id))) (ex28_m, glob0) with
  | Ok (o, (m', g')) => Some (o, held m' 0%nat T_EC, ngen g') | _ => None end = Some (ORet (RErr 9), None, 0%nat).
Proof.
  split; [by eexists; split; vm_compute|]. split; [|split; vm_compute; reflexivity].
  intros c d H. vm_compute in H. done.
Qed.

(** ** C30 *)
Theorem C30_never_throws :
  forall G M caught cls p s o s', eval G M caught (PE2R cls p) s = Ok (o, s') -> exists r, o = ORet r.
Proof.
  intros G M caught cls p s o s' H. cbn [eval] in H. ok_inv H. destruct a as [[r|x] s1].
  - injection H as <- _. eauto.
  - unfold e2r in H. destruct (gnew _ _). ok_inv H. injection H as <- _. eauto.
Qed.
Theorem C30_value_passes :
  forall G M caught cls p s r s1, eval G M caught p s = Ok (ORet r, s1) -> eval G M caught (PE2R cls p) s = Ok (ORet r, s1).
Proof. intros G M caught cls p s r s1 H. cbn [eval]. by rewrite H. Qed.

Lemma split_last l T : (exists it, it ∈ l /\ ity it = Some T) -> exists l1 it l2, l = l1 ++ it :: l2 /\ ity it = Some T /\ Forall (fun x => ity x <> Some T) l2.
Proof.
  induction l as [|it l IH]; intros (x & Hx & HT); [by apply elem_of_nil in Hx|].
  destruct (decide (Exists (fun it => ity it = Some T) l)) as [He|He].
  - apply Exists_exists in He. destruct IH as (l1 & it1 & l2 & -> & H1 & H2); [exact He|]. exists (it :: l1), it1, l2. done.
  - apply elem_of_cons in Hx as [->|Hx].
    + exists [], it, l. split; [done|]. split; [done|]. by apply Forall_Exists_neg.
    + destruct He. apply Exists_exists. eauto.
Qed.

(** For a thrown exception: a failure with a new id. The handlers of enclosing scopes can get the exception_ptr, and for each listed type
    the exception derives from, the slice. Objects of other types are as before. *)
Theorem C30_exception_becomes_error :
  forall G caught cls p m g x m1 s1 g1,
    lib_run G caught p m g (OThrow x) m1 g1 -> R m1 s1 -> usable m1 -> good_sup G -> T_EPTR ∉ cls ->
    let id := g_sup G (ngen g1) in
    exists m' s' g', lib_run G caught (PE2R cls p) m g (ORet (RErr id)) m' g' /\ R m' s' /\ ctxs m' = ctxs m1 /\
      cur g' = id /\ ngen g' = S (ngen g1) /\
      (forall c, serves m1 T_EPTR c -> held m' c T_EPTR = Some (id, VX x)) /\
      (forall c T, x_std x = true -> T ∈ cls -> T ∈ x_cls x -> serves m1 T c -> held m' c T = Some (id, VZ (x_val x))) /\
      (forall c T, ~ unserved m1 T -> T <> T_EPTR -> ~ (x_std x = true /\ T ∈ cls /\ T ∈ x_cls x) -> held m' c T = held m1 c T).
Proof.
  intros G caught cls p m g x m1 s1 g1 H HR Hu Hg Hcls id. pose proof (Hg (ngen g1)) as Hid. fold id in Hid.
  set (its := IVal T_EPTR (VX x) :: (if x_std x then slices cls x else [])).
  assert (forall it, it ∈ its -> it = IVal T_EPTR (VX x) \/ exists T, it = IVal T (VZ (x_val x)) /\ x_std x = true /\ T ∈ cls /\ T ∈ x_cls x) as Hits.
  { intros it Hit. unfold its in Hit. apply elem_of_cons in Hit as [->|Hit]; [by left|]. right. destruct (x_std x); [|by apply elem_of_nil in Hit].
    unfold slices in Hit. apply elem_of_list_fmap in Hit as (T & -> & HT). apply elem_of_list_filter in HT as [H1 H2]. rewrite elem_of_reverse in H2 || apply elem_of_list_In, in_rev, elem_of_list_In in H2. eauto. }
  set (l := map (pair id) its). set (g2 := snd (gnew G g1)).
  assert (Forall (fine G m1) l) as HF.
  { apply Forall_fmap, Forall_forall. intros it Hit. split; [exact (good_nz _ Hid)|]. simpl. destruct (Hits _ Hit) as [->|(T & -> & _)]; done. }
  assert (eval G (pmach G) caught (PE2R cls p) (m, g) = eval G (pmach G) caught (loads l (PRet (RErr id))) (m1, g2)) as E1.
  { cbn [eval]. eapply rb_ok; [exact H|]. 
    assert (mk (g_sup G (ngen g1)) = id) as Em by exact (mk_good _ Hid).
    pose proof (eval_new_error G (pmach G) caught its (fun id => PRet (RErr id)) (m1, g1)) as E. cbv zeta in E. cbn [fst snd] in E.
    rewrite Em in E. refine (eq_trans _ E). reflexivity. }
  destruct (loads_run G caught l m1 s1 g2 HR Hu HF) as (m' & s' & g' & E' & HR' & Hu' & A1 & A2 & A3 & A4 & A5 & A6 & A7).
  destruct A3 as (Q1 & Q2 & Q3 & Q4).
  exists m', s', g'. split; [rewrite E1, E'; done|]. split; [done|]. split; [done|]. split; [exact Q1|]. split; [exact Q2|].
  assert (forall T v c, (exists it, it ∈ its /\ ity it = Some T) -> (forall it, it ∈ its -> ity it = Some T -> it = IVal T v) -> serves m1 T c -> held m' c T = Some (id, v)) as Hgen.
  { intros T v c Hex Hall Hs. destruct (split_last _ _ Hex) as (l1 & it & l2 & El & HT & Hl2).
    assert (it = IVal T v) as -> by (apply Hall; [rewrite El; apply elem_of_app; right; by constructor|done]).
    assert (l = map (pair id) l1 ++ (id, IVal T v) :: map (pair id) l2) as El' by (unfold l; by rewrite El, map_app).
    destruct (C06_last_load_wins G caught m1 s1 g2 T c (map (pair id) l1) id (IVal T v) (map (pair id) l2) HR Hu Hs eq_refl)
      as (m2 & g3 & m3 & s3 & g4 & v' & _ & E3 & _ & _ & _ & Hv & Hh & _).
    { by rewrite <- El'. } { by apply Forall_fmap. }
    injection Hv as <-. specialize (E3 (PRet (RErr id))). rewrite <- El', E' in E3. cbn [eval] in E3. injection E3 as -> _. done. }
  split; [|split].
  - intros c Hs. apply Hgen; [|intros it Hit HT|done].
    + eexists. split; [by constructor|done].
    + destruct (Hits _ Hit) as [->|(T & -> & _ & HT2 & _)]; [done|]. simpl in HT. injection HT as ->. done.
  - intros c T Hstd HT1 HT2 Hs. apply Hgen; [|intros it Hit HT|done].
    + exists (IVal T (VZ (x_val x))). split; [|done]. unfold its. rewrite Hstd. constructor. unfold slices. apply elem_of_list_fmap. exists T. split; [done|].
      apply elem_of_list_filter. split; [done|]. by apply elem_of_list_In, in_rev; rewrite rev_involutive; apply elem_of_list_In.
    + destruct (Hits _ Hit) as [->|(T' & -> & _)]; [|simpl in HT; by injection HT as ->]. simpl in HT. injection HT as <-. done.
  - intros c T Hn HT1 HT2. apply A7; [done|]. right. apply Forall_fmap, Forall_forall. intros it Hit. simpl.
    destruct (Hits _ Hit) as [->|(T' & -> & ? & ? & ?)]; simpl; [congruence|]. intros [= ->]. apply HT2. done.
Qed.
Print Assumptions C30_never_throws.
Print Assumptions C30_value_passes.
Print Assumptions C30_exception_becomes_error.

(** An exception object of classes TA, TB and std::exception; TA, TC and std::exception are listed. *)
Definition ex30_m : mem := nest_m [[SE TA; SE T_EPTR]; [SE TB; SE TC]].
Definition ex30_s : smem := nest_s [[SE TA; SE T_EPTR]; [SE TB; SE TC]].
Lemma ex30_R : R ex30_m ex30_s.
Proof. nest. Qed.
Example ex30 :
  match eval GX (pmach GX) None (PThrowX (XSpec true [TA; TB; T_STDEX] 7 None None)) (ex30_m, glob0),
        eval GX (pmach GX) None (PE2R [TA; TC; T_STDEX] (PThrowX (XSpec true [TA; TB; T_STDEX] 7 None None))) (ex30_m, glob0) with
  | Ok (OThrow x, (m1, _)), Ok (o, (m', _)) => bool_decide (o = ORet (RErr 5) /\ held m' 0%nat TA = Some (5, VZ 7) /\ held m' 0%nat T_EPTR = Some (5, VX x) /\
       held m' 1%nat TB = None /\ held m' 1%nat TC = None /\ x_cls x = [TA; TB; T_STDEX])
  | _, _ => false end = true /\ T_EPTR ∉ [TA; TC; T_STDEX] /\ serves ex30_m TA 0%nat /\ serves ex30_m T_EPTR 0%nat /\ usable ex30_m.
Proof.
  split; [vm_compute; reflexivity|]. split; [apply (bool_decide_unpack _); by vm_compute|]. split; [by eexists; split; vm_compute|]. split; [by eexists; split; vm_compute|].
  intros c d H. vm_compute in H. done.
Qed.

(** ** C31 *)
Theorem C31_value :
  forall G caught Es p mkt none_t m s g, R m s ->
  exists c m1 s1,
    ctxs m !! c = None /\ enter (pmach G) (deduce G (HCons (map APtr Es) mkt (HCons [] (fun _ => none_t) HNil))) (m, g) = Ok (c, (m1, g)) /\ R m1 s1 /\
    forall z sb gb, spec_run G caught p s1 g (ORet (RVal z)) sb gb ->
    exists mb m' s',
      lib_run G caught p m1 g (ORet (RVal z)) mb gb /\ lib_run G caught (to_variant Es p mkt none_t) m g (ORet (RVal z)) m' gb /\ R m' s' /\ ctxs m' = ctxs m.
Proof.
  intros G caught Es p mkt none_t m s g HR.
  destruct (C13_success_passes_through G KAll caught (leaf_check p (fun z => PRet (RVal z))) (HCons (map APtr Es) mkt (HCons [] (fun _ => none_t) HNil)) m s g HR)
    as (c & m1 & s1 & H1 & H2 & HR1 & H). exists c, m1, s1. split; [done|]. split; [done|]. split; [done|]. intros z sb gb Hb.
  destruct (H (RVal z) sb gb) as (mb & m' & s' & H3 & H4 & H5 & H6 & _).
  { unfold leaf_check. cbn [eval]. eapply rb_ok; [exact Hb|]. done. }
  { right. by exists z. }
  destruct (C48_pointer_free_semantics _ _ _ _ _ _ _ _ _ HR1 Hb) as (mb' & Hlb & _).
  exists mb', m', s'. done.
Qed.
Print Assumptions C31_value.

Lemma mapM_ptr G m c ei Es : mapM (supply G m c ei) (map APtr Es) = Some (map (fun T => VP (obj G m c ei T)) Es).
Proof. induction Es as [|T Es IH]; [done|]. simpl. simpl in IH. by rewrite IH. Qed.

(** Failed, through a result or an exception: the tuple is built from exactly the objects available for the error; the other handler is not used. *)
Theorem C31_error :
  forall G caught Es p mkt none_t m g o m' g' c ob mb gb o2 ei caught' m3 g3,
    runs G caught (to_variant Es p mkt none_t) m g o m' g' ->
    failed G KAll caught (leaf_check p (fun z => PRet (RVal z))) (HCons (map APtr Es) mkt (HCons [] (fun _ => none_t) HNil)) m g c ob mb gb o2 ei caught' m3 g3 -> ei_id ei <> 0 ->
    exists o4 m4 g4, runs G caught' (mkt (map (fun T => VP (obj G m3 c ei T)) Es)) m3 g3 o4 m4 g4 /\ finish G (pmach G) KAll c (o4, (m4, g4)) = Ok (o, (m', g')).
Proof.
  intros G caught Es p mkt none_t m g o m' g' c ob mb gb o2 ei caught' m3 g3 Hr HF Hid.
  destruct (C11_scope_calls_first_matching_handler G KAll _ _ _ _ _ _ _ _ _ _ _ _ _ _ _ _ _ Hr HF Hid) as (o4 & m4 & g4 & Hf & [(args & w & b & vs & m5 & Hc & Has & Hb)|[Hn _]]).
  - exists o4, m4, g4. split; [|done]. destruct Hc as (pre & post & E & Hp & Hv). simpl in E. destruct pre as [|h pre].
    + simpl in E. injection E as <- <- <- _. rewrite mapM_ptr in Hv. injection Hv as <-. by rewrite (as_none _ _ _ _ _ _ Has eq_refl) in Hb.
    + simpl in E. injection E as <- E. apply Forall_cons in Hp as [Hp _]. simpl in Hp. by rewrite mapM_ptr in Hp.
  - unfold nobody in Hn. simpl in Hn. apply Forall_cons in Hn as [Hn _]. simpl in Hn. by rewrite mapM_ptr in Hn.
Qed.
Print Assumptions C31_error.

(** TA and TC are asked for; the error comes with objects of types TA and TB. *)
Example ex31 :
  match eval GX (pmach GX) None (to_variant [TA; TC] ex_body (fun l => match l with [VP (Some (VZ a)); VP None] => PEmit a (PRet (RVal (-1))) | _ => PRet (RVal (-2)) end) (PRet (RVal (-3)))) (out_m, glob0) with
  | Ok (o, (_, g')) => Some (o, tr g') | _ => None end = Some (ORet (RVal (-1)), [EvUser 70]) /\
  match eval GX (pmach GX) None (to_variant [TA; TC] (PRet (RVal 12)) (fun l => PRet (RVal (-2))) (PRet (RVal (-3)))) (out_m, glob0) with
  | Ok (o, (_, g')) => Some (o, tr g') | _ => None end = Some (ORet (RVal 12), []).
Proof. split; vm_compute; reflexivity. Qed.
