(** C50: changes a handler makes to its arguments (doc/leaf.adoc:432: "When an error handler takes arguments by mutable reference or pointer,
    changes to their state are preserved when the error is communicated to the caller."). *)
From Verif Require Export PropsTryEx Load.
Open Scope Z_scope.

(** ** C50 *)

(** What the scope's context holds of the error when the handler has made its assignments. *)
Definition left_by (m3 : mem) (c : cid) (id : Z) (args : list harg) (l : list (ety * val)) (T : ety) (v : val) : Prop :=
  rewritten m3 c id args l T v \/
  (sees id (held m3 c T) = Some v /\ forall v', ~ rewritten m3 c id args l T v').

Lemma rewritten_det m c id args l T v v' : rewritten m c id args l T v -> rewritten m c id args l T v' -> v = v'.
Proof. intros (_ & _ & _ & H) (_ & _ & _ & H'). congruence. Qed.

Lemma assigned_left m3 c id args l m5 T : id <> 0 -> assigned m3 c id args l m5 -> forall v, left_by m3 c id args l T v -> sees id (held m5 c T) = Some v.
Proof.
  intros Hid Ha v [Hr|[Hs Hn]].
  - rewrite (as_new _ _ _ _ _ _ Ha _ _ Hr). simpl. by rewrite Z.eqb_refl.
  - rewrite (as_old _ _ _ _ _ _ Ha c T); [done|]. auto.
Qed.
Lemma assigned_none m3 c id args l m5 T : assigned m3 c id args l m5 -> sees id (held m3 c T) = None -> sees id (held m5 c T) = None.
Proof.
  intros Ha Hs. rewrite (as_old _ _ _ _ _ _ Ha c T); [done|]. intros _ v (_ & _ & [v' Hv] & _). congruence.
Qed.

(** The handler of a try_handle_some scope changes its arguments, does something else, then returns the error it handles, with id.
    The handler is called once, with the arguments as they were; the changes go to the enclosing scopes like all objects of the error. *)
Theorem C50_changed_arguments_travel :
  forall G caught p hs m g i m' g' c ob mb gb o2 ei caught' m3 g3,
    runs G caught (PTHS p hs) m g (ORet (RErr i)) m' g' -> healthy m ->
    failed G KSome caught p hs m g c ob mb gb o2 ei caught' m3 g3 -> ei_id ei <> 0 ->
    ~ nobody G m3 c ei hs -> mk i = ei_id ei ->
    exists args w b vs m5 m4 g4,
      chosen G m3 c ei hs args w b vs /\ assigned m3 c (ei_id ei) args (w vs) m5 /\
      runs G caught' (b vs) m5 g3 (ORet (RErr i)) m4 g4 /\
      (quiet (b vs) -> forall T c', active m3 c' ->
         (* the object of type T the scope has for the error, as the handler left it *)
         (forall v, left_by m3 c (ei_id ei) args (w vs) T v ->
            (serves m3 T c' -> sees (ei_id ei) (held m3 c' T) = None -> held m' c' T = Some (ei_id ei, v)) /\
            (serves m3 T c' -> sees (ei_id ei) (held m3 c' T) <> None -> held m' c' T = held m3 c' T) /\
            (collects G m3 T c' -> held m' c' T = Some (ei_id ei, v)) /\
            (~ serves m3 T c' -> ~ collects G m3 T c' -> held m' c' T = held m3 c' T)) /\
         (sees (ei_id ei) (held m3 c T) = None -> held m' c' T = held m3 c' T)).
Proof.
  intros G caught p hs m g i m' g' c ob mb gb o2 ei caught' m3 g3 Hr Hh HF Hid Hn Hi.
  pose proof Hr as (Hl & s & s' & HR & HR' & Hsp).
  destruct (failed_alive G KSome _ _ _ _ _ _ _ _ _ _ _ _ _ _ _ _ _ _ _ HR Hsp Hl HF) as [(k3 & Hk3 & Hk3') _].
  destruct (C45_handler_error_carries_objects_out G caught p hs m g (RErr i) m' g' c ob mb gb o2 ei caught' m3 g3 (ei_id ei) Hr Hh HF Hid Hn (eq_sym Hi))
    as (args & w & b & vs & m5 & m4 & g4 & Hc & Ha & Hb & _ & Hmv).
  exists args, w, b, vs, m5, m4, g4. do 3 (split; [done|]). intros Hq T c' Hac.
  assert (m4 = m5) as -> by exact (quiet_mem _ (pmach G) _ Hq _ _ _ _ (proj1 Hb)).
  pose proof (as_same _ _ _ _ _ _ Ha) as (E1 & E2 & E3 & E4).
  assert (c' <> c) as Hne. { intros ->. destruct Hac as (k & Hk & Hk'). rewrite Hk3 in Hk. injection Hk as ->. congruence. }
  assert (active m5 c') as Hac5. { unfold active. by rewrite E1. }
  assert (held m5 c' T = held m3 c' T) as Eh. { apply (as_old _ _ _ _ _ _ Ha). done. }
  assert (serves m5 T c' <-> serves m3 T c') as Hsv. { unfold serves, caddr. by rewrite E1, E2, E3. }
  pose proof (Hmv c' T Hac5) as Hx. cbv beta in Hx. rewrite Eh in Hx. split.
  - intros v Hv. rewrite (assigned_left _ _ _ _ _ _ _ Hid Ha _ Hv) in Hx. destruct Hx as (X1 & X2 & X3). rewrite E3, E4 in *. rewrite Hsv in *. split; [|split; [|split]].
    + intros Hs Hsee. rewrite (X1 Hs). by rewrite Hsee.
    + intros Hs Hsee. rewrite (X1 Hs). by destruct (sees _ (held m3 c' T)).
    + intros (Hu & Hg & Ht). apply X2; auto.
    + intros Hs Hcol. apply X3; [done|]. intros (Hu & Hg & Ht). apply Hcol. done.
  - intros Hs. by rewrite (assigned_none _ _ _ _ _ _ _ Ha Hs) in Hx.
Qed.
Print Assumptions C50_changed_arguments_travel.

(** The scope's handler takes its second argument by reference and the third as a pointer, increments both, tries to assign to an
    object it takes by value (the first one), which does nothing, and returns the error. *)
Definition ex50_hs : handlers :=
  HMut [APred TC (fun _ => true); AE TB; APtr TA; AInfo]
    (fun l => match l with
              | [_; VE (VZ b); VP (Some (VZ a)); VInfo _ _ _] => [(TC, VZ 0); (TB, VZ 0); (TB, VZ (b + 1)); (TA, VZ (a + 1))]
              | _ => [] end)
    (fun l => match l with [_; _; _; VInfo id _ _] => PEmit 1 (PRet (RErr id)) | _ => PRet (RVal 0) end) HNil.
Definition ex50_body : prog := PNewError [IVal TA (VZ 70); IVal TB (VZ 80); IVal TC (VZ 90)] (fun id => PRet (RErr id)).
Example ex50 :
  (exists o m' g' c ob mb gb o2 ei caught' m3 g3,
    runs GX None (PScope KSome ex50_body ex50_hs) out_m glob0 o m' g' /\
    failed GX KSome None ex50_body ex50_hs out_m glob0 c ob mb gb o2 ei caught' m3 g3 /\
    (ei_id ei <> 0 /\ ~ nobody GX m3 c ei ex50_hs /\ o = ORet (RErr 5) /\ mk 5 = ei_id ei /\
     held m3 c TA = Some (5, VZ 70) /\ held m3 0%nat TA = None /\ held m' 0%nat TA = Some (5, VZ 71) /\
     held m3 c TB = Some (5, VZ 80) /\ held m3 0%nat TB = None /\ held m' 0%nat TB = Some (5, VZ 81))) /\
  healthy out_m /\ (exists args w b, flat ex50_hs = [(args, (w, b))] /\ quiet (b [VE (VZ 90); VE (VZ 80); VP (Some (VZ 70)); VInfo 5 None None])).
Proof.
  split; [|split; [exact out_healthy|do 3 eexists; split; [reflexivity|exact I]]].
  unfold nobody. eapply (scope_ex GX KSome _ _ _ _ _ (fun o m' c o2 ei m3 => ei_id ei <> 0 /\ ~ Forall _ _ /\ o = ORet (RErr 5) /\ mk 5 = ei_id ei /\
     held m3 c TA = Some (5, VZ 70) /\ held m3 0%nat TA = None /\ held m' 0%nat TA = Some (5, VZ 71) /\
     held m3 c TB = Some (5, VZ 80) /\ held m3 0%nat TB = None /\ held m' 0%nat TB = Some (5, VZ 81))); [exact out_R|]. vm_compute. reflexivity.
Qed.
(** Three scopes; the innermost handlers change TA and TB, the next one TB, and the outermost handler sees TA, TB changed, TC not. *)
Example ex50_nested :
  match eval GX (pmach GX) None
    (PTHA (PTHS (PTHS ex50_body ex50_hs) ex50_hs)
       (HCons [AE TA; AE TB; AE TC] (fun l => match l with [VE (VZ a); VE (VZ b); VE (VZ c)] => PRet (RVal (a * 10000 + b * 100 + c)) | _ => PRet (RVal 0) end)
       (HCons [] (fun _ => PRet (RVal 1)) HNil))) (mem0, glob0) with
  | Ok (o, (_, g')) => Some (o, tr g') | _ => None end = Some (ORet (RVal 728290), [EvUser 1; EvUser 1]).
Proof. vm_compute. reflexivity. Qed.

(** ** Changes which are lost *)

(** The error was started before the scope, with an object of type TB in the enclosing scope; inside, another object of type TB is loaded
    for it. The enclosing scope keeps its own. *)
Definition ex50_pre : prog := PNewError [IVal TB (VZ 1)] (fun id => PRet (RErr id)).
Definition ex50_s : smem := match eval (asserts_on GX) (smach (asserts_on GX)) None ex50_pre (out_s, glob0) with Ok (_, (s, _)) => s | _ => smem0 end.
Definition ex50_m : mem := match eval GX (pmach GX) None ex50_pre (out_m, glob0) with Ok (_, (m, _)) => m | _ => mem0 end.
Definition ex50_g : glob := match eval GX (pmach GX) None ex50_pre (out_m, glob0) with Ok (_, (_, g)) => g | _ => glob0 end.
Lemma ex50_R : R ex50_m ex50_s.
Proof.
  destruct (eval (asserts_on GX) (smach (asserts_on GX)) None ex50_pre (out_s, glob0)) as [[o [s' g']]|] eqn:E; [|by vm_compute in E].
  destruct (C48_pointer_free_semantics _ _ _ _ _ _ _ _ _ out_R E) as (m' & H & HR'). unfold ex50_m, ex50_s. rewrite E.
  replace (eval GX (pmach GX) None ex50_pre (out_m, glob0)) with (Ok (o, (m', g')) : res (out * st (pmach GX))) by (symmetry; exact H). exact HR'.
Qed.
Definition ex50_again : prog := PLoad 5 [IVal TB (VZ 2)] (PRet (RErr 5)).
Definition ex50_hs3 : handlers := HMut [AE TB] (fun _ => [(TB, VZ 3)]) (fun _ => PRet (RErr 5)) HNil.

Lemma serves_top m T c k : ctxs m !! c = Some k -> SE T ∈ k_tup k -> tls m !! T = Some (inl (c, T)) -> serves m T c.
Proof. intros Hk HT Ht. exists (inl (c, T)). split; [done|]. unfold caddr. by rewrite Hk, bool_decide_true. Qed.

Theorem C50_kept_by_caller_refuted :
  exists G p hs m g i m' g' c ob mb gb o2 ei caught' m3 g3 args w b vs T v c',
    runs G None (PTHS p hs) m g (ORet (RErr i)) m' g' /\ healthy m /\
    failed G KSome None p hs m g c ob mb gb o2 ei caught' m3 g3 /\ ei_id ei <> 0 /\ mk i = ei_id ei /\
    flat hs = [(args, (w, b))] /\ mapM (supply G m3 c ei) args = Some vs /\ b vs = PRet (RErr i) /\
    rewritten m3 c (ei_id ei) args (w vs) T v /\ serves m3 T c' /\ active m3 c' /\
    held m' c' T <> Some (ei_id ei, v).
Proof.
  destruct (scope_ex GX KSome ex50_again ex50_hs3 ex50_m ex50_s ex50_g
    (fun o m' c o2 ei m3 => o = ORet (RErr 5) /\ ei_id ei = 5 /\ c = 1%nat /\ ei_ex ei = None /\ held m3 c TB = Some (5, VZ 2) /\ TB ∈ members m3 c /\
       tls m3 !! TB = Some (inl (0%nat, TB)) /\ k_tup <$> ctxs m3 !! 0%nat = Some [SE TA; SE TB] /\ k_act <$> ctxs m3 !! 0%nat = Some true /\
       held m' 0%nat TB = Some (5, VZ 1)))
    as (o & m' & g' & c & ob & mb & gb & o2 & ei & caught' & m3 & g3 & Hr & HF & -> & Hid & -> & Hex & Hh & Hm & Ht & Hk & Ha & Hh');
    [exact ex50_R|vm_compute; reflexivity|].
  exists GX, ex50_again, ex50_hs3, ex50_m, ex50_g, 5, m', g', 1%nat, ob, mb, gb, o2, ei, caught', m3, g3,
    [AE TB], (fun _ => [(TB, VZ 3)]), (fun _ => PRet (RErr 5)), [VE (VZ 2)], TB, (VZ 3), 0%nat.
  destruct (ctxs m3 !! 0%nat) as [k|] eqn:Ek; [|done]. simpl in Hk, Ha. injection Hk as Hk. injection Ha as Ha.
  split; [exact Hr|]. split; [intros c d _ H; vm_compute in H; done|]. split; [done|]. split; [lia|]. split; [by rewrite Hid|]. split; [done|].
  split. { simpl. unfold obj. rewrite decide_True by done. by rewrite Hid, Hh. }
  split; [done|]. split; [|split; [|split]].
  - split; [left; constructor|]. split; [done|]. rewrite Hid, Hh. split; [by eexists|done].
  - apply (serves_top _ _ _ _ Ek); [rewrite Hk; right; constructor|exact Ht].
  - exists k. done.
  - rewrite Hid, Hh'. done.
Qed.
Print Assumptions C50_kept_by_caller_refuted.

(** The scope is a try_catch, or a try_handle_some whose try block throws: the handler communicates the error by throwing the exception on.
    Then the context is not unloaded: the object the handler changed is lost altogether. *)
Definition ex50_throw : prog := PThrow None (XSpec true [T_STDEX] 5 None None) [IVal TB (VZ 2)].
Definition ex50_rethrow : handlers := HMut [AE TB; ACatch []] (fun _ => [(TB, VZ 3)]) (fun _ => PRethrow) HNil.

Theorem C50_rethrown_refuted :
  forall k, k = KSome \/ k = KCatch ->
  exists G p hs m g x m' g' c ob mb gb o2 ei caught' m3 g3 args w b vs T v c',
    runs G None (PScope k p hs) m g (OThrow x) m' g' /\ healthy m /\
    failed G k None p hs m g c ob mb gb o2 ei caught' m3 g3 /\ ei_id ei <> 0 /\ x_leaf x = Some (ei_id ei) /\
    flat hs = [(args, (w, b))] /\ mapM (supply G m3 c ei) args = Some vs /\ b vs = PRethrow /\
    rewritten m3 c (ei_id ei) args (w vs) T v /\ serves m3 T c' /\ active m3 c' /\
    held m' c' T = None.
Proof.
  intros k Hkind.
  destruct (scope_ex GX k ex50_throw ex50_rethrow out_m out_s glob0
    (fun o m' c o2 ei m3 => o = OThrow (Exn 0 true [T_STDEX] 5 None None (Some 5)) /\ ei_id ei = 5 /\ c = 1%nat /\ ei_ex ei = Some (Exn 0 true [T_STDEX] 5 None None (Some 5)) /\
       held m3 c TB = Some (5, VZ 2) /\ TB ∈ members m3 c /\
       tls m3 !! TB = Some (inl (0%nat, TB)) /\ k_tup <$> ctxs m3 !! 0%nat = Some [SE TA; SE TB] /\ k_act <$> ctxs m3 !! 0%nat = Some true /\
       held m' 0%nat TB = None))
    as (o & m' & g' & c & ob & mb & gb & o2 & ei & caught' & m3 & g3 & Hr & HF & -> & Hid & -> & Hex & Hh & Hm & Ht & Hk & Ha & Hh');
    [exact out_R|destruct Hkind as [-> | ->]; vm_compute; reflexivity|].
  eexists GX, ex50_throw, ex50_rethrow, out_m, glob0, _, m', g', 1%nat, ob, mb, gb, o2, ei, caught', m3, g3,
    [AE TB; ACatch []], (fun _ => [(TB, VZ 3)]), (fun _ => PRethrow), [VE (VZ 2); VCatch _], TB, (VZ 3), 0%nat.
  destruct (ctxs m3 !! 0%nat) as [kc|] eqn:Ek; [|done]. simpl in Hk, Ha. injection Hk as Hk. injection Ha as Ha.
  split; [exact Hr|]. split; [exact out_healthy|]. split; [done|]. split; [lia|]. split; [by rewrite Hid|]. split; [done|].
  split. { simpl. unfold obj. rewrite decide_True by done. rewrite Hid, Hh, Hex. simpl. reflexivity. }
  split; [done|]. split; [|split; [|split]].
  - split; [left; constructor|]. split; [done|]. rewrite Hid, Hh. split; [by eexists|done].
  - apply (serves_top _ _ _ _ Ek); [rewrite Hk; right; constructor|exact Ht].
  - exists kc. done.
  - exact Hh'.
Qed.
Print Assumptions C50_rethrown_refuted.
