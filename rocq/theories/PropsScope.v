(** C14, C08: scopes are unwound, inner scopes do not touch what outer scopes hold. *)
From Verif Require Export View.
Open Scope Z_scope.

(** ** C14
    However the program ends: the same contexts exist and the same ones are active as before; loads go to the same
    contexts as before (the only change allowed: a type nobody handles may now be kept by the
    context that collects such objects); nothing can be reached by pointers but living slots of contexts that existed before and are active. *)
Theorem C14_scopes_unwound :
  forall G caught p m s g o s' g',
    R m s -> spec_run G caught p s g o s' g' ->
    exists m', lib_run G caught p m g o m' g' /\
      ctxs m' = ctxs m /\
      tlsd m' = tlsd m /\
      (forall T c, serves m T c -> serves m' T c) /\
      (forall T c, serves m' T c -> serves m T c \/ (tls m !! T = None /\ tlsd m = Some c)) /\
      (forall T ad, reach m' T ad ->
         exists c k, caddr m' c T = Some ad /\ is_Some (hp m' !! ad) /\ ctxs m !! c = Some k /\ k_act k = true).
Proof.
  intros G caught p m s g o s' g' HR H.
  destruct (C48_pointer_free_semantics _ _ _ _ _ _ _ _ _ HR H) as (m' & Hrun & HR'). exists m'. split; [done|].
  apply (proj1 (eval_wb _)) in H. simpl in H. pose proof (R_wf _ _ HR) as Hwf. pose proof (wb_same _ _ H Hwf) as Hs.
  assert (ctxs m' = ctxs m) as Ec.
  { apply map_eq. intros c. rewrite (R_ctxs _ _ c HR), (R_ctxs _ _ c HR'), (sm_stack _ _ Hs).
    destruct (actxs s !! c) as [a|] eqn:Ha; simpl.
    - destruct (sm_tup _ _ Hs _ _ Ha) as (a' & -> & Ht). simpl. by rewrite Ht.
    - by rewrite (sm_none _ _ Hs). }
  split; [done|]. split; [|split; [|split]].
  - rewrite (R_tlsd_find _ _ HR), (R_tlsd_find _ _ HR'). by apply same_find_d.
  - intros T c. rewrite (R_serves _ _ _ _ HR), (R_serves _ _ _ _ HR'). destruct (wb_find_e T _ _ H Hwf) as [->|[-> _]]; done.
  - intros T c. rewrite (R_serves _ _ _ _ HR), (R_serves _ _ _ _ HR'), (R_tlsd_find _ _ HR).
    destruct (wb_find_e T _ _ H Hwf) as [->|[E ->]]; [by left|]. right. split; auto.
    pose proof (find_e_R _ _ T HR) as Hx. by rewrite E in Hx.
  - intros T ad Hr. destruct (R_reach _ _ _ _ HR' Hr) as (l1 & c & l2 & E & Hc). 
    assert (c ∈ stack s') as Hin by (rewrite E; apply elem_of_app; right; constructor).
    destruct (R_in _ _ HR' c Hin) as [a Ha]. pose proof (R_ctxs _ _ c HR') as Hk. rewrite Ha in Hk. simpl in Hk.
    rewrite bool_decide_true in Hk by done. rewrite <- Ec. exists c. eexists. split; [done|]. split; [by eapply R_hp|]. eauto.
Qed.
Print Assumptions C14_scopes_unwound.

(** After a try_handle_some whose handler throws, nested in another scope: no pointer remains. *)
Definition ex14 : prog :=
  PCatch (PTHA (PTHS (PNewError [IVal TA (VZ 1); IVal TB (VZ 2)] (fun id => PRet (RErr id)))
                (HCons [AE TA] (fun _ => PThrowX (XSpec true [T_STDEX] 5 None None)) HNil))
         (HCons [AE TC] (fun _ => PRet (RVal 1)) HNil))
         (fun x => PRet (RVal (x_val x))).
Example ex14_runs :
  match eval GX (pmach GX) None ex14 (mem0, glob0) with
  | Ok (ORet (RVal z), (m, _)) => Some (z, map_to_list (tls m), map_to_list (hp m)) | _ => None end = Some (5, [], []).
Proof. vm_compute. reflexivity. Qed.

(** ** C08
    [hides T c s]: context c is active and so is a context with a cell for T entered later. *)

Theorem C08_inner_scopes_isolated :
  forall G caught p m s g o s' g' T c,
    R m s -> hides T c s -> spec_run G caught p s g o s' g' ->
    exists m', lib_run G caught p m g o m' g' /\ held m' c T = held m c T /\
      (serves m T c <-> serves m' T c) /\ ~ serves m T c.
Proof.
  intros G caught p m s g o s' g' T c HR Hh H.
  destruct (C48_pointer_free_semantics _ _ _ _ _ _ _ _ _ HR H) as (m' & Hrun & HR'). exists m'. split; [done|].
  apply (proj1 (eval_wb _)) in H. simpl in H. pose proof (R_wf _ _ HR) as Hwf. pose proof (wb_same _ _ H Hwf) as Hs.
  pose proof (hides_in _ _ _ Hh) as Hin. destruct (R_in _ _ HR c Hin) as [a Ha]. destruct (sm_tup _ _ Hs _ _ Ha) as (a' & Ha' & _).
  pose proof (wb_frame T c _ _ H Hwf Hh) as Hf. unfold hold in Hf. rewrite Ha, Ha' in Hf. simplify_eq/=.
  rewrite (R_held _ _ _ _ T HR Ha), (R_held _ _ _ _ T HR' Ha'). split; [done|].
  assert (~ serves m T c) as Hn. { rewrite (R_serves _ _ _ _ HR). destruct (find_e T s) as [[c1 a1]|] eqn:E; [|done]. simpl.
    intros ?. simplify_eq. by eapply hides_find_ne. }
  split; [|done]. split; [done|]. rewrite (R_serves _ _ _ _ HR').
  destruct (wb_find_e T _ _ H Hwf) as [->|[E _]]; [by rewrite (R_serves _ _ _ _ HR) in Hn|]. by destruct (hides_find T c s).
Qed.
Print Assumptions C08_inner_scopes_isolated.
