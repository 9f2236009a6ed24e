(** C07, C23: value() of a result in any state of the thread; loading for no error. *)
From Verif Require Export PropsCapture.
Open Scope Z_scope.

(** A failed result with this error id, not holding an exception; the objects it holds. *)
Definition fails_with (r : ret) (id : Z) : Prop :=
  match r with RErr i => i = id | RCap i l None => i = id /\ NoDup l.*1 | _ => False end.
Definition objects_of (r : ret) : list cnode := match r with RCap _ l _ => l | _ => [] end.

(** value() of a failed result throws bad_result which carries the result's id, whichever error is current. Before that, the captured objects become
    available in the thread; nothing else changes. *)
Theorem C23_value_of_failure :
  forall G caught r id k m s g, R m s -> usable m -> Z.land id 3 = 1 -> fails_with r id ->
    exists x m' g',
      eval G (pmach G) caught (PValue r k) (m, g) = Ok (OThrow x, (m', g')) /\
      x_leaf x = Some id /\ x_std x = true /\ T_BADRES ∈ x_cls x /\ x_oid x = oid g /\
      (exists s', R m' s') /\ ctxs m' = ctxs m /\
      moved G id (fun T => sees id (get_node T (objects_of r))) m m' /\
      (forall c T, inactive m c -> held m' c T = held m c T) /\
      ngen g' = ngen g /\ tr g' = tr g /\ cur g' = match r with RCap _ _ _ => id | _ => cur g end.
Proof.
  intros G caught r id k m s g HR Hu Hid Hf. pose proof (mk_good _ Hid) as Hmk. pose proof (good_nz _ Hid) as Hnz.
  destruct r as [z|i|i l [x|]|cat v]; try done; cbn [fails_with] in Hf.
  - subst i. eexists _, m, _. cbn [eval unload_ret rbind]. unfold throw_leaf. cbn [fst snd]. rewrite Hmk. split; [reflexivity|].
    cbn [x_leaf x_std x_cls x_oid xs_cls cur ngen tr objects_of get_node sees]. repeat split; try done; try set_solver; eauto.
  - destruct Hf as [-> Hnd]. destruct (unload_both G id l None m s g HR Hu Hmk Hnz Hnd) as (m' & s' & HR' & Hc & Hmv & Hin & _ & _ & E & _).
    eexists _, m', _. cbn [eval]. rewrite E. cbn [rbind]. unfold throw_leaf. cbn [fst snd]. rewrite Hmk. split; [reflexivity|].
    cbn [x_leaf x_std x_cls x_oid xs_cls cur ngen tr objects_of set_cur oid]. repeat split; try done; try set_solver; eauto.
Qed.
Print Assumptions C23_value_of_failure.

(** If the result holds an exception, that is thrown. *)
Theorem C23_value_of_captured_exception :
  forall G caught id l x k m s g, R m s -> usable m -> Z.land id 3 = 1 -> NoDup l.*1 ->
    exists m', eval G (pmach G) caught (PValue (RCap id l (Some x)) k) (m, g) = Ok (OThrow x, (m', set_cur id g)) /\
      (exists s', R m' s') /\ ctxs m' = ctxs m /\ moved G id (fun T => sees id (get_node T l)) m m'.
Proof.
  intros G caught id l x k m s g HR Hu Hid Hnd.
  destruct (unload_both G id l (Some x) m s g HR Hu (mk_good _ Hid) (good_nz _ Hid) Hnd) as (m' & s' & HR' & Hc & Hmv & _ & _ & _ & E & _).
  exists m'. cbn [eval]. rewrite E. cbn [rbind]. eauto.
Qed.
Print Assumptions C23_value_of_captured_exception.

(** load of a default-initialised error_id: no object is stored, no function is called, whatever the items are. *)
Theorem C07_no_error_no_objects :
  forall G caught its k m g, eval G (pmach G) caught (PLoad 0 its k) (m, g) = eval G (pmach G) caught k (m, g).
Proof. done. Qed.
Print Assumptions C07_no_error_no_objects.

(** ** Examples *)

(** The conditions hold in a thread with a scope for TA and TB, for a result with one captured object. *)
Example ex23_value_hyps : R out_m out_s /\ usable out_m /\ Z.land 5 3 = 1 /\ fails_with (RCap 5 [(TA, (5, VZ 30))] None) 5.
Proof.
  split; [exact out_R|]. split; [intros c d Hd; vm_compute in Hd; done|]. split; [done|]. split; [done|]. apply NoDup_singleton.
Qed.

(** Another error is current when value() is called: the handlers are those of the result's error. *)
Definition ex23_ids (p : prog) : option (Z * bool) :=
  match eval GX (pmach GX) None (PTHA p
    (HCons [AE TA; AInfo; ACatch [T_BADRES]]
        (fun l => match l with [VE (VZ v); VInfo id (Some _) _; VCatch _] => PRet (RVal (v * 100 + id)) | _ => PRet (RVal (-9)) end)
     (HCons [AInfo] (fun l => match l with [VInfo id _ _] => PRet (RVal (- id)) | _ => PRet (RVal (-9)) end) HNil))) (mem0, glob0) with
  | Ok (ORet (RVal z), (_, g)) => Some (z, bool_decide (tr g = [])) | _ => None end.
Example ex23_value_plain :
  ex23_ids (PNewError [IVal TA (VZ 7)] (fun id => PNewError [] (fun _ => PValue (RErr id) (fun z => PRet (RVal z))))) = Some (705, true).
Proof. vm_compute. reflexivity. Qed.
Example ex23_value_captured :
  ex23_ids (PNewError [] (fun _ => PValue (RCap 41 [(TA, (41, VZ 7))] None) (fun z => PRet (RVal z)))) = Some (741, true).
Proof. vm_compute. reflexivity. Qed.

(** A load for no error before a failure with nothing: the first handler, which needs the object, is not the one used, and the deferred function was not called. *)
Example ex07_no_error :
  ex23_ids (PLoad 0 [IVal TA (VZ 7); IDef TA 1 (fun _ => VZ 8)] (PNewError [] (fun id => PRet (RErr id)))) = Some (-5, true).
Proof. vm_compute. reflexivity. Qed.
