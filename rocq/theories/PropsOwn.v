(** C49: code which is never given an error id cannot add to or change the objects of that error. *)
From Verif Require Export Own.
From Verif Require Ids PropsIds.
Open Scope Z_scope.

(** The id does not occur in any error object in memory (objects can contain ids: exceptions, std::error_code). *)
Definition no_mention (f : Z) (m : mem) : Prop := forall c T k v, held m c T = Some (k, v) -> cval f v.

(** An object of type T of error f, somewhere in memory. *)
Definition stored (f : Z) (m : mem) (T : ety) (v : val) : Prop := exists c, held m c T = Some (f, v).

(** The program does not contain the id f, does not start an error with this id, and is not given it by its environment (current error,
    exception being handled, contents of objects). Then objects of f, in memory or in a captured result, were already there; nothing the program returns
    or throws mentions f, and f is not the current error. Of course objects of f can be lost: replaced by newer errors' objects. *)
Theorem C49_objects_of_unknown_errors :
  forall G f caught p m g o m' g',
    runs G caught p m g o m' g' -> mk f = f -> f <> 1 ->
    (forall T, cval f (g_def G T)) -> avoids f (stored f m) p -> coexn f caught -> cid_ f (cur g) -> no_mention f m ->
    (forall n, (ngen g <= n < ngen g')%nat -> mk (g_sup G n) <> f) ->
    (forall T v, stored f m' T v -> stored f m T v) /\ no_mention f m' /\ cout f (stored f m) o /\ mk (cur g') <> f.
Proof.
  intros G f caught p m g o m' g' (_ & s & s' & HR & HR' & Hsp) Hf Hf1 Hdef Hp Hc Hcur Hm HN.
  destruct (proj1 (eval_own f (stored f m) Hf1 Hf (asserts_on G) Hdef (ngen g) (ngen g') HN) p caught (s, g) o (s', g') Hp Hc Hsp) as (Ho & Hm' & Hc' & _).
  - split; [|split; [exact Hcur|unfold lt in *; simpl; lia]]. apply (R_confined f (stored f m) _ _ HR). intros c T [k v] Hh. split; simpl; [|by eapply Hm].
    intros ->. by exists c.
  - unfold upto. simpl. lia.
  - apply (R_confined f (stored f m) _ _ HR') in Hm'. split; [|split; [|done]].
    + intros T v [c Hh]. by apply (Hm' _ _ _ Hh).
    + intros c T k v Hh. by apply (Hm' _ _ _ Hh).
Qed.
Print Assumptions C49_objects_of_unknown_errors.

(** Hence an error starts without objects, whatever the program did before. *)
Theorem C49_new_error_has_no_objects_partial :
  forall G p o m' g',
    runs G None p mem0 glob0 o m' g' -> good_sup G -> g_sup G (ngen g') <> 1 ->
    (forall n, (n < ngen g')%nat -> g_sup G n <> g_sup G (ngen g')) ->
    (forall T, cval (g_sup G (ngen g')) (g_def G T)) ->
    avoids (g_sup G (ngen g')) (fun _ _ => False) p ->
    forall T v, ~ stored (g_sup G (ngen g')) m' T v.
Proof.
  intros G p o m' g' (_ & s & s' & HR & HR' & Hsp) Hg H1 HN Hdef Hp T v [c Hh]. set (f := g_sup G (ngen g')) in *.
  assert (mk f = f) as Hf by (apply mk_good, Hg).
  destruct (proj1 (eval_own f (fun _ _ => False) H1 Hf (asserts_on G) Hdef 0 (ngen g') ltac:(intros n Hn; unfold cid_; rewrite mk_good by apply Hg; apply HN; lia)) p None (s, glob0) o (s', g') Hp I Hsp) as (_ & Hm' & _).
  - split; [|split; [|simpl; lia]].
    + apply (R_confined f _ _ _ HR). intros c0 T0 x Hx. rewrite held_dead in Hx; [done|]. apply lookup_empty.
    + unfold cid_. simpl. intros E. by apply H1.
  - unfold upto. simpl. lia.
  - apply (R_confined f _ _ _ HR') in Hm'. by destruct (Hm' _ _ _ Hh) as [[] _].
Qed.
Print Assumptions C49_new_error_has_no_objects_partial.

(** In a process which has generated less than 2^30 - 1 ids, the conditions on ids hold. [idx n]: the position, among all ids of the process, of the n-th id
    of the thread (C02, C38). *)
Theorem C49_new_error_has_no_objects_before_wrap :
  forall G p o m' g' (idx : nat -> nat),
    runs G None p mem0 glob0 o m' g' ->
    (forall n, g_sup G n = Ids.nth_id (idx n)) -> (forall a b, (a < b)%nat -> (idx a < idx b)%nat) -> Z.of_nat (idx (ngen g')) < 2^30 - 1 ->
    (forall T, cval (g_sup G (ngen g')) (g_def G T)) ->
    avoids (g_sup G (ngen g')) (fun _ _ => False) p ->
    forall T v, ~ stored (g_sup G (ngen g')) m' T v.
Proof.
  intros G p o m' g' idx H Hs Hmono Hlt Hdef Hp. apply (C49_new_error_has_no_objects_partial G p o m' g' H); [..|done|done].
  - intros n. rewrite Hs. destruct (PropsIds.C01_ids_valid (idx n)) as ([_ Hm] & _). rewrite (Z.land_ones _ 2) by lia. exact Hm.
  - rewrite Hs, PropsIds.nth_id_eq. set (i := idx (ngen g')) in *. intros E. 
    apply (PropsIds.to_int_inj _ 1) in E; [|apply Z.mod_pos_bound; lia|lia]. rewrite Z.mod_small in E; lia.
  - intros n Hn. rewrite !Hs. apply PropsIds.C02_ids_distinct; [by apply Hmono|]. specialize (Hmono _ _ Hn). lia.
Qed.
Print Assumptions C49_new_error_has_no_objects_before_wrap.

(** When the counter has gone round, one id is 1, which is what current_error() is when there is no error (C04). A program which asks for the current error and
    loads an object into it then finds this object with its first error, although that error was started without objects.
    [GW]: the ids a thread is given if other threads have generated 2^30 - 1 ids before. *)
Definition GW : cfg := Cfg true true true (fun _ => true) (fun _ => false) (fun _ => true) (fun _ => VZ 0) (fun n => 4 * Z.of_nat n + 1).
Lemma GW_ids before n : Z.of_nat before = 2^30 - 1 -> Z.of_nat n < 2^29 -> g_sup GW n = Ids.nth_id (before + n).
Proof.
  intros Hb Hn. rewrite PropsIds.nth_id_eq. cbn [GW g_sup]. rewrite Nat2Z.inj_add, Hb.
  replace (1 + 4 * (2^30 - 1 + Z.of_nat n + 1)) with ((1 + 4 * Z.of_nat n) + 1 * 2^32) by lia. rewrite Z.mod_add, Z.mod_small by lia.
  unfold Ids.to_int. destruct (_ <? _) eqn:E; [lia|]. apply Z.ltb_ge in E. lia.
Qed.
Definition ex49_first : prog :=
  PTHA (PCurErr (fun id => PLoad id [IVal TA (VZ 7)] (PNewError [] (fun id2 => PRet (RErr id2)))))
       (HCons [AE TA] (fun l => match l with [VE (VZ z)] => PRet (RVal z) | _ => PRet (RVal 0) end) (HCons [] (fun _ => PRet (RVal 1)) HNil)).
Theorem C49_new_error_has_no_objects_refuted :
  (forall before n, Z.of_nat before = 2^30 - 1 -> Z.of_nat n < 2^29 -> g_sup GW n = Ids.nth_id (before + n)) /\
  exists m' g', runs GW None ex49_first mem0 glob0 (ORet (RVal 7)) m' g' /\ forall f P, f <> 1 -> avoids f P ex49_first.
Proof.
  split; [exact GW_ids|].
  destruct (eval (asserts_on GW) (smach (asserts_on GW)) None ex49_first (smem0, glob0)) as [[o [s' g']]|] eqn:E; [|by vm_compute in E].
  assert (o = ORet (RVal 7)) as ->. { vm_compute in E. by injection E. }
  destruct (C48_pointer_free_semantics _ _ _ _ _ _ _ _ _ R0 E) as (m' & H & HR'). exists m', g'. split.
  - split; [exact H|]. exists smem0, s'. split; [exact R0|]. split; [exact HR'|exact E].
  - intros f P Hf. cbn. split; [|split; [|split; [|exact I]]].
    + intros id Hid. split; [exact Hid|]. split; [by apply Forall_singleton|]. split; [constructor|]. intros id2 Hid2. exact Hid2.
    + intros l _. split; [constructor|]. repeat case_match; exact I.
    + intros l _. split; [constructor|]. exact I.
Qed.
Print Assumptions C49_new_error_has_no_objects_refuted.

(** Error 5 has two objects, the current error is 9; then another error is started, with an object of one of these types, and handled in part by an inner scope. *)
Lemma no_mention_hp f m : (forall ad sl, hp m !! ad = Some sl -> cval f (e_val sl)) -> no_mention f m.
Proof.
  intros H c T k v Hh. unfold held in Hh. destruct (caddr m c T) as [a|]; [|done]. destruct (hp m !! a) eqn:E; [|done]. destruct (_ =? _); [done|]. simplify_eq. eauto.
Qed.
Definition plain (v : val) : bool := match v with VZ _ => true | _ => false end.
Lemma no_mention_plain f m : forallb (fun x => plain (e_val (snd x))) (map_to_list (hp m)) = true -> no_mention f m.
Proof.
  intros H. apply no_mention_hp. intros ad sl Hl. rewrite forallb_forall in H. specialize (H (ad, sl)). apply elem_of_map_to_list in Hl. apply elem_of_list_In in Hl.
  apply H in Hl. simpl in Hl. by destruct (e_val sl).
Qed.

Definition ex49_start : prog := PNewError [IVal TA (VZ 1); IVal TB (VZ 2)] (fun _ => PNewError [] (fun id => PRet (RErr id))).
Definition ex49_prog : prog :=
  PBind (PTHA (PNewError [IVal TC (VZ 3); IVal TB (VZ 4)] (fun id => PRet (RErr id)))
          (HCons [AE TC] (fun _ => PRet (RVal 0)) (HCons [] (fun _ => PRet (RVal 1)) HNil))) (fun r =>
  PNewError [] (fun id => PRet (RErr id))).
Definition ex49_g : glob := Glob 0 0 0 [] [].
Definition ex49_m0 : mem := nest_m [[SE TA; SE TB]].
Definition ex49_m1 : mem := match eval GX (pmach GX) None ex49_start (ex49_m0, ex49_g) with Ok (_, (m, _)) => m | _ => mem0 end.
Definition ex49_s1 : smem := match eval (asserts_on GX) (smach (asserts_on GX)) None ex49_start (nest_s [[SE TA; SE TB]], ex49_g) with Ok (_, (s, _)) => s | _ => smem0 end.
Lemma ex49_R : R ex49_m1 ex49_s1.
Proof.
  assert (R ex49_m0 (nest_s [[SE TA; SE TB]])) as HR by (unfold ex49_m0; nest). unfold ex49_m1, ex49_s1.
  assert (match eval (asserts_on GX) (smach (asserts_on GX)) None ex49_start (nest_s [[SE TA; SE TB]], ex49_g) with Ok _ => true | _ => false end = true) as Eo by (vm_compute; reflexivity).
  destruct (eval (asserts_on GX) (smach (asserts_on GX)) None ex49_start (nest_s [[SE TA; SE TB]], ex49_g)) as [[o [s' g']]|] eqn:E; [|done].
  by destruct (C48_pointer_free_semantics _ _ _ _ _ _ _ _ _ HR E) as (m' & -> & HR').
Qed.
Lemma ex49_avoids P : avoids 5 P ex49_prog.
Proof.
  cbn. split; [split; [split|]|].
  - do 2 (constructor; [exact I|]). constructor.
  - intros id Hid. exact Hid.
  - split; [|split; [|exact I]]; intros l _; (split; [constructor|exact I]).
  - intros r _. split; [constructor|]. intros id Hid. exact Hid.
Qed.
Example ex49 : exists m' g', runs GX None ex49_prog ex49_m1 (Glob 9 2 0 [] []) (ORet (RErr 17)) m' g' /\
  mk 5 = 5 /\ cid_ 5 9 /\ no_mention 5 ex49_m1 /\ avoids 5 (stored 5 ex49_m1) ex49_prog /\
  stored 5 ex49_m1 TA (VZ 1) /\ stored 5 ex49_m1 TB (VZ 2) /\
  stored 5 m' TA (VZ 1) /\ stored 13 m' TB (VZ 4).
Proof.
  assert (match eval (asserts_on GX) (smach (asserts_on GX)) None ex49_prog (ex49_s1, Glob 9 2 0 [] []) with Ok (o, _) => Some o | _ => None end = Some (ORet (RErr 17))) as Eo
    by (vm_compute; reflexivity).
  destruct (eval (asserts_on GX) (smach (asserts_on GX)) None ex49_prog (ex49_s1, Glob 9 2 0 [] [])) as [[o [s' g']]|] eqn:E; [|done].
  injection Eo as ->.
  destruct (C48_pointer_free_semantics _ _ _ _ _ _ _ _ _ ex49_R E) as (m' & H & HR'). exists m', g'.
  split; [split; [exact H|]; exists ex49_s1, s'; split; [exact ex49_R|split; [exact HR'|exact E]]|].
  split; [done|]. split; [done|]. split; [apply no_mention_plain; vm_compute; reflexivity|]. split; [apply ex49_avoids|].
  split; [exists 0%nat; vm_compute; reflexivity|]. split; [exists 0%nat; vm_compute; reflexivity|].
  assert (forall T, held m' 0%nat T = match eval GX (pmach GX) None ex49_prog (ex49_m1, Glob 9 2 0 [] []) with Ok (_, (m, _)) => held m 0%nat T | _ => None end) as Hh.
  { intros T. by rewrite H. }
  split; exists 0%nat; rewrite Hh; vm_compute; reflexivity.
Qed.
