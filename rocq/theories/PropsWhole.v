(** C52: what an error handling scope does, from beginning to end. *)
From Verif Require Export PropsNest PropsCapture.
Open Scope Z_scope.

(** ** Specification *)

(** A new context c for the handlers hs has been made and activated: it is empty, serves the types of its own, and nothing else changed. *)
Record opened (G : cfg) (hs : handlers) (m m1 : mem) (c : cid) : Prop := {
  op_new : ctxs m !! c = None;
  op_ctxs : ctxs m1 = <[c := CCtx (deduce G hs) true]> (ctxs m);
  op_empty T : held m1 c T = None;
  op_held c' T : c' <> c -> held m1 c' T = held m c' T;
  op_own T c' : SE T ∈ deduce G hs -> serves m1 T c' <-> c' = c;
  op_other T c' : SE T ∉ deduce G hs -> serves m1 T c' <-> serves m T c' }.

(** The id of an exception: LEAF's own exceptions carry it, others may derive from error_id; for all others it is the thread's current error.
    What does not derive from std::exception is not examined. *)
Definition thrown_id (x : exn) (current : Z) : Z :=
  if x_std x then match x_leaf x, x_eid x with Some id, _ => id | None, Some id => id | None, None => mk current end else mk current.
(** Handlers see std::exceptions. *)
Definition seen_exn (x : exn) : option exn := if x_std x then Some x else None.

(** A third-party result with the error code v of category cat is an error: LEAF's category means that v is the id; for others a new error
    is started, and the code is loaded for it (v = 0 is not an error: see the assumption id <> 0 below). *)
Definition code_id (G : cfg) (cat : nat) (v : Z) (g : glob) : Z :=
  if v =? 0 then 0 else if (cat =? LEAFCAT)%nat then mk v else mk (g_sup G (ngen g)).
Definition imported (G : cfg) (cat : nat) (v : Z) (g : glob) (m m' : mem) : Prop :=
  if (v =? 0) || (cat =? LEAFCAT)%nat then m' = m
  else Z.land (g_sup G (ngen g)) 3 = 1 -> exists g1 g2, loaded G false (g_sup G (ngen g)) (IVal T_EC (VEC cat v)) m g1 m' g2.

(** Where objects of the failure come from, apart from the contexts. *)
Inductive source := Nothing | Captured (id : Z) (l : list cnode) | Code (cat : nat) (v : Z).
Definition brought (G : cfg) (objs : source) (g : glob) (m m' : mem) : Prop :=
  match objs with
  | Nothing => m' = m
  | Captured id l => NoDup l.*1 ->
      moved G id (fun T => sees id (get_node T l)) m m' /\ forall c T, inactive m c -> held m' c T = held m c T
  | Code cat v => imported G cat v g m m'
  end.

(** The try block ended in ob, leaving g: this is a failure for the scope. The outcome if not handled is o2, the error is id;
    handlers are offered the exception ex, and may rethrow the exception caught'; objs are the objects the result brings with it;
    the current error is now cu. *)
Inductive fails (G : cfg) (k : kind) (caught : option exn) (g : glob) : out -> out -> Z -> option exn -> option exn -> source -> Z -> Prop :=
| fails_error id : k <> KCatch -> fails G k caught g (ORet (RErr id)) (ORet (RErr id)) (mk id) None caught Nothing (cur g)
| fails_captured id l : k <> KCatch ->
    fails G k caught g (ORet (RCap id l None)) (ORet (RCap id [] None)) (mk id) None caught (Captured (mk id) l) (mk id)
| fails_captured_exn id l x : k <> KCatch ->
    fails G k caught g (ORet (RCap id l (Some x))) (OThrow x) (thrown_id x (mk id)) (seen_exn x) (Some x) (Captured (mk id) l) (mk id)
| fails_code cat v : k <> KCatch ->
    fails G k caught g (ORet (RFor cat v)) (ORet (RFor cat v)) (code_id G cat v g) None caught (Code cat v)
      (if (v =? 0) || (cat =? LEAFCAT)%nat then cur g else g_sup G (ngen g))
| fails_exn x : fails G k caught g (OThrow x) (OThrow x) (thrown_id x (cur g)) (seen_exn x) (Some x) Nothing (cur g).

(** The scope ends with the outcome o. An error returned from try_handle_some takes its objects out of the scope; a third-party result does,
    too, but unless it has LEAF's category it is a new error again; otherwise what is in the scope's context is gone and nothing else changes. *)
Definition closed (G : cfg) (k : kind) (c : cid) (o : out) (m : mem) (g : glob) (m' : mem) (g' : glob) : Prop :=
  match k, o with
  | KSome, ORet (RErr id) | KSome, ORet (RCap id _ _) => moved G (mk id) (fun T => sees (mk id) (held m c T)) m m'
  | KSome, ORet (RFor cat v) => v <> 0 ->
      exists m1, imported G cat v g m m1 /\ moved G (code_id G cat v g) (fun T => sees (code_id G cat v g) (held m1 c T)) m1 m'
  | _, _ => g' = g /\ forall c' T, c' <> c -> held m' c' T = held m c' T
  end.

(** ** Auxiliary *)
Lemma enter_opened G hs m s c m1 s1 : R m s -> R m1 s1 -> c = snc s ->
  stack s1 = snc s :: stack s -> actxs s1 = <[snc s := ACtx (deduce G hs) ∅ None]> (actxs s) ->
  opened G hs m m1 c.
Proof.
  intros HR HR1 -> S1 S2. destruct (wf_fresh _ (R_wf _ _ HR)) as [Hf1 Hf2].
  assert (forall c T, c ∈ stack s -> hasT T c s1 = hasT T c s) as Hh.
  { intros c T Hc. unfold hasT. by rewrite S2, lookup_insert_ne by congruence. }
  assert (forall T, hasT T (snc s) s1 = bool_decide (SE T ∈ deduce G hs)) as Hn.
  { intros T. unfold hasT. rewrite S2, lookup_insert. unfold has_e. simpl. by rewrite orb_false_r. }
  split.
  - by apply (R_look_none _ _ _ HR).
  - apply map_eq. intros c. rewrite (R_ctxs _ _ c HR1), S1, S2. destruct (decide (c = snc s)) as [->|Hne].
    + rewrite !lookup_insert. simpl. by rewrite bool_decide_true by constructor.
    + rewrite !lookup_insert_ne by done. rewrite (R_ctxs _ _ c HR). destruct (actxs s !! c); [|done]. simpl. f_equal. f_equal.
      apply bool_decide_ext. rewrite elem_of_cons. naive_solver.
  - intros T. rewrite (R_held m1 s1 (snc s) (ACtx (deduce G hs) ∅ None) T HR1); [|by rewrite S2, lookup_insert].
    unfold get_e. simpl. by case_bool_decide.
  - intros c T Hne. eapply held_actxs; [exact HR|exact HR1|]. by rewrite S2, lookup_insert_ne.
  - intros T c HT. rewrite (serves_first _ _ _ _ HR1), S1. simpl. rewrite Hn, bool_decide_true by done. split; [by intros [= ->]|by intros ->].
  - intros T c HT. rewrite (serves_first _ _ _ _ HR1), (serves_first _ _ _ _ HR), S1. simpl. rewrite Hn, bool_decide_false by done.
    erewrite first_of_ext; [done|]. intros c0 Hc0. by apply Hh.
Qed.

Lemma catch_spec x g : fst (catch_info x g) = (thrown_id x (cur g), seen_exn x).
Proof. unfold catch_info, thrown_id, seen_exn. destruct (x_std x); [|done]. by destruct (x_leaf x), (x_eid x). Qed.

Lemma detect_loc G c caught o2 m2 g2 ei caught' m3 g3 :
  detect G (pmach G) c caught (o2, (m2, g2)) = Ok (ei, caught', (m3, g3)) -> mget G c T_LOC (ei_id ei) m3 = Ok (ei_loc ei).
Proof.
  intros H. destruct o2 as [r|x]; unfold detect in H.
  - ok_inv H. ok_inv H. ok_inv H. injection H as <- <- Hm. cbn [ei_id ei_loc]. rewrite Hm in E1. exact E1.
  - unfold exn_info in H. ok_inv H. ok_inv E. match type of E with context [catch_info ?x ?y] => destruct (catch_info x y) as [[id ex] gx] end. ok_inv E. injection E as <-. injection H as <- <- <- <-. exact E1.
Qed.

Lemma detect_thrown G c caught x s2 g2 ei caught' s3 g3 :
  detect G (smach G) c caught (OThrow x, (s2, g2)) = Ok (ei, caught', (s3, g3)) ->
  sdeact c s2 = Ok s3 /\ ei_id ei = thrown_id x (cur g2) /\ ei_ex ei = seen_exn x /\ caught' = Some x /\ cur g3 = cur g2.
Proof.
  intros H. unfold detect, exn_info in H. ok_inv H. destruct a as [e [ma ga]]. ok_inv E. apply on_mem_inv in E0 as [E0 E0'].
  destruct a as [sx gx0]. cbn [fst snd] in *. subst gx0. pose proof (catch_spec x g2) as Hc. pose proof (catch_cur x g2) as Hcu.
  match type of E with context [catch_info ?x ?y] => change (catch_info x y) with (catch_info x g2) in E end.
  destruct (catch_info x g2) as [[id ex] gx]. cbn [fst snd] in *. injection Hc as -> ->.
  ok_inv E. injection E as <- <- <-. injection H as <- <- <- <-. cbn [ei_id ei_ex]. done.
Qed.

(** error_code imported *)
Lemma import_both G cat v m s g i s1 g1 : R m s -> aok s -> import_ec (asserts_on G) (smach (asserts_on G)) cat v (s, g) = Ok (i, (s1, g1)) ->
  i = code_id G cat v g /\ cur g1 = (if (v =? 0) || (cat =? LEAFCAT)%nat then cur g else g_sup G (ngen g)) /\
  exists m1, R m1 s1 /\ aok s1 /\ imported G cat v g m m1.
Proof.
  intros HR Hok H. unfold import_ec in H. unfold code_id, imported. destruct (v =? 0) eqn:Ev; [injection H as <- <- <-; cbn; eauto 10|]. cbn [orb].
  destruct (cat =? LEAFCAT)%nat; [ok_inv H; injection H as <- <- <-; cbn; eauto 10|]. unfold gnew in H. cbn [fst snd] in H.
  match type of H with context [m_load _ _ _ _ _ ?g0] => set (g0' := g0) in * end.
  ok_inv H. destruct a as [sa ga]. injection H as <- -> ->.
  change (g_sup (asserts_on G) (ngen g)) with (g_sup G (ngen g)) in *. split; [done|].
  destruct (sim_ok _ _ _ _ (sim_load G false (g_sup G (ngen g)) (IVal T_EC (VEC cat v)) (m, g0') (s, g0') ltac:(by split)) E) as ([mq gq] & Eq & HRq & Egq).
  cbn [fst snd] in *. split.
  - assert (g1 = g0') as ->; [|done]. simpl in E. repeat case_match; try ok_inv E; by simplify_eq.
  - exists mq. split; [done|]. split.
    + eapply wb_aok; [|apply (R_wf _ _ HR)|exact Hok]. apply wb_atoms. eapply sload_atom. exact E.
    + intros Hid. assert (usable m) as Hus. { apply (R_usable _ _ HR). by apply aok_dok. }
      destruct (load_one G false (g_sup G (ngen g)) (IVal T_EC (VEC cat v)) m s g0' HR (good_nz _ Hid) Hus I) as (ma & ga & sa & L1 & HRa & _ & L).
      pose proof (eq_trans (eq_sym L1) Eq) as X. injection X as -> ->. eauto.
Qed.

Lemma open_aok G hs s s1 : aok s -> stack s1 = snc s :: stack s -> actxs s1 = <[snc s := ACtx (deduce G hs) ∅ None]> (actxs s) -> aok s1.
Proof.
  intros Ha S1 S2 c Hc a q. rewrite S2. rewrite S1 in Hc. destruct (decide (c = snc s)) as [->|Hne].
  - rewrite lookup_insert. intros. by simplify_eq.
  - rewrite lookup_insert_ne by done. apply elem_of_cons in Hc as [?|Hc]; [done|]. by apply Ha.
Qed.

Lemma settle_brought G k mb sb gb id l ex o2 m2 g2 : k <> KCatch -> R mb sb -> aok sb ->
  settle (pmach G) k (ORet (RCap id l ex), (mb, gb)) = Ok (o2, (m2, g2)) ->
  o2 = match ex with Some x => OThrow x | None => ORet (RCap id [] None) end /\ g2 = set_cur (mk id) gb /\ brought G (Captured (mk id) l) gb mb m2.
Proof.
  intros Hk HR Hok H. assert (unload_ret (pmach G) (RCap id l ex) (mb, gb) = Ok (o2, (m2, g2))) as Hu by by destruct k.
  assert (m_capunload (pmach G) (mk id) l mb gb = Ok (m2, g2) /\ o2 = match ex with Some x => OThrow x | None => ORet (RCap id [] None) end) as [Hc ->].
  { unfold unload_ret in Hu. ok_inv Hu. cbn [fst snd] in E. rewrite E. destruct ex; by injection Hu as <- ->. }
  split; [done|]. assert (g2 = set_cur (mk id) gb) as ->.
  { simpl in Hc. unfold mcap_unload in Hc. ok_inv Hc. by injection Hc. }
  split; [done|]. intros Hnd. 
  assert (usable mb) as Hus. { apply (R_usable _ _ HR). by apply aok_dok. }
  destruct (unload_both G (mk id) l ex mb sb gb HR Hus (mk_mk _) (mk_nz _) Hnd) as (n' & s' & HR' & _ & Hmv & Hin & _ & _ & E & _).
  unfold unload_ret in E. rewrite mk_mk in E. change (fst (mb, gb)) with mb in E. change (snd (mb, gb)) with gb in E. rewrite Hc in E. cbn [rbind] in E.
  assert (n' = m2) as -> by (destruct ex; by injection E as ->). done.
Qed.

Lemma detect_returned G c caught r s2 g2 ei caught' s3 g3 :
  detect (asserts_on G) (smach (asserts_on G)) c caught (ORet r, (s2, g2)) = Ok (ei, caught', (s3, g3)) ->
  ei_ex ei = None /\ caught' = caught /\ exists s2' g2', err_id_of (asserts_on G) (smach (asserts_on G)) r (s2, g2) = Ok (ei_id ei, (s2', g2')) /\ sdeact c s2' = Ok s3 /\ g3 = g2'.
Proof.
  intros H. unfold detect in H. ok_inv H. destruct a as [i [s2' g2']]. ok_inv H. ok_inv H. injection H as <- <- ->. apply on_mem_inv in E0 as [E0 E0'].
  cbn [fst snd ei_id ei_ex] in *. split; [done|]. split; [done|]. exists s2', g2'. done.
Qed.

Lemma finish_closed G k c o4 m4 s4 g4 o m' s' g' : R m4 s4 -> aok s4 -> R m' s' ->
  finish (asserts_on G) (smach (asserts_on G)) k c (o4, (s4, g4)) = Ok (o, (s', g')) -> o4 = o /\ closed G k c o m4 g4 m' g'.
Proof.
  intros HR Hok HR' H.
  assert (forall o1, leave (smach (asserts_on G)) c o1 (s4, g4) = Ok (o, (s', g')) -> o1 = o /\ g' = g4 /\ forall c' T, c' <> c -> held m' c' T = held m4 c' T) as Hleave.
  { intros o1 Hl. apply leave_inv in Hl as (-> & Hd & Hg). cbn [fst snd] in *. split; [done|]. split; [done|]. intros c' T Hne.
    apply sdestroy_inv in Hd as [_ Hd]. eapply delete_held; [exact HR|exact HR'|by rewrite Hd|done]. }
  destruct k; simpl in H.
  - unfold tha_end in H. destruct o4 as [r|x]; [destruct (is_val r); [|done]|]; apply Hleave in H as (-> & ?); done.
  - unfold ths_end in H. destruct o4 as [r|x]; [|apply Hleave in H as (<- & ?); done].
    destruct (is_val r) eqn:Ev; [apply Hleave in H as (<- & ?); split; [done|]; destruct r; done|].
    destruct r as [z|id|id l e|cat v]; [done| | |].
    + simpl in H. ok_inv H. apply leave_inv in H as (-> & Hd & _). destruct a as [s5 g5]. split; [done|]. simpl. cbn [fst snd] in *.
      eapply unload_leave_moved; eauto. apply mk_nz.
    + simpl in H. ok_inv H. apply leave_inv in H as (-> & Hd & _). destruct a as [s5 g5]. split; [done|]. simpl. cbn [fst snd] in *.
      eapply unload_leave_moved; eauto. apply mk_nz.
    + ok_inv H. destruct a as [i [s5 g5]]. ok_inv H. destruct a as [s6 g6]. apply leave_inv in H as (-> & Hd & _). split; [done|]. simpl. intros Hv. cbn [fst snd] in *.
      destruct (import_both _ _ _ _ _ _ _ _ _ HR Hok E) as (-> & _ & m5 & HR5 & Hok5 & Him). exists m5. split; [done|].
      eapply unload_leave_moved; eauto. unfold code_id. rewrite (proj2 (Z.eqb_neq _ _) Hv). case_match; apply mk_nz.
  - apply Hleave in H as (-> & ?). done.
Qed.

(** ** C52 *)
Theorem C52_scope_from_beginning_to_end :
  forall G k caught p hs m g o m' g',
    runs G caught (PScope k p hs) m g o m' g' -> healthy m ->
    ctxs m' = ctxs m /\
    exists c m1 ob mb gb,
      opened G hs m m1 c /\ healthy m1 /\ runs G caught p m1 g ob mb gb /\
      ((exists r, ob = ORet r /\ (k = KCatch \/ exists z, r = RVal z) /\ o = ob /\ g' = gb /\ forall c' T, c' <> c -> held m' c' T = held mb c' T) \/
       (exists o2 id ex caught' objs cu m2 m3 g3 loc,
          fails G k caught gb ob o2 id ex caught' objs cu /\
          brought G objs gb mb m2 /\ popped c m2 m3 /\ cur g3 = cu /\
          (id <> 0 ->
           loc = (if decide (T_LOC ∈ members m3 c) then sees id (held m3 c T_LOC) else None) /\
           ((exists args w b vs m5 m4 g4, chosen G m3 c (EInfo id ex loc) hs args w b vs /\ assigned m3 c id args (w vs) m5 /\
               runs G caught' (b vs) m5 g3 o m4 g4 /\ closed G k c o m4 g4 m' g') \/
            (nobody G m3 c (EInfo id ex loc) hs /\ o = o2 /\
               match o2 with
               | ORet _ => k = KSome /\ closed G KSome c o m3 g3 m' g'
               | OThrow _ => moved G id (fun T => sees id (held m3 c T)) m3 m'
               end))))).
Proof.
  intros G k caught p hs m g o m' g' Hruns Hh. pose proof Hruns as (Hl & s & s' & HR & HR' & H).
  assert (ctxs m' = ctxs m) as Ectx.
  { pose proof (proj1 (eval_wb _) _ _ _ _ _ H) as W. simpl in W. exact (same_ctxs _ _ _ _ HR HR' (wb_same _ _ W (R_wf _ _ HR))). }
  split; [exact Ectx|].
  destruct (scope_inv G k _ _ _ _ _ _ _ _ _ HR H) as (m'' & Hl' & _ & c & m1 & s1 & A1 & A2 & HR1 & Ec & ob & mb & sb & gb & B1 & B2 & HRb & o2 & m2 & s2 & g2 & C1 & C2 & HR2 & D).
  assert (m'' = m') as -> by (pose proof (eq_trans (eq_sym Hl) Hl'); by simplify_eq).
  destruct (enter_both G (deduce G hs) m s g (deduce_nodup G hs) HR) as (s1' & m1' & A1' & A2' & _ & S1 & S2 & S3).
  assert (s1' = s1) as -> by (rewrite <- Ec in A1'; pose proof (eq_trans (eq_sym A2) A1') as X; by injection X).
  assert (aok s1) as Hok1 by exact (open_aok _ _ _ _ (proj1 (R_healthy _ _ HR) Hh) S1 S2).
  assert (aok sb) as Hokb. { pose proof (proj1 (eval_wb _) _ _ _ _ _ B2) as W. exact (wb_aok _ _ W (R_wf _ _ HR1) Hok1). }
  exists c, m1, ob, mb, gb. split; [exact (enter_opened _ _ _ _ _ _ _ HR HR1 Ec S1 S2)|]. split; [by apply (R_healthy _ _ HR1)|].
  split; [split; [exact B1|]; by exists s1, sb|].
  destruct D as [(D1 & D2 & D3)|(D1 & ei & caught' & m3 & s3 & g3 & o4 & m4 & s4 & g4 & E1 & E2 & HR3 & F1 & F2 & HR4 & F3 & F4)].
  - left. assert (o2 = ob /\ m2 = mb /\ g2 = gb /\ exists r, ob = ORet r /\ (k = KCatch \/ exists z, r = RVal z)) as (-> & -> & -> & r & -> & Hr).
    { destruct ob as [r|x].
      - destruct k; [| |simpl in C1; injection C1 as <- <- <-; eauto 10].
        all: destruct r as [z|id|id l ex|cat v]; simpl in C1; try (injection C1 as <- <- <-; simpl in D1; by eauto 10);
          unfold mcap_unload in C1; destruct (cap_unload_nodes _ _ _ _); simpl in C1; [|done]; destruct ex; injection C1 as <- <- <-; done.
      - destruct k; simpl in C1; injection C1 as <- <- <-; done. }
    exists r. split; [done|]. split; [done|]. apply deact_leave_inv in D3 as (-> & sx & X1 & X2 & X3). cbn [fst snd] in *.
    split; [done|]. split; [done|]. intros c' T Hne. apply sdeact_inv in X1 as (_ & X1 & _). apply sdestroy_inv in X2 as (_ & X2).
    eapply delete_held; [exact HR2|exact HR'| |done]. rewrite X2. cbn [actxs]. by rewrite X1.
  - right. assert (failed G k caught p hs m g c ob mb gb o2 ei caught' m3 g3) as HF by (exists m1, m2, g2; done).
    assert (exists objs cu mx sx, fails G k caught gb ob o2 (ei_id ei) (ei_ex ei) caught' objs cu /\ brought G objs gb mb mx /\ cur g3 = cu /\
      R mx sx /\ sdeact c sx = Ok s3) as (objs & cu & mx & sx & HX & Hbr & Hcu & HRx & Hde).
    { destruct ob as [r|x].
      - assert (k <> KCatch) as Hk. { intros ->. simpl in C1. injection C1 as <- <- <-. done. }
        destruct r as [z|id|id l ex|cat v].
        + exfalso. destruct k; simpl in C1; injection C1 as <- <- <-; done.
        + assert (o2 = ORet (RErr id) /\ m2 = mb /\ g2 = gb) as (-> & -> & ->) by (destruct k; simpl in C1; by injection C1 as <- <- <-).
          destruct (detect_returned _ _ _ _ _ _ _ _ _ _ E2) as (-> & -> & s2' & g2' & X1 & X2 & X3). simpl in X1. injection X1 as <- <- <-.
          exists Nothing, (cur gb), mb, s2. split; [by constructor|]. split; [done|]. by rewrite X3.
        + destruct (settle_brought _ _ _ _ _ _ _ _ _ _ _ Hk HRb Hokb C1) as (-> & -> & Hbr). exists (Captured (mk id) l), (mk id), m2, s2. destruct ex as [x|].
          * destruct (detect_thrown _ _ _ _ _ _ _ _ _ _ E2) as (? & -> & -> & -> & ->). split; [by constructor|]. done.
          * destruct (detect_returned _ _ _ _ _ _ _ _ _ _ E2) as (-> & -> & s2' & g2' & X1 & X2 & X3). simpl in X1. injection X1 as <- <- <-.
            split; [by constructor|]. split; [done|]. by rewrite X3.
        + assert (o2 = ORet (RFor cat v) /\ m2 = mb /\ g2 = gb) as (-> & -> & ->) by (destruct k; simpl in C1; by injection C1 as <- <- <-).
          assert (aok s2) as Hok2 by (apply (R_healthy _ _ HR2); by apply (R_healthy _ _ HRb)).
          destruct (detect_returned _ _ _ _ _ _ _ _ _ _ E2) as (-> & -> & s2' & g2' & X1 & X2 & X3).
          destruct (import_both _ _ _ _ _ _ _ _ _ HR2 Hok2 X1) as (-> & Hcu & mx & HRx & _ & Him).
          eexists _, _, mx, s2'. split; [by constructor|]. split; [done|]. by rewrite X3.
      - assert (o2 = OThrow x /\ m2 = mb /\ g2 = gb) as (-> & -> & ->) by (destruct k; simpl in C1; by injection C1 as <- <- <-).
        destruct (detect_thrown _ _ _ _ _ _ _ _ _ _ E2) as (? & -> & -> & -> & ->). exists Nothing, (cur gb), mb, s2. split; [by constructor|]. done. }
    pose proof (detect_loc _ _ _ _ _ _ _ _ _ _ E1) as Hloc.
    pose proof (deact_popped _ _ _ _ _ HRx HR3 Hde) as PP.
    exists o2, (ei_id ei), (ei_ex ei), caught', objs, cu, mx, m3, g3, (ei_loc ei). split; [done|]. split; [done|]. split; [done|]. split; [done|]. intros Hid.
    destruct (failed_alive _ _ _ _ _ _ _ _ _ _ _ _ _ _ _ _ _ _ _ _ _ HR H Hl HF) as [(kc & Hkc & Hact) _].
    split.
    { rewrite (mget_spec _ _ _ _ _ _ _ HR3 Hkc Hid) in Hloc. injection Hloc as <-. pose proof (elem_members _ _ _ T_LOC Hkc) as Hem.
      case_bool_decide; [rewrite decide_True by tauto|rewrite decide_False by tauto]; done. }
    destruct (failed_full _ _ _ _ _ _ _ _ _ _ _ _ _ _ _ _ _ _ _ _ _ HR H Hl HF Hid) as (s3' & o5 & m5 & s5 & g5 & HR3' & HR5 & _ & K1 & K2 & K3).
    assert (EInfo (ei_id ei) (ei_ex ei) (ei_loc ei) = ei) as -> by by destruct ei.
    pose proof (failed_aok _ _ _ _ _ _ _ _ _ _ _ _ _ _ _ _ _ _ _ _ _ _ HR H Hl HF Hh HR3') as Hok.
    destruct K3 as [(args & w & b & vs & m6 & s6 & K3 & K4 & K5 & K5' & K6 & K7)|(Hn & Hu & Hu')].
    + left. apply (wb_aok _ _ K5' (R_wf _ _ HR3')) in Hok.
      pose proof (proj1 (eval_wb _) _ _ _ _ _ K7) as W. simpl in W. apply (wb_aok _ _ W (R_wf _ _ K5)) in Hok.
      destruct (finish_closed _ _ _ _ _ _ _ _ _ _ _ HR5 Hok HR' K2) as [-> Hcl].
      exists args, w, b, vs, m6, m5, g5. split; [done|]. split; [done|]. split; [|done]. split; [done|]. by exists s6, s5.
    + right. split; [done|]. destruct o2 as [r|x].
      * simpl in Hu, Hu'. destruct k; try done. injection Hu as <- <- <-. injection Hu' as <-.
        destruct (finish_closed G KSome _ _ _ _ _ _ _ _ _ HR3' Hok HR' K2) as [<- Hcl]. done.
      * destruct (C09_unhandled_error_carries_objects_out _ _ _ _ _ _ _ _ _ _ _ _ _ _ _ _ _ _ _ Hruns Hh HF Hid Hn) as (-> & _ & ?); done.
Qed.
Print Assumptions C52_scope_from_beginning_to_end.

(** ** Examples *)
Lemma out_healthy : healthy out_m.
Proof. intros c d _ Hd. vm_compute in Hd. done. Qed.

(** A captured exception with two objects of error 41, in a scope which has a place for one of them and no handler for what it finds: the
    exception is thrown, and both objects are in the enclosing context. *)
Definition ex52_x : exn := Exn 7 true [T_STDEX] 3 None None (Some 41).
Definition ex52_hs : handlers := HCons [AE TC] (fun _ => PRet (RVal 1)) (HCons [APtr TB; ACatch [T_BADRES]] (fun _ => PRet (RVal 2)) HNil).
Definition ex52_p : prog := PRet (RCap 41 [(TA, (41, VZ 30)); (TB, (41, VZ 31))] (Some ex52_x)).
Example ex52_unhandled : exists o m' g' c ob mb gb o2 ei caught' m3 g3,
  runs GX None (PTHS ex52_p ex52_hs) out_m glob0 o m' g' /\
  failed GX KSome None ex52_p ex52_hs out_m glob0 c ob mb gb o2 ei caught' m3 g3 /\
  (o = OThrow ex52_x /\ ei_id ei = 41 /\ held m3 c TB = Some (41, VZ 31) /\ held m3 0%nat TA = Some (41, VZ 30) /\ held m3 0%nat TB = None /\
   held m' 0%nat TA = Some (41, VZ 30) /\ held m' 0%nat TB = Some (41, VZ 31)).
Proof.
  eapply (scope_ex GX KSome _ _ _ _ _ (fun o m' c o2 ei m3 => o = OThrow ex52_x /\ ei_id ei = 41 /\ held m3 c TB = Some (41, VZ 31) /\
    held m3 0%nat TA = Some (41, VZ 30) /\ held m3 0%nat TB = None /\ held m' 0%nat TA = Some (41, VZ 30) /\ held m' 0%nat TB = Some (41, VZ 31)));
    [exact out_R|]. vm_compute. reflexivity.
Qed.

(** An exception without an id, thrown after a new error was made: it is taken for that error. *)
Definition ex52_hs2 : handlers := HCons [ACatch [T_STDEX]; AE TB; AInfo] (fun l => match l with [_; VE (VZ v); VInfo id _ _] => PRet (RVal (v * 10 + id)) | _ => PRet (RVal 0) end) HNil.
Definition ex52_p2 : prog := PNewError [IVal TB (VZ 80)] (fun _ => PThrowX (XSpec true [T_STDEX] 3 None None)).
Example ex52_handled : exists o m' g' c ob mb gb o2 ei caught' m3 g3,
  runs GX None (PTC ex52_p2 ex52_hs2) out_m glob0 o m' g' /\
  failed GX KCatch None ex52_p2 ex52_hs2 out_m glob0 c ob mb gb o2 ei caught' m3 g3 /\
  (o = ORet (RVal 805) /\ ei_id ei = 5 /\ held m3 c TB = Some (5, VZ 80) /\ held m' 0%nat TB = None).
Proof.
  eapply (scope_ex GX KCatch _ _ _ _ _ (fun o m' c o2 ei m3 => o = ORet (RVal 805) /\ ei_id ei = 5 /\ held m3 c TB = Some (5, VZ 80) /\ held m' 0%nat TB = None));
    [exact out_R|]. vm_compute. reflexivity.
Qed.

(** A third-party result nobody handles: the enclosing scope has the code for a second new error, 9. *)
Definition ex52_hs3 : handlers := HCons [AE TC; APtr T_EC] (fun _ => PRet (RVal 1)) HNil.
Local Notation ec_m := (nest_m [[SE T_EC]]).
Example ex52_code : exists o m' g' c ob mb gb o2 ei caught' m3 g3,
  runs GX None (PTHS (PRet (RFor 5 42)) ex52_hs3) ec_m glob0 o m' g' /\
  failed GX KSome None (PRet (RFor 5 42)) ex52_hs3 ec_m glob0 c ob mb gb o2 ei caught' m3 g3 /\
  (o = ORet (RFor 5 42) /\ ei_id ei = 5 /\ held m3 c T_EC = Some (5, VEC 5 42) /\ held m3 0%nat T_EC = None /\ held m' 0%nat T_EC = Some (9, VEC 5 42)).
Proof.
  eapply (scope_ex GX KSome _ _ _ _ _ (fun o m' c o2 ei m3 => o = ORet (RFor 5 42) /\ ei_id ei = 5 /\ held m3 c T_EC = Some (5, VEC 5 42) /\
    held m3 0%nat T_EC = None /\ held m' 0%nat T_EC = Some (9, VEC 5 42))); [apply nest_R; constructor; [apply NoDup_singleton|constructor]|]. vm_compute. reflexivity.
Qed.
