(** C03, C04, C05, C16: the current error of a thread, error_monitor, on_error. *)
From Verif Require Export Glob PropsLoad Ids.
Open Scope Z_scope.

(** ** C03 *)

(** The documented reasons for current_error() to change. *)
Inductive cause :=
| Started (id : Z)      (* a new error *)
| Unloaded (id : Z)     (* a captured result, or a scope that collects details, is unloaded for error id *)
| LetGo (id : Z).       (* an exception with this id, caught with a plain catch, is destroyed *)

Definition after (cur : Z) (c : cause) : Z :=
  match c with
  | Started id | Unloaded id => id
  | LetGo id => if cur =? id then 0 else cur
  end.

Definition started (l : list cause) : list Z := omap (fun c => match c with Started id => Some id | _ => None end) l.

(** The ids of the errors the thread starts between two states. *)
Definition between (G : cfg) (g g' : glob) : list Z := map (g_sup G) (seq (ngen g) (ngen g' - ngen g)).

Lemma gplay_ngen G l : forall g, (ngen g <= ngen (gplay G g l))%nat.
Proof.
  induction l as [|x l IH]; intros g; [done|]. change (gplay G g (x :: l)) with (gplay G (gdo G g x) l).
  etransitivity; [|apply IH]. destruct x; simpl; auto. destruct (bool_decide _); [destruct (_ =? _)|]; simpl; auto.
Qed.

Lemma gplay_causes G F l : Forall (lab_in F) l -> forall g,
  exists cs, cur (gplay G g l) = foldl after (cur g) cs /\ started cs = between G g (gplay G g l) /\
    (f_unl F = false -> forall id, Unloaded id ∉ cs) /\ (f_catch F = false -> forall id, LetGo id ∉ cs).
Proof.
  induction l as [|x l IH]; intros HF g.
  - exists []. split; [done|]. split; [unfold between; simpl; by rewrite Nat.sub_diag|]. split; intros; set_solver.
  - apply Forall_cons in HF as [Hx HF]. change (gplay G g (x :: l)) with (gplay G (gdo G g x) l).
    destruct (IH HF (gdo G g x)) as (cs & E1 & E2 & E3 & E4). pose proof (gplay_ngen G l (gdo G g x)) as Hle.
    assert (forall c, cur (gdo G g x) = after (cur g) c -> started [c] = between G g (gdo G g x) ->
      (f_unl F = false -> forall id, Unloaded id <> c) -> (f_catch F = false -> forall id, LetGo id <> c) -> 
      (ngen g <= ngen (gdo G g x))%nat ->
      exists cs, cur (gplay G (gdo G g x) l) = foldl after (cur g) cs /\ started cs = between G g (gplay G (gdo G g x) l) /\
       (f_unl F = false -> forall id, Unloaded id ∉ cs) /\ (f_catch F = false -> forall id, LetGo id ∉ cs)) as Hc.
    { intros c A1 A2 A3 A4 A5. exists (c :: cs). split; [simpl; by rewrite <- A1|]. split.
      - change (started (c :: cs)) with (started ([c] ++ cs)). unfold started in *. rewrite omap_app, A2, E2. unfold between. rewrite <- map_app.
        f_equal. replace (ngen (gplay G (gdo G g x) l) - ngen g)%nat with
          ((ngen (gdo G g x) - ngen g) + (ngen (gplay G (gdo G g x) l) - ngen (gdo G g x)))%nat by lia.
        rewrite seq_app. do 2 f_equal. lia.
      - split; intros HH id Hin; apply elem_of_cons in Hin as [Hin|Hin]; [by eapply A3|by eapply E3|by eapply A4|by eapply E4]. }
    assert (cur (gdo G g x) = cur g -> ngen (gdo G g x) = ngen g ->
      exists cs, cur (gplay G (gdo G g x) l) = foldl after (cur g) cs /\ started cs = between G g (gplay G (gdo G g x) l) /\
       (f_unl F = false -> forall id, Unloaded id ∉ cs) /\ (f_catch F = false -> forall id, LetGo id ∉ cs)) as Hn.
    { intros A1 A2. exists cs. rewrite <- A1. split; [done|]. split; [|done]. unfold between in *. by rewrite <- A2. }
    destruct x as [|e|id| | |o|o id]; try (by apply Hn).
    + apply (Hc (Started (g_sup G (ngen g)))); try done. unfold between. cbn [gdo ngen]. rewrite Nat.sub_succ_l, Nat.sub_diag by done. done.
      simpl. lia.
    + apply (Hc (Unloaded id)); try done; [by unfold between; simpl; rewrite Nat.sub_diag|]. simpl in Hx. congruence.
    + simpl in Hn, Hc |- *. destruct (bool_decide (o ∈ clr g)); [|by apply Hn]. simpl in Hx.
      apply (Hc (LetGo id)); try done; simpl; destruct (cur g =? id); try done; try congruence; unfold between; simpl; by rewrite Nat.sub_diag.
Qed.

(** What a program does to the current error is a sequence of the three things; the errors it starts are all there, and get their ids
    from the supply, in order; there are no unloads or exceptions let go in programs which do not use the features in question. *)
Theorem C03_current_error_changes :
  forall G F caught p m g o m' g',
    within G F p -> no_coll F m -> lib_run G caught p m g o m' g' ->
    exists cs, cur g' = foldl after (cur g) cs /\ (ngen g <= ngen g')%nat /\ started cs = between G g g' /\
      (f_unl F = false -> forall id, Unloaded id ∉ cs) /\ (f_catch F = false -> forall id, LetGo id ∉ cs).
Proof.
  intros G F caught p m g o m' g' W HI H. destruct (lib_glob G F _ _ _ _ _ _ _ W HI H) as (l & HF & ->).
  destruct (gplay_causes G F l HF g) as (cs & ?). exists cs. pose proof (gplay_ngen G l g). tauto.
Qed.
Print Assumptions C03_current_error_changes.

(** No plain catch, no captured results, no scopes that collect. *)
Definition Fbase : feat := Feat false false true.
Definition Fcatch : feat := Feat true false true.

(** In particular: loads, scopes, handlers, on_error leave it alone; it is the error last started. *)
Theorem C03_current_error_is_last_started :
  forall G caught p m g o m' g',
    within G Fbase p -> no_coll Fbase m -> lib_run G caught p m g o m' g' ->
    (ngen g <= ngen g')%nat /\ cur g' = if (ngen g' =? ngen g)%nat then cur g else g_sup G (ngen g' - 1).
Proof.
  intros G caught p m g o m' g' W HI H. destruct (C03_current_error_changes _ _ _ _ _ _ _ _ _ W HI H) as (cs & -> & Hle & Hs & Hu & Hc).
  split; [done|]. specialize (Hu eq_refl). specialize (Hc eq_refl).
  assert (forall x, foldl after x cs = match last (started cs) with Some id => id | None => x end) as ->.
  { clear Hs Hle. induction cs as [|[id|id|id] cs IH] using rev_ind; intros x; [done| | |].
    - rewrite foldl_app. unfold started. rewrite omap_app. simpl. by rewrite last_snoc.
    - destruct (Hu id). set_solver.
    - destruct (Hc id). set_solver. }
  rewrite Hs. unfold between. destruct (Nat.eqb_spec (ngen g') (ngen g)) as [E|E].
  - by rewrite E, Nat.sub_diag.
  - replace (ngen g' - ngen g)%nat with (S (ngen g' - 1 - ngen g)) by lia. rewrite seq_S, map_app. simpl. rewrite last_snoc.
    f_equal. lia.
Qed.
Print Assumptions C03_current_error_is_last_started.

(** Right after a new error is started, with any objects, current_error() is its id. *)
Theorem C03_new_error_is_current :
  forall G caught its k m g,
    eval G (pmach G) caught (PNewError its (fun id => PCurErr (k id))) (m, g) = eval G (pmach G) caught (PNewError its (fun id => k id id)) (m, g).
Proof.
  intros G caught its k m g. cbn [eval]. unfold gnew. cbv zeta iota beta.
  destruct (id_load (pmach G) (mk (g_sup G (ngen (snd (m, g))))) its _) as [[m1 g1]|] eqn:E; [|done]. cbn [rbind snd].
  assert (cur g1 = g_sup G (ngen g)) as ->; [|done].
  cbn [snd fst] in *. unfold id_load in E. destruct (_ =? 0); [injection E as <- <-; done|].
  assert (forall its s1 s2, load_items (pmach G) false (mk (g_sup G (ngen g))) its s1 = Ok s2 -> cur (snd s2) = cur (snd s1)) as Hl.
  { clear. induction its as [|it its IH]; intros s1 s2 H; [by injection H as <-|]. cbn [load_items] in H. ok_inv H. apply IH in H as ->.
    destruct a as [m2 g2]. apply (mload_ctxs G) in E as [_ [->|[e ->]]]; done. }
  by apply Hl in E.
Qed.
Print Assumptions C03_new_error_is_current.

(** A program with everything allowed by Fbase: it starts two errors, handles the first with a scope, an on_error in the way. *)
Definition ex03 : prog :=
  PTHA (POnError [IVal TB (VZ 3)] (PNewError [IVal TA (VZ 1)] (fun id => PRet (RErr id))))
    (HCons [AE TA] (fun _ => PNewError [] (fun _ => PRet (RVal 5))) (HCons [] (fun _ => PRet (RVal 6)) HNil)).
Example ex03_within : within GX Fbase ex03 /\ no_coll Fbase mem0.
Proof.
  split; [|by intros c k H].
  split; [done|]. split; [right; vm_compute; intros H; apply elem_of_list_In in H; simpl in H; intuition discriminate|].
  cbn [within withinH]. repeat split; intros; exact I.
Qed.
Example ex03_run : match eval GX (pmach GX) None ex03 (mem0, glob0) with
  | Ok (o, (_, g)) => Some (o, ngen g, cur g) | _ => None end = Some (ORet (RVal 5), 2%nat, g_sup GX 1).
Proof. vm_compute. reflexivity. Qed.

(** ** C05 *)
(** Ids are well-formed: C01 (n-th id is 1 modulo 4). *)
Definition good_sup (G : cfg) : Prop := forall n, Z.land (g_sup G n) 3 = 1.
Lemma mk_good id : Z.land id 3 = 1 -> mk id = id.
Proof.
  intros H. unfold mk. rewrite <- H. apply Z.bits_inj'. intros n Hn. rewrite Z.lor_spec, Z.ldiff_spec, Z.land_spec.
  destruct (Z.testbit id n), (Z.testbit 3 n); done.
Qed.
Lemma good_nz id : Z.land id 3 = 1 -> id <> 0.
Proof. intros H ->. done. Qed.

Section c05.
Context (G : cfg) (caught : option exn).

(** The run of p since the monitor was created ends normally; new errors were started, none with the id which was current at its creation. *)
Theorem C05_monitor_finds_error :
  forall p k m g r m' g',
    good_sup G -> within G Fbase (p (cur g)) -> no_coll Fbase m ->
    lib_run G caught (p (cur g)) m g (ORet r) m' g' ->
    cur g ∉ between G g g' -> ngen g <> ngen g' ->
    let id := g_sup G (ngen g' - 1) in
    eval G (pmach G) caught (PMonitor (fun mon => PBind (p mon) (fun r => PCheck mon (k r)))) (m, g) = eval G (pmach G) caught (k r id) (m', g') /\
    eval G (pmach G) caught (PMonitor (fun mon => PBind (p mon) (fun r => PAssigned mon (k r)))) (m, g) = eval G (pmach G) caught (k r id) (m', g').
Proof.
  intros p k m g r m' g' Hg W HI H Hf Hn id. destruct (C03_current_error_is_last_started _ _ _ _ _ _ _ _ W HI H) as [Hle Hc].
  rewrite (proj2 (Nat.eqb_neq _ _)) in Hc by done.
  assert (g_sup G (ngen g' - 1) ∈ between G g g') as Hin.
  { apply elem_of_list_In, in_map, in_seq. lia. }
  assert (negb (cur g' =? cur g) = true) as Hb.
  { apply negb_true_iff, Z.eqb_neq. intros E. apply Hf. by rewrite <- E, Hc. }
  split; cbn [eval snd]; rewrite H; cbn [rbind eval snd]; rewrite Hb, Hc; by rewrite mk_good.
Qed.

(** None was started: assigned_error_id starts one, and gives its id. *)
Theorem C05_monitor_starts_error :
  forall p k m g r m' g',
    good_sup G -> within G Fbase (p (cur g)) -> no_coll Fbase m ->
    lib_run G caught (p (cur g)) m g (ORet r) m' g' -> ngen g = ngen g' ->
    eval G (pmach G) caught (PMonitor (fun mon => PBind (p mon) (fun r => PAssigned mon (k r)))) (m, g) =
    eval G (pmach G) caught (PNewError [] (k r)) (m', g') /\
    cur g' = cur g.
Proof.
  intros p k m g r m' g' Hg W HI H Hn. destruct (C03_current_error_is_last_started _ _ _ _ _ _ _ _ W HI H) as [Hle Hc].
  rewrite <- Hn, Nat.eqb_refl in Hc. split; [|done]. cbn [eval snd]. rewrite H. cbn [rbind eval snd]. rewrite Hc, Z.eqb_refl. cbn [negb].
  unfold gnew. simpl. unfold id_load. by destruct (_ =? 0).
Qed.

(** From then on both give that id, until another error is started. *)
Theorem C05_monitor_keeps_error :
  forall p q k m g r m' g' r2 m2 g2,
    good_sup G -> within G Fbase (p (cur g)) -> no_coll Fbase m ->
    lib_run G caught (p (cur g)) m g (ORet r) m' g' -> ngen g = ngen g' ->
    let id := g_sup G (ngen g') in
    cur g <> id -> within G Fbase (q id) ->
    lib_run G caught (q id) m' (snd (gnew G g')) (ORet r2) m2 g2 -> ngen g2 = S (ngen g') ->
    eval G (pmach G) caught (PMonitor (fun mon => PBind (p mon) (fun r => PAssigned mon (fun id => PBind (q id) (fun r2 => PCheck mon (k r2)))))) (m, g) =
      eval G (pmach G) caught (k r2 id) (m2, g2) /\
    eval G (pmach G) caught (PMonitor (fun mon => PBind (p mon) (fun r => PAssigned mon (fun id => PBind (q id) (fun r2 => PAssigned mon (k r2)))))) (m, g) =
      eval G (pmach G) caught (k r2 id) (m2, g2).
Proof.
  intros p q k m g r m' g' r2 m2 g2 Hg W HI H Hn id Hne Wq Hq Hn2. destruct (C03_current_error_is_last_started _ _ _ _ _ _ _ _ W HI H) as [Hle Hc].
  rewrite <- Hn, Nat.eqb_refl in Hc. destruct (lib_no_coll _ _ _ _ _ _ _ _ _ W HI H) as [HI' _].
  destruct (C03_current_error_is_last_started _ _ _ _ _ _ _ _ Wq HI' Hq) as [_ Hc2]. cbn [gnew snd ngen cur] in Hc2. rewrite Hn2, Nat.eqb_refl in Hc2.
  assert (negb (cur g2 =? cur g) = true) as Hb.
  { apply negb_true_iff, Z.eqb_neq. rewrite Hc2. by apply not_eq_sym. }
  split; cbn [eval snd]; rewrite H; cbn [rbind eval snd]; rewrite Hc, Z.eqb_refl; cbn [negb gnew fst snd eval];
    rewrite mk_good by done; (eapply rb_ok; [exact Hq|]); cbn [eval snd]; rewrite Hb, Hc2; by rewrite mk_good.
Qed.
End c05.
Print Assumptions C05_monitor_finds_error.
Print Assumptions C05_monitor_starts_error.
Print Assumptions C05_monitor_keeps_error.

Example ex05_sup : Forall (fun n => Z.land (g_sup GX n) 3 = 1) (seq 0 100).
Proof. apply (bool_decide_unpack _). vm_compute. exact I. Qed.
Example ex05 : match eval GX (pmach GX) None (PMonitor (fun mon => PBind ex03 (fun _ => PCheck mon (fun a => PAssigned mon (fun b => PRet (RVal (a * 1000 + b))))))) (mem0, glob0) with
  | Ok (o, (_, g)) => Some (o, ngen g) | _ => None end = Some (ORet (RVal (g_sup GX 1 * 1000 + g_sup GX 1)), 2%nat).
Proof. vm_compute. reflexivity. Qed.
Example ex05_none : match eval GX (pmach GX) None (PMonitor (fun mon => PBind (PRet (RVal 0)) (fun _ => PAssigned mon (fun a => PBind (PLoad a [IVal TA (VZ 1)] (PRet (RVal 0))) (fun _ =>
     PCheck mon (fun b => PAssigned mon (fun c => PRet (RVal (a * 1000000 + b * 1000 + c))))))))) (mem0, glob0) with
  | Ok (o, (_, g)) => Some (o, ngen g) | _ => None end = Some (ORet (RVal (g_sup GX 0 * 1001001)), 1%nat).
Proof. vm_compute. reflexivity. Qed.

(** ** C04 *)
(** The promise: an id which converts to false, i.e. 0. What happens: for every program, every state, the value obtained is 1, which converts to true. *)
Theorem C04_check_without_error_refuted :
  exists G m g, (exists s, R m s) /\ cur g = 0 /\
    forall z, match eval G (pmach G) None (PMonitor (fun mon => PCheck mon (fun id => PRet (RVal id)))) (m, g) with
              | Ok (o, _) => o = ORet (RVal z) -> z <> 0
              | _ => False
              end.
Proof. exists GX, mem0, glob0. split; [exists smem0; exact R0|]. split; [done|]. intros z. vm_compute. intros [= <-]. done. Qed.
Theorem C04_check_without_error_is_one :
  forall G caught p k m g r m' g',
    within G Fbase (p (cur g)) -> no_coll Fbase m -> lib_run G caught (p (cur g)) m g (ORet r) m' g' -> ngen g = ngen g' ->
    eval G (pmach G) caught (PMonitor (fun mon => PBind (p mon) (fun r => PCheck mon (k r)))) (m, g) = eval G (pmach G) caught (k r 1) (m', g').
Proof.
  intros G caught p k m g r m' g' W HI H Hn. destruct (C03_current_error_is_last_started _ _ _ _ _ _ _ _ W HI H) as [Hle Hc].
  rewrite <- Hn, Nat.eqb_refl in Hc. cbn [eval snd]. rewrite H. cbn [rbind eval snd]. by rewrite Hc, Z.eqb_refl.
Qed.
Theorem C04_current_error_without_error_is_one :
  forall G caught k m g, cur g = 0 -> eval G (pmach G) caught (PCurErr k) (m, g) = eval G (pmach G) caught (k 1) (m, g).
Proof. intros G caught k m g E. cbn [eval snd]. by rewrite E. Qed.
Print Assumptions C04_check_without_error_refuted.
Print Assumptions C04_check_without_error_is_one.
Print Assumptions C04_current_error_without_error_is_one.

(** ** C16 *)

(** Several items, in order, each as described by [loaded]. *)
Inductive loaded_all (G : cfg) (onerr : bool) (id : Z) : list item -> mem -> glob -> mem -> glob -> Prop :=
| la_nil m g : loaded_all G onerr id [] m g m g
| la_cons it its m g m1 g1 m' g' : loaded G onerr id it m g m1 g1 -> (exists s, R m s) -> (exists s, R m1 s) ->
    loaded_all G onerr id its m1 g1 m' g' -> loaded_all G onerr id (it :: its) m g m' g'.

Lemma load_all G onerr id its : id <> 0 -> forall m s g, R m s -> usable m -> Forall (fun it => fine G m (id, it)) its ->
  exists m' s' g', load_items (pmach G) onerr id its (m, g) = Ok (m', g') /\ R m' s' /\ usable m' /\ loaded_all G onerr id its m g m' g'.
Proof.
  intros Hid. induction its as [|it its IH]; intros m s g HR Hu HF.
  - exists m, s, g. split; [done|]. split; [done|]. split; [done|constructor].
  - apply Forall_cons in HF as [Hx HF].
    destruct (load_one G onerr id it m s g HR Hid Hu (fine_acc _ _ _ Hx)) as (m1 & g1 & s1 & E & HR1 & Hu1 & L).
    destruct (IH m1 s1 g1 HR1 Hu1) as (m' & s' & g' & E' & HR' & Hu' & L').
    { eapply Forall_impl; [exact HF|]. intros x Hf. exact (loaded_fine G _ _ _ _ _ _ _ _ _ _ HR HR1 L Hf). }
    exists m', s', g'. split; [|split; [done|split; [done|by econstructor; eauto]]].
    cbn [load_items fst snd]. change (m_load (pmach G) onerr id it m g) with (mload G onerr id it m g). eapply rb_ok; [exact E|done].
Qed.

Theorem C16_on_error :
  forall G caught its p m g o m1 g1,
    runs G caught p m g o m1 g1 -> within G Fbase p -> no_coll Fbase m -> good_sup G -> cur g ∉ between G g g1 ->
    usable m1 -> Forall (fun it => fine G m1 (1, it)) its ->
    (* errors were started: the items are loaded for the last one *)
    (ngen g <> ngen g1 -> exists m' g',
       lib_run G caught (POnError its p) m g o m' g' /\ loaded_all G true (g_sup G (ngen g1 - 1)) its m1 g1 m' g') /\
    (* none; an exception: a new error is started and they are loaded for it *)
    (ngen g = ngen g1 -> forall x, o = OThrow x -> exists m' g',
       lib_run G caught (POnError its p) m g o m' g' /\ loaded_all G true (g_sup G (ngen g1)) its m1 (snd (gnew G g1)) m' g') /\
    (* none; no exception: nothing happens *)
    (ngen g = ngen g1 -> forall r, o = ORet r -> lib_run G caught (POnError its p) m g o m1 g1).
Proof.
  intros G caught its p m g o m1 g1 [H (s & s1 & HR & HR1 & Hsp)] W HI Hg Hf Hu Hfine.
  destruct (C03_current_error_is_last_started _ _ _ _ _ _ _ _ W HI H) as [Hle Hc].
  assert (forall id, id <> 0 -> Forall (fun it => fine G m1 (id, it)) its) as Hfi.
  { intros id Hid. eapply Forall_impl; [exact Hfine|]. intros it [_ ?]. split; auto. }
  split; [|split].
  - intros Hn. rewrite (proj2 (Nat.eqb_neq _ _)) in Hc by done. set (id := g_sup G (ngen g1 - 1)) in *.
    assert (id ∈ between G g g1) as Hin by (apply elem_of_list_In, in_map, in_seq; lia).
    assert (id <> 0) as Hid by (apply good_nz, Hg).
    destruct (load_all G true id its Hid m1 s1 g1 HR1 Hu (Hfi _ Hid)) as (m' & s' & g' & E & HR' & _ & L).
    exists m', g'. split; [|done]. cbn [eval]. eapply rb_ok; [exact H|]. cbn [snd fst].
    rewrite (proj2 (Z.eqb_neq (cur g1) (cur g))) by (intros E'; apply Hf; by rewrite <- E', Hc). cbn [negb]. rewrite Hc.
    rewrite (proj2 (Z.eqb_neq id 0)) by done. eapply rb_ok; [exact E|done].
  - intros Hn x ->. rewrite <- Hn, Nat.eqb_refl in Hc. set (id := g_sup G (ngen g1)) in *. assert (id <> 0) as Hid by (apply good_nz, Hg).
    destruct (load_all G true id its Hid m1 s1 (snd (gnew G g1)) HR1 Hu (Hfi _ Hid)) as (m' & s' & g' & E & HR' & _ & L).
    exists m', g'. split; [|done]. cbn [eval]. eapply rb_ok; [exact H|]. cbn [snd fst]. rewrite Hc, Z.eqb_refl. cbn [negb gnew].
    change (g_sup G (ngen g1)) with id. rewrite (proj2 (Z.eqb_neq id 0)) by done. unfold gnew in E. cbn [snd] in E. change (g_sup G (ngen g1)) with id in E. eapply rb_ok; [exact E|done].
  - intros Hn r ->. rewrite <- Hn, Nat.eqb_refl in Hc. cbn [eval]. eapply rb_ok; [exact H|]. cbn [snd fst]. by rewrite Hc, Z.eqb_refl.
Qed.
Print Assumptions C16_on_error.

(** For any program (plain catch, captured results...): what counts is the current error before and after; if an exception was caught
    by hand and let go in the meantime (current error 0), nothing is loaded. *)
Theorem C16_on_error_any_program :
  forall G caught its p m g o m1 g1,
    runs G caught p m g o m1 g1 -> good_sup G -> usable m1 -> Forall (fun it => fine G m1 (1, it)) its ->
    (cur g1 <> cur g -> cur g1 <> 0 -> exists m' g',
       lib_run G caught (POnError its p) m g o m' g' /\ loaded_all G true (cur g1) its m1 g1 m' g') /\
    (cur g1 = cur g -> forall x, o = OThrow x -> exists m' g',
       lib_run G caught (POnError its p) m g o m' g' /\ loaded_all G true (g_sup G (ngen g1)) its m1 (snd (gnew G g1)) m' g') /\
    (cur g1 = cur g /\ (exists r, o = ORet r) \/ cur g1 <> cur g /\ cur g1 = 0 -> lib_run G caught (POnError its p) m g o m1 g1).
Proof.
  intros G caught its p m g o m1 g1 [H (s & s1 & HR & HR1 & Hsp)] Hg Hu Hfine.
  assert (forall id, id <> 0 -> Forall (fun it => fine G m1 (id, it)) its) as Hfi.
  { intros id Hid. eapply Forall_impl; [exact Hfine|]. intros it [_ ?]. split; auto. }
  split; [|split].
  - intros Hn Hid. destruct (load_all G true (cur g1) its Hid m1 s1 g1 HR1 Hu (Hfi _ Hid)) as (m' & s' & g' & E & HR' & _ & L).
    exists m', g'. split; [|done]. cbn [eval]. eapply rb_ok; [exact H|]. cbn [snd fst].
    rewrite (proj2 (Z.eqb_neq (cur g1) (cur g))) by done. cbn [negb]. rewrite (proj2 (Z.eqb_neq (cur g1) 0)) by done. eapply rb_ok; [exact E|done].
  - intros Hc x ->. set (id := g_sup G (ngen g1)) in *. assert (id <> 0) as Hid by (apply good_nz, Hg).
    destruct (load_all G true id its Hid m1 s1 (snd (gnew G g1)) HR1 Hu (Hfi _ Hid)) as (m' & s' & g' & E & HR' & _ & L).
    exists m', g'. split; [|done]. cbn [eval]. eapply rb_ok; [exact H|]. cbn [snd fst]. rewrite Hc, Z.eqb_refl. cbn [negb gnew].
    change (g_sup G (ngen g1)) with id. rewrite (proj2 (Z.eqb_neq id 0)) by done. unfold gnew in E. cbn [snd] in E. change (g_sup G (ngen g1)) with id in E. eapply rb_ok; [exact E|done].
  - intros [[Hc [r ->]]|[Hc H0]]; cbn [eval]; (eapply rb_ok; [exact H|]); cbn [snd fst].
    + by rewrite Hc, Z.eqb_refl.
    + rewrite (proj2 (Z.eqb_neq (cur g1) (cur g))) by done. cbn [negb]. by rewrite H0.
Qed.
Print Assumptions C16_on_error_any_program.

(** Objects already available for that error are not overwritten, by any values or deferred functions of an on_error; if there is none, the first item wins. *)
Definition accumulates (T : ety) (it : item) : Prop := match it with IAcc T' _ _ => T' = T | _ => False end.
Theorem C16_not_overwritten :
  forall G id its m g m' g' T c,
    loaded_all G true id its m g m' g' -> serves m T c -> (forall it, it ∈ its -> ~ accumulates T it) ->
    sees id (held m c T) <> None -> held m' c T = held m c T.
Proof.
  intros G id its m g m' g' T c HL. induction HL as [|it its m g m1 g1 m' g' L [s HR] _ HL IH]; intros Hs Ha Hsee; [done|].
  assert (held m1 c T = held m c T) as E.
  { apply (ld_old _ _ _ _ _ _ _ _ L). intros Hi [[_ Hsk]|[Hx _]]; [|by eapply serves_not_unserved].
    apply Hsk. assert (sees id (visible m T) <> None) as Hv by (by rewrite (serves_visible _ _ _ Hs)).
    destruct it; simpl in Hi; simplify_eq; simpl; auto. eapply (Ha (IAcc T tag f)); [set_solver|done]. }
  rewrite <- E. apply IH; [| |by rewrite E].
  - apply (ld_serves _ _ _ _ _ _ _ _ L). by left.
  - intros it' Hit. apply Ha. set_solver.
Qed.
Theorem C16_first_item_wins :
  forall G id l1 it l2 m g m' g' T c v,
    loaded_all G true id (l1 ++ it :: l2) m g m' g' -> serves m T c -> (forall it', it' ∈ it :: l2 -> ~ accumulates T it') ->
    sees id (held m c T) = None -> Forall (fun it => ity it <> Some T) l1 -> ity it = Some T ->
    (forall t, value G it None t = Some v) -> held m' c T = Some (id, v).
Proof.
  intros G id l1 it l2. induction l1 as [|it1 l1 IH]; intros m g m' g' T c v HL Hs Ha Hsee HF Hit Hv; simpl in HL;
    inversion HL as [|? ? ? ? m1 g1 ? ? L [s HR] HR1 HL1]; subst.
  - assert (held m1 c T = Some (id, v)) as E.
    { apply (ld_new _ _ _ _ _ _ _ _ L); auto. 
      - rewrite (serves_visible _ _ _ Hs), Hsee. apply Hv.
      - left. split; [done|]. destruct it; simpl; auto; simpl in Hit; simplify_eq; rewrite (serves_visible _ _ _ Hs), Hsee; tauto. }
    rewrite <- E. eapply C16_not_overwritten; [exact HL1| | |rewrite E; simpl; by rewrite Z.eqb_refl].
    + apply (ld_serves _ _ _ _ _ _ _ _ L). by left.
    + intros it' Hin. apply Ha. set_solver.
  - apply Forall_cons in HF as [Hn HF]. assert (held m1 c T = held m c T) as E by (by apply (ld_old _ _ _ _ _ _ _ _ L); intros ?).
    eapply IH; eauto.
    + apply (ld_serves _ _ _ _ _ _ _ _ L). by left.
    + by rewrite E.
Qed.
Print Assumptions C16_not_overwritten.
Print Assumptions C16_first_item_wins.

(** Three scopes with an on_error: an error with an object of type TA; an exception of another library; nothing. *)
Definition ex16_items : list item := [IVal TA (VZ 100); IVal TB (VZ 101); IDef TB 9 (fun _ => VZ 102)].
Definition ex16_obs (p : prog) : option (option (Z * val) * option (Z * val) * nat * list ev) :=
  match eval GX (pmach GX) None (POnError ex16_items p) (ex06_ctx, glob0) with
  | Ok (_, (m, g)) => Some (held m 1%nat TA, held m 0%nat TB, ngen g, tr g) | _ => None end.
Example ex16_error : ex16_obs (PNewError [] (fun _ => PNewError [IVal TA (VZ 1)] (fun id => PRet (RErr id)))) =
  Some (Some (g_sup GX 1, VZ 1), Some (g_sup GX 1, VZ 101), 2%nat, []).
Proof. vm_compute. reflexivity. Qed.
Example ex16_exception : ex16_obs (PThrowX (XSpec true [T_STDEX] 0 None None)) = Some (Some (g_sup GX 0, VZ 100), Some (g_sup GX 0, VZ 101), 1%nat, []).
Proof. vm_compute. reflexivity. Qed.
Example ex16_nothing : ex16_obs (PEmit 4 (PRet (RVal 0))) = Some (None, None, 0%nat, [EvUser 4]).
Proof. vm_compute. reflexivity. Qed.
Example ex16_hyps : Forall (fun it => fine GX ex06_ctx (1, it)) ex16_items /\ no_coll Fbase ex06_ctx.
Proof.
  split; [repeat constructor; done|]. apply map_Forall_to_list. vm_compute map_to_list.
  apply Forall_cons; split; [|apply Forall_cons; split; [|apply Forall_nil; exact I]]; right; intros H; apply elem_of_list_In in H; simpl in H; intuition discriminate.
Qed.
