(** C53: handlers that take information attached to an exception by Boost.Exception. *)
From Verif Require Export PropsWhole.
Open Scope Z_scope.

(** ** Specification *)
(** The failure is an exception to which z is attached (as seen by info); it derives from std::exception and boost::exception; z is wanted. *)
Definition attached (info : exn -> option Z) (f : Z -> bool) (o : out) (x : exn) (z : Z) : Prop :=
  o = OThrow x /\ x_std x = true /\ T_BOOSTEX ∈ x_cls x /\ info x = Some z /\ f z = true.

(** The same handlers, except that they do not take such arguments. *)
Definition other_args (l : list harg) : list harg := List.filter (fun a => match a with ABoost _ _ => false | _ => true end) l.
Fixpoint without_boost (hs : handlers) : handlers :=
  match hs with
  | HNil => HNil
  | HMut args w b rest => HMut (other_args args) w b (without_boost rest)
  | HTup hs' rest => HTup (without_boost hs') (without_boost rest)
  end.

(** ** Proofs *)
Lemma failed_exn G k caught p hs m g c ob mb gb o2 ei caught' m3 g3 :
  failed G k caught p hs m g c ob mb gb o2 ei caught' m3 g3 ->
  match o2 with OThrow x => ei_ex ei = seen_exn x /\ caught' = Some x | ORet _ => ei_ex ei = None /\ caught' = caught end.
Proof.
  intros (m1 & m2 & g2 & _ & _ & _ & _ & H). unfold detect in H. destruct o2 as [r|x].
  - ok_inv H. ok_inv H. ok_inv H. by injection H as <- <- _.
  - ok_inv H. destruct a as [e s]. injection H as <- <- _. split; [|done]. unfold exn_info in E. ok_inv E.
    match type of E with context [catch_info ?x ?y] => pose proof (catch_spec x y) as Hc; destruct (catch_info x y) as [[id ex] g0] end.
    ok_inv E. injection E as <- _. simpl in *. unfold seen_exn. by injection Hc as _ ->.
Qed.

(** ** C53 *)
(** What any handler, wherever it is in the list, is given for such an argument. *)
Theorem C53_argument_supplied : forall G k caught p hs m g c ob mb gb o2 ei caught' m3 g3 info f,
  failed G k caught p hs m g c ob mb gb o2 ei caught' m3 g3 ->
  forall v, supply G m3 c ei (ABoost info f) = Some v <-> exists x z, attached info f o2 x z /\ v = VE (VZ z).
Proof.
  intros G k caught p hs m g c ob mb gb o2 ei caught' m3 g3 info f H v. apply failed_exn in H. unfold attached. simpl. destruct o2 as [r|x].
  - destruct H as [-> _]. simpl. naive_solver.
  - destruct H as [-> _]. unfold seen_exn. destruct (x_std x) eqn:Hs; simpl; [|naive_solver congruence].
    case_decide; [|naive_solver]. destruct (info x) as [z|] eqn:Hi; simpl; [|naive_solver congruence].
    destruct (f z) eqn:Hf; naive_solver congruence.
Qed.
Print Assumptions C53_argument_supplied.

(** The first handler takes such an argument: it is called exactly if the exception has it. *)
Theorem C53_called_if_attached :
  forall G k caught p info f b rest m g o m' g' c ob mb gb o2 ei caught' m3 g3,
    runs G caught (PScope k p (HCons [ABoost info f] b rest)) m g o m' g' ->
    failed G k caught p (HCons [ABoost info f] b rest) m g c ob mb gb o2 ei caught' m3 g3 -> ei_id ei <> 0 ->
    (forall x z, attached info f o2 x z ->
       exists o4 m4 g4, runs G (Some x) (b [VE (VZ z)]) m3 g3 o4 m4 g4 /\ finish G (pmach G) k c (o4, (m4, g4)) = Ok (o, (m', g'))) /\
    ((forall x z, ~ attached info f o2 x z) ->
       exists o4 m4 g4, finish G (pmach G) k c (o4, (m4, g4)) = Ok (o, (m', g')) /\
         ((exists args w b' vs m5, chosen G m3 c ei rest args w b' vs /\ assigned m3 c (ei_id ei) args (w vs) m5 /\ runs G caught' (b' vs) m5 g3 o4 m4 g4) \/
          (nobody G m3 c ei rest /\ unhandled (pmach G) k c (ei_id ei) o2 (m3, g3) = Ok (o4, (m4, g4))))).
Proof.
  intros G k caught p info f b rest m g o m' g' c ob mb gb o2 ei caught' m3 g3 Hr Hf Hid.
  pose proof (C53_argument_supplied _ _ _ _ _ _ _ _ _ _ _ _ _ _ _ _ info f Hf) as Hs. pose proof (failed_exn _ _ _ _ _ _ _ _ _ _ _ _ _ _ _ _ Hf) as Hx.
  destruct (C11_scope_calls_first_matching_handler _ _ _ _ _ _ _ _ _ _ _ _ _ _ _ _ _ _ _ Hr Hf Hid) as (o4 & m4 & g4 & Hfin & H).
  split.
  - intros x z Ha. exists o4, m4, g4. split; [|done]. assert (supply G m3 c ei (ABoost info f) = Some (VE (VZ z))) as E by (apply Hs; eauto).
    destruct Ha as (-> & _). destruct Hx as [_ ->].
    destruct H as [(args & w & b' & vs & m5 & (pre & post & Hc & Hp & Hv) & Ha & H)|[Hn _]].
    + destruct pre as [|h pre].
      * cbn [flat app] in Hc. injection Hc as <- <- <- _. cbn [mapM] in Hv. rewrite E in Hv. simpl in Hv. injection Hv as <-.
        by rewrite (as_none _ _ _ _ _ _ Ha eq_refl) in H.
      * exfalso. cbn [flat app] in Hc. injection Hc as <- _. apply Forall_cons in Hp as [Hp1 _]. cbn [fst mapM] in Hp1. by rewrite E in Hp1.
    + exfalso. unfold nobody in Hn. cbn [flat] in Hn. apply Forall_cons in Hn as [Hp1 _]. cbn [fst mapM] in Hp1. by rewrite E in Hp1.
  - intros Hno. exists o4, m4, g4. split; [done|]. assert (supply G m3 c ei (ABoost info f) = None) as E.
    { destruct (supply _ _ _ _ _) as [v|] eqn:E; [|done]. destruct (proj1 (Hs v) eq_refl) as (x & z & Ha & _). by edestruct Hno. }
    destruct H as [(args & w & b' & vs & m5 & (pre & post & Hc & Hp & Hv) & Ha & H)|[Hn Hu]].
    + left. exists args, w, b', vs, m5. split; [|done]. destruct pre as [|h pre].
      * exfalso. cbn [flat app] in Hc. injection Hc as <- _ _ _. cbn [mapM] in Hv. by rewrite E in Hv.
      * cbn [flat app] in Hc. injection Hc as <- Hc. apply Forall_cons in Hp as [_ Hp]. by exists pre, post.
    + right. split; [|done]. unfold nobody in Hn. cbn [flat] in Hn. by apply Forall_cons in Hn as [_ Hn].
Qed.
Print Assumptions C53_called_if_attached.

(** Such arguments need no storage. *)
Theorem C53_no_storage : forall G hs, deduce G (without_boost hs) = deduce G hs.
Proof.
  intros G hs. unfold deduce. f_equal.
  assert (forall l, concat (map (context_types G) (other_args l)) = concat (map (context_types G) l)) as Ha.
  { unfold other_args. induction l as [|a l IH]; [done|]. cbn [List.filter]. destruct a; cbn; by rewrite IH. }
  rewrite !mp_append_eq.
  induction hs as [|args w b rest IH|hs1 IH1 hs2 IH2]; [done| |]; cbn [without_boost handlers_args]; rewrite !map_app, !concat_app.
  - by rewrite Ha, IH.
  - by rewrite IH1, IH2.
Qed.
Print Assumptions C53_no_storage.

(** ** Examples *)
(** An exception which derives from std::exception (if std) and boost::exception; what is attached to it is its payload. *)
Definition ex53_p (std : bool) : prog := PNewError [IVal TB (VZ 80)] (fun _ => PThrowX (XSpec std ((if std then [T_STDEX] else []) ++ [T_BOOSTEX]) 42 None None)).
Definition ex53_hs (f : Z -> bool) : handlers :=
  HCons [ABoost (fun x => Some (x_val x)) f] (fun l => match l with [VE (VZ z)] => PRet (RVal z) | _ => PRet (RVal 0) end) (HCons [AE TB] (fun _ => PRet (RVal 2)) HNil).
Definition ex53_x : exn := Exn 0 true [T_STDEX; T_BOOSTEX] 42 None None None.
Example ex53_called : exists o m' g' c ob mb gb o2 ei caught' m3 g3,
  runs GX None (PTC (ex53_p true) (ex53_hs (Z.eqb 42))) out_m glob0 o m' g' /\
  failed GX KCatch None (ex53_p true) (ex53_hs (Z.eqb 42)) out_m glob0 c ob mb gb o2 ei caught' m3 g3 /\
  (o = ORet (RVal 42) /\ ei_id ei = 5 /\ o2 = OThrow ex53_x).
Proof.
  eapply (scope_ex GX KCatch _ _ _ _ _ (fun o m' c o2 ei m3 => o = ORet (RVal 42) /\ ei_id ei = 5 /\ o2 = OThrow ex53_x)); [exact out_R|]. vm_compute. done.
Qed.
Example ex53_attached : attached (fun x => Some (x_val x)) (Z.eqb 42) (OThrow ex53_x) ex53_x 42.
Proof. repeat split. right. left. Qed.

(** The value is not the one asked for, or the exception does not derive from std::exception: the second handler is called. *)
Example ex53_not_wanted : exists o m' g' c ob mb gb o2 ei caught' m3 g3,
  runs GX None (PTC (ex53_p true) (ex53_hs (Z.eqb 41))) out_m glob0 o m' g' /\
  failed GX KCatch None (ex53_p true) (ex53_hs (Z.eqb 41)) out_m glob0 c ob mb gb o2 ei caught' m3 g3 /\
  (o = ORet (RVal 2) /\ ei_id ei = 5).
Proof.
  eapply (scope_ex GX KCatch _ _ _ _ _ (fun o m' c o2 ei m3 => o = ORet (RVal 2) /\ ei_id ei = 5)); [exact out_R|]. vm_compute. done.
Qed.
Example ex53_not_std : exists o m' g' c ob mb gb o2 ei caught' m3 g3,
  runs GX None (PTC (ex53_p false) (ex53_hs (fun _ => true))) out_m glob0 o m' g' /\
  failed GX KCatch None (ex53_p false) (ex53_hs (fun _ => true)) out_m glob0 c ob mb gb o2 ei caught' m3 g3 /\
  (o = ORet (RVal 2) /\ ei_id ei = 5).
Proof.
  eapply (scope_ex GX KCatch _ _ _ _ _ (fun o m' c o2 ei m3 => o = ORet (RVal 2) /\ ei_id ei = 5)); [exact out_R|]. vm_compute. done.
Qed.
