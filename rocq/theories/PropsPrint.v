(** C37: what diagnostics, contexts and results print. *)
From Verif Require Export Print PropsIds PropsCtxSeq PropsOwn.
From Coq Require Import Numbers.DecimalString Numbers.DecimalPos Numbers.DecimalZ.
Open Scope Z_scope.

(** ** Specification *)
(** An enumeration is not a class. *)
Definition possible (t : traits) : Prop := t_enum t = true -> t_exc t = false /\ t_value t = false.

Section spec.
Context (G : cfg) (P : pcfg).

Definition or_null (o : option string) : string := match o with Some s => s | None => "<nullptr>"%string end.

(** An object: its type, and what is known how to print. *)
Definition described (T : ety) (v : val) : string :=
  p_name P T ^+
  (if t_exc (p_traits P T) then ": "%string ^+ quo ^+ or_null (p_str P HWhat T v) ^+ quo
   else if t_streams (p_traits P T) then ": "%string ^+ or_null (p_str P HObj T v)
   else if t_value (p_traits P T) then ": "%string ^+ or_null (p_str P HVal T v)
   else if t_enum (p_traits P T) then ": "%string ^+ or_null (p_str P HEnum T v)
   else ""%string).

(** Objects, each after a delimiter. *)
Fixpoint lines (l : list string) : string := match l with [] => ""%string | x :: l => p_delim P ^+ x ^+ lines l end.
(** A title, which replaces the delimiter of the first object; nothing at all if there is none. *)
Definition titled (title : string) (l : list string) : string := match l with [] => ""%string | x :: l => title ^+ x ^+ lines l end.

Definition texts (l : list (ety * val)) : list string := (fun x => described (fst x) (snd x)) <$> l.

(** The objects a context holds, of any error; after each the serial number of its error. *)
Definition contents (m : mem) (c : cid) : list string :=
  omap (fun T => match held m c T with Some (k, v) => if g_show G T then Some (described T v ^+ "("%string ^+ dec (Z.quot k 4) ^+ ")"%string) else None | None => None end) (members m c).

(** The error: serial number, location, exception. *)
Definition heading (ei : einfo) : string :=
  "Error with serial #" ^+ dec (Z.quot (ei_id ei) 4) ^+
  match ei_loc ei with Some v => " reported at " ^+ loc_text P v | None => "" end ^+
  match ei_ex ei with Some x => nl ^+ "Caught:" ^+ p_first P ^+ p_xname P x ^+ ": " ^+ quo ^+ p_what P x ^+ quo | None => "" end.
End spec.

(** ** Proofs *)
Lemma app_nil (s : string) : s ^+ ""%string = s.
Proof. induction s as [|a s IH]; [done|]. exact (f_equal (String a) IH). Qed.
Lemma app_assoc' (a b c : string) : (a ^+ b) ^+ c = a ^+ b ^+ c.
Proof. induction a as [|x a IH]; [done|]. exact (f_equal (String x) IH). Qed.
Lemma app_nil_l' (s : string) : ""%string ^+ s = s.
Proof. done. Qed.

(** No error type has two, none is without a way to be printed. *)
Theorem C37_every_type_has_one_specialization :
  forall t show, possible t -> exists s, specialization show (t_streams t && show) (t_value t && show) (t_exc t) (t_enum t) = Some s /\ (s = SHidden <-> show = false).
Proof.
  intros [s v e n] show H. unfold possible in H. simpl in *.
  destruct show, s, v, e, n; simpl; try (destruct (H eq_refl); discriminate); eexists; (split; [reflexivity|]); split; intros X; discriminate X || reflexivity.
Qed.
Print Assumptions C37_every_type_has_one_specialization.

Section proofs.
Context (G : cfg) (P : pcfg) (Hok : forall T, possible (p_traits P T)).

Definition emitted (prefix : option string) (l : list string) : string := match prefix with Some t => titled P t l | None => lines P l end.
Definition after (prefix : option string) (l : list string) : option string := match l with [] => prefix | _ => None end.

Lemma lines_app l1 l2 : lines P (l1 ++ l2) = lines P l1 ^+ lines P l2.
Proof. induction l1 as [|x l1 IH]; simpl; [done|]. by rewrite IH, !app_assoc'. Qed.
Lemma emitted_app p l1 l2 : emitted p (l1 ++ l2) = emitted p l1 ^+ emitted (after p l1) l2.
Proof. destruct l1 as [|x l1]; [by destruct p|]. destruct p as [t|]; simpl; rewrite lines_app, ?app_nil_l', ?app_assoc'; done. Qed.
Lemma after_app p l1 l2 : after p (l1 ++ l2) = after (after p l1) l2.
Proof. destruct l1; [done|]. by destruct l2. Qed.

Lemma diag_print_spec T p v : diag_print G P T p v =
  Ok (g_show G T, if g_show G T then emitted p [described P T v] else ""%string, if g_show G T then None else p).
Proof.
  unfold diag_print, diag_of. pose proof (Hok T) as H. unfold possible in H. destruct (p_traits P T) as [s x e n] eqn:Et. simpl in *. unfold emitted, described. rewrite Et. simpl.
  unfold print_impl, print_name, or_null.
  destruct (g_show G T), s, x, e, n; simpl; try (destruct (H eq_refl); discriminate); try done; destruct p; simpl; rewrite ?app_assoc', ?app_nil, ?app_nil_l'; done.
Qed.

Definition txt (id : Z) (T : ety) (k : Z) (v : val) : list string :=
  if negb (k =? 0) && ((id =? 0) || (k =? id)) && g_show G T then [described P T v ^+ (if id =? 0 then "("%string ^+ dec (printed k) ^+ ")"%string else ""%string)] else [].

Lemma slot_print_spec id T k v p : slot_print G P id T k v p = Ok (emitted p (txt id T k v), after p (txt id T k v)).
Proof.
  unfold slot_print, txt. destruct (k =? 0); simpl; [by destruct p|]. rewrite (Z.eqb_sym k id).
  assert (forall q, emitted q [] = ""%string) as He by (by intros []).
  destruct (id =? 0) eqn:E0; simpl; [|destruct (id =? k); simpl; [|by rewrite He]]; rewrite diag_print_spec; simpl; destruct (g_show G T); simpl; rewrite ?He; try done.
  - destruct p; simpl; by rewrite ?app_nil, ?app_nil_l', !app_assoc'.
  - destruct p; simpl; by rewrite ?app_nil, ?app_nil_l'.
Qed.

Definition cell_txt (m : mem) (id : Z) (c : cid) (T : ety) : list string :=
  match held m c T with Some (k, v) => txt id T k v | None => [] end.

Lemma tuple_print_spec m s c k id p : R m s -> ctxs m !! c = Some k ->
  let l := members m c ≫= cell_txt m id c in tuple_print G P c id (k_tup k) m p = Ok (emitted p l, after p l).
Proof.
  intros HR Hk. unfold members. rewrite Hk. simpl. assert (forall t, t ∈ k_tup k -> t ∈ k_tup k) as Hsub by done.
  revert Hsub p. generalize (k_tup k) at 1 3 4 5. intros l. induction l as [|[T|] l IH]; intros Hsub p; [by destruct p| |].
  - destruct (held_cell _ _ _ _ T HR Hk) as (sl & H1 & H2); [apply Hsub; constructor|]. cbn [tuple_print omap list_omap]. rewrite H1. cbn [deref rbind].
    rewrite slot_print_spec. cbn [rbind fst snd]. rewrite IH by (intros; apply Hsub; by constructor). cbn [rbind fst snd].
    assert (cell_txt m id c T = txt id T (e_key sl) (e_val sl)) as Et. { unfold cell_txt. rewrite H2. unfold txt. destruct (e_key sl =? 0) eqn:E; [done|]. by rewrite E. }
    csimpl. by rewrite emitted_app, after_app, Et.
  - cbn [tuple_print omap list_omap]. assert (SDA ∈ k_tup k) as Hd by (apply Hsub; constructor).
    pose proof (R_ctx _ _ HR c) as H. rewrite Hk in H. destruct (actxs s !! c) as [a|]; [|done]. destruct H. rewrite cr_tup in Hd.
    destruct (cr_coll Hd) as (d & -> & _). cbn [deref rbind]. apply IH. intros. apply Hsub. by constructor.
Qed.

Lemma held_nz m c T k v : held m c T = Some (k, v) -> k <> 0.
Proof. unfold held. intros H. repeat case_match; simplify_eq. lia. Qed.
Lemma bind_listing m c ei l : ei_id ei <> 0 -> l ≫= cell_txt m (ei_id ei) c = texts P (listing G m c ei l).
Proof.
  intros Hid. induction l as [|T l IH]; [done|]. csimpl. rewrite IH. unfold listing, cell_txt. csimpl. destruct (held m c T) as [[k v]|] eqn:Hh; simpl; [|done].
  unfold txt. rewrite (proj2 (Z.eqb_neq _ _) (held_nz _ _ _ _ _ Hh)), (proj2 (Z.eqb_neq (ei_id ei) 0) Hid). simpl. destruct (k =? ei_id ei); simpl; [|done].
  destruct (g_show G T); simpl; [|done]. by rewrite app_nil.
Qed.
Lemma bind_contents m c : members m c ≫= cell_txt m 0 c = contents G P m c.
Proof.
  unfold contents. induction (members m c) as [|T l IH]; [done|]. csimpl. rewrite IH. unfold cell_txt. destruct (held m c T) as [[k v]|] eqn:Hh; simpl; [|done].
  unfold txt. rewrite (proj2 (Z.eqb_neq _ _) (held_nz _ _ _ _ _ Hh)). simpl. by destruct (g_show G T).
Qed.

Lemma node_cell m s c k d : R m s -> ctxs m !! c = Some k -> dhp m !! c = Some d -> SDA ∈ k_tup k -> d_key d <> 0 ->
  forall T n, (T, n) ∈ d_nodes d -> exists sl, hp m !! inr n = Some sl /\ held m c T = if e_key sl =? 0 then None else Some (e_key sl, e_val sl).
Proof.
  intros HR Hk Hd1 Hd Hz. pose proof (R_ctx _ _ HR c) as H. rewrite Hk in H. destruct (actxs s !! c) as [a|] eqn:Ha; [|done]. destruct H.
  rewrite cr_tup in Hd. destruct (cr_coll Hd) as (d' & Hd1' & Hd2). simplify_eq.
  destruct (ac_coll a) as [q|] eqn:Eq; [|destruct Hd2; lia]. destruct Hd2 as (_ & _ & _ & Hnd & _ & HF).
  intros T n Hin. assert (has_node T (nodes a) = true) as Hh.
  { unfold has_node, nodes. rewrite Eq, <- (nodes_types _ _ _ HF). apply bool_decide_eq_true. apply elem_of_list_fmap. by exists (T, n). }
  assert (exists y, nodeR (hp m) (T, n) y) as (y & _ & sl & Hsl & _).
  { destruct (elem_of_list_lookup_1 _ _ Hin) as [i Hi]. destruct (Forall2_lookup_l _ _ _ _ _ HF Hi) as (y & _ & ?). eauto. }
  simpl in Hsl. exists sl. split; [done|]. unfold held, caddr. rewrite Hk, cr_tup, bool_decide_false by by apply cr_disj. rewrite Hd1.
  assert (node_at T (d_nodes d) = Some n) as ->; [|simpl; by rewrite Hsl].
  clear -Hnd Hin. induction (d_nodes d) as [|[T1 n1] l IH]; [by apply elem_of_nil in Hin|]. simpl. csimpl in Hnd. apply NoDup_cons in Hnd as [Hn Hnd].
  apply elem_of_cons in Hin as [?|Hin]; [simplify_eq; by rewrite decide_True|]. destruct (decide (T = T1)) as [->|]; [|by apply IH].
  exfalso. apply Hn. apply elem_of_list_fmap. by exists (T1, n).
Qed.

Lemma list_print_spec m c id l :
  (forall T n, (T, n) ∈ l -> exists sl, hp m !! inr n = Some sl /\ held m c T = if e_key sl =? 0 then None else Some (e_key sl, e_val sl)) ->
  forall p, let t := l.*1 ≫= cell_txt m id c in list_print G P id l m p = Ok (emitted p t, after p t).
Proof.
  induction l as [|[T n] l IH]; intros Hn p; [by destruct p|]. destruct (Hn T n) as (sl & H1 & H2); [constructor|]. cbn [list_print]. rewrite H1. cbn [deref rbind].
  rewrite slot_print_spec. cbn [rbind fst snd]. rewrite IH by (intros; apply Hn; by constructor). cbn [rbind fst snd].
  assert (cell_txt m id c T = txt id T (e_key sl) (e_val sl)) as Et. { unfold cell_txt. rewrite H2. unfold txt. destruct (e_key sl =? 0) eqn:E; [done|]. by rewrite E. }
  csimpl. by rewrite emitted_app, after_app, Et.
Qed.

Lemma details_print_spec m s c k ei : R m s -> ctxs m !! c = Some k -> ei_id ei <> 0 -> forall title,
  (if bool_decide (SDA ∈ k_tup k) then
     let! d := deref (dhp m !! c) in
     if d_key d =? 0 then Ok ""%string else let! r := list_print G P (ei_id ei) (d_nodes d) m (Some title) in Ok (fst r)
   else Ok ""%string) = Ok (titled P title (texts P (listing G m c ei (collected m c)))).
Proof.
  intros HR Hk Hid title. pose proof (R_ctx _ _ HR c) as H. rewrite Hk in H. destruct (actxs s !! c) as [a|] eqn:Ha; [|done]. destruct H.
  unfold collected. destruct (decide (SDA ∈ k_tup k)) as [Hd|Hd]; [rewrite bool_decide_true by done|rewrite bool_decide_false by done].
  - pose proof Hd as Hd'. rewrite cr_tup in Hd'. destruct (cr_coll Hd') as (d & Hd1 & Hd2). rewrite Hd1. cbn [deref rbind]. destruct (d_key d =? 0) eqn:Ez.
    + destruct (ac_coll a) as [q|]; [|by destruct Hd2 as [_ ->]]. destruct Hd2 as (? & ? & _). lia.
    + rewrite (list_print_spec m c); [|eapply node_cell; eauto; lia]. cbn [rbind fst]. by rewrite bind_listing.
  - rewrite cr_tup in Hd. destruct (cr_nocoll Hd) as [-> _]. done.
Qed.

Lemma info_print_spec m s c k ei : R m s -> ctxs m !! c = Some k -> ei_id ei <> 0 -> g_diag G = true ->
  print_diagnostic_info G P c ei m =
    Ok (heading P ei ^+ let l := texts P (listing G m c ei (members m c)) in
        match ei_ex ei with Some _ => lines P l | None => titled P (nl ^+ "Caught:" ^+ p_first P) l end).
Proof.
  intros HR Hk Hid Hg. unfold print_diagnostic_info. rewrite Hg, Hk. cbn [deref rbind]. rewrite (tuple_print_spec _ _ _ _ _ _ HR Hk). cbn [rbind fst].
  rewrite bind_listing by done. by destruct (ei_ex ei).
Qed.

Lemma caplist_print_spec id l : forall p, let t := l ≫= (fun n => txt id (fst n) (fst (snd n)) (snd (snd n))) in caplist_print G P id l p = Ok (emitted p t, after p t).
Proof.
  induction l as [|[T [k v]] l IH]; intros p; [by destruct p|]. cbn [caplist_print]. rewrite slot_print_spec. cbn [rbind fst snd]. rewrite IH. cbn [rbind fst snd].
  csimpl. by rewrite emitted_app, after_app.
Qed.
End proofs.

(** ** Theorems
    A scope has found an error, or an exception, and is looking for a handler. *)

(** operator<< of diagnostic_info *)
Theorem C37_diagnostic_info_text :
  forall G P k caught p hs m g o m' g' c ob mb gb o2 ei caught' m3 g3,
    runs G caught (PScope k p hs) m g o m' g' -> failed G k caught p hs m g c ob mb gb o2 ei caught' m3 g3 -> ei_id ei <> 0 ->
    (forall T, possible (p_traits P T)) -> g_diag G = true ->
    show_diagnostic_info G P c ei m3 =
      Ok (heading P ei ^+
          (let l := texts P (listing G m3 c ei (members m3 c)) in
           match ei_ex ei with Some _ => lines P l | None => titled P (nl ^+ "Caught:" ^+ p_first P) l end) ^+ nl).
Proof.
  intros G P k caught p hs m g o m' g' c ob mb gb o2 ei caught' m3 g3 (Hl & s & s' & HR & HR' & Hsp) HF Hid Hok Hg.
  destruct (failed_both _ _ _ _ _ _ _ _ _ _ _ _ _ _ _ _ _ _ _ _ _ HR Hsp Hl HF)
    as (m1b & s1 & sb & m2 & s2 & g2 & s3 & Ec & A1 & A2 & HR1 & B1 & B2 & HRb & C1 & C2 & HR2 & D & E1 & E2 & HR3 & _).
  destruct (failed_alive _ _ _ _ _ _ _ _ _ _ _ _ _ _ _ _ _ _ _ _ _ HR Hsp Hl HF) as [(kk & Hk & _) _].
  unfold show_diagnostic_info. rewrite (info_print_spec G P Hok _ _ _ _ _ HR3 Hk Hid Hg). cbn [rbind]. by rewrite app_assoc'.
Qed.
Print Assumptions C37_diagnostic_info_text.

(** operator<< of diagnostic_details *)
Theorem C37_diagnostic_details_text :
  forall G P k caught p hs m g o m' g' c ob mb gb o2 ei caught' m3 g3,
    runs G caught (PScope k p hs) m g o m' g' -> failed G k caught p hs m g c ob mb gb o2 ei caught' m3 g3 -> ei_id ei <> 0 ->
    (forall T, possible (p_traits P T)) -> g_diag G = true -> g_capture G = true ->
    show_diagnostic_details G P c ei m3 =
      Ok (heading P ei ^+
          (let l := texts P (listing G m3 c ei (members m3 c)) in
           match ei_ex ei with Some _ => lines P l | None => titled P (nl ^+ "Caught:" ^+ p_first P) l end) ^+
          titled P (nl ^+ "Diagnostic details:" ^+ p_first P) (texts P (listing G m3 c ei (collected m3 c))) ^+ nl).
Proof.
  intros G P k caught p hs m g o m' g' c ob mb gb o2 ei caught' m3 g3 (Hl & s & s' & HR & HR' & Hsp) HF Hid Hok Hg Hc.
  destruct (failed_both _ _ _ _ _ _ _ _ _ _ _ _ _ _ _ _ _ _ _ _ _ HR Hsp Hl HF)
    as (m1b & s1 & sb & m2 & s2 & g2 & s3 & Ec & A1 & A2 & HR1 & B1 & B2 & HRb & C1 & C2 & HR2 & D & E1 & E2 & HR3 & _).
  destruct (failed_alive _ _ _ _ _ _ _ _ _ _ _ _ _ _ _ _ _ _ _ _ _ HR Hsp Hl HF) as [(kk & Hk & _) _].
  unfold show_diagnostic_details. rewrite Hg, Hc, (info_print_spec G P Hok _ _ _ _ _ HR3 Hk Hid Hg). cbn [rbind]. rewrite Hk. cbn [deref rbind].
  pose proof (details_print_spec G P Hok _ _ _ _ _ HR3 Hk Hid (nl ^+ "Diagnostic details:" ^+ p_first P)) as X. revert X.
  case_bool_decide; [|intros X; injection X as <-; by rewrite app_assoc', app_nil_l'].
  destruct (dhp m3 !! c) as [d|]; [|done]. cbn [deref rbind]. destruct (d_key d =? 0); [intros X; injection X as <-; by rewrite app_assoc', app_nil_l'|].
  destruct (list_print _ _ _ _ _ _) as [r|]; [|done]. cbn [rbind]. intros X. injection X as ->. by rewrite !app_assoc'.
Qed.
Print Assumptions C37_diagnostic_details_text.

(** Where a part is switched off, the text says so; what is left is the same. Without diagnostics nothing but the error and the exception is looked at. *)
Definition not_there (what option : string) : string := nl ^+ "boost::leaf::" ^+ what ^+ " N/A due to BOOST_LEAF_CFG_" ^+ option ^+ "=0" ^+ nl.
Theorem C37_text_without_diagnostics :
  forall G P c ei m, g_diag G = false ->
    show_diagnostic_info G P c ei m = Ok (heading P ei ^+ not_there "diagnostic_info" "DIAGNOSTICS") /\
    show_diagnostic_details G P c ei m = Ok (heading P ei ^+ not_there "diagnostic_details" "DIAGNOSTICS").
Proof.
  intros G P c ei m Hg. unfold show_diagnostic_info, print_diagnostic_info, show_diagnostic_details. rewrite Hg. cbn [rbind]. unfold not_there.
  split; rewrite ?app_assoc'; reflexivity.
Qed.
Print Assumptions C37_text_without_diagnostics.
Theorem C37_text_without_capture :
  forall G P k caught p hs m g o m' g' c ob mb gb o2 ei caught' m3 g3,
    runs G caught (PScope k p hs) m g o m' g' -> failed G k caught p hs m g c ob mb gb o2 ei caught' m3 g3 -> ei_id ei <> 0 ->
    (forall T, possible (p_traits P T)) -> g_diag G = true -> g_capture G = false ->
    show_diagnostic_details G P c ei m3 =
      Ok (heading P ei ^+
          (let l := texts P (listing G m3 c ei (members m3 c)) in
           match ei_ex ei with Some _ => lines P l | None => titled P (nl ^+ "Caught:" ^+ p_first P) l end) ^+ not_there "diagnostic_details" "CAPTURE").
Proof.
  intros G P k caught p hs m g o m' g' c ob mb gb o2 ei caught' m3 g3 (Hl & s & s' & HR & HR' & Hsp) HF Hid Hok Hg Hc.
  destruct (failed_both _ _ _ _ _ _ _ _ _ _ _ _ _ _ _ _ _ _ _ _ _ HR Hsp Hl HF)
    as (m1b & s1 & sb & m2 & s2 & g2 & s3 & Ec & A1 & A2 & HR1 & B1 & B2 & HRb & C1 & C2 & HR2 & D & E1 & E2 & HR3 & _).
  destruct (failed_alive _ _ _ _ _ _ _ _ _ _ _ _ _ _ _ _ _ _ _ _ _ HR Hsp Hl HF) as [(kk & Hk & _) _].
  unfold show_diagnostic_details. rewrite Hg, Hc, (info_print_spec G P Hok _ _ _ _ _ HR3 Hk Hid Hg). cbn [rbind]. rewrite !app_assoc'. reflexivity.
Qed.
Print Assumptions C37_text_without_capture.

(** What the handlers are given is what is printed. *)
Theorem C37_handlers_are_given_what_is_printed :
  forall G m c ei, g_diag G = true -> g_capture G = true ->
    supply G m c ei ADiag = Some (VDiag (ei_id ei) (ei_ex ei) (ei_loc ei) (listing G m c ei (members m c))) /\
    supply G m c ei ADetails = Some (VDetails (ei_id ei) (ei_ex ei) (ei_loc ei) (listing G m c ei (members m c)) (listing G m c ei (collected m c))).
Proof. intros G m c ei H1 H2. unfold supply. by rewrite H1, H2. Qed.
Print Assumptions C37_handlers_are_given_what_is_printed.

(** Printing a context, at any time: its objects, of any error. *)
Theorem C37_context_text :
  forall G P caught p m g o m' g' c k,
    runs G caught p m g o m' g' -> (forall T, possible (p_traits P T)) -> ctxs m' !! c = Some k ->
    show_context G P c m' = Ok (titled P "Contents:" (contents G P m' c) ^+ nl).
Proof.
  intros G P caught p m g o m' g' c k (_ & s & s' & HR & HR' & _) Hok Hk. unfold show_context. rewrite Hk. cbn [deref rbind].
  rewrite (tuple_print_spec G P Hok _ _ _ _ _ _ HR' Hk). cbn [rbind fst]. by rewrite bind_contents.
Qed.
Print Assumptions C37_context_text.

(** Printing a captured result: the captured objects of its error, in the order captured. *)
Theorem C37_captured_result_text :
  forall G P void id l ex,
    (forall T, possible (p_traits P T)) -> g_diag G = true -> id <> 0 -> Forall (fun n => fst (snd n) <> 0) l ->
    show_result G P void (RCap id l ex) =
      Ok ("Error serial #" ^+ dec (Z.quot id 4) ^+
          titled P (nl ^+ "Captured:") (texts P (omap (fun n => if bool_decide (fst (snd n) = id) && g_show G (fst n) then Some (fst n, snd (snd n)) else None) l)) ^+ nl).
Proof.
  intros G P void id l ex Hok Hg Hid Hl. unfold show_result. rewrite Hg, (caplist_print_spec G P Hok). cbn [rbind fst]. repeat f_equal. simpl. f_equal.
  induction Hl as [|[T [k v]] l Hk Hl IH]; [done|]. csimpl. rewrite IH. unfold txt. simpl in *. rewrite (proj2 (Z.eqb_neq _ _) Hk), (proj2 (Z.eqb_neq _ _) Hid). simpl.
  destruct (Z.eqb_spec k id); [rewrite bool_decide_true by done|by rewrite bool_decide_false]. simpl. destruct (g_show G T); simpl; [|done]. by rewrite app_nil.
Qed.
Print Assumptions C37_captured_result_text.

(** Printing any other result: the value, or its being there at all; the serial number of the error. *)
Theorem C37_result_text :
  forall G P,
    (forall z s, p_rval P z = Some s -> show_result G P false (RVal z) = Ok s) /\
    (forall z, p_rval P z = None -> show_result G P false (RVal z) = Ok "{not printable}"%string) /\
    (forall z, show_result G P true (RVal z) = Ok "No error"%string) /\
    (forall void id, show_result G P void (RErr id) = Ok ("Error serial #" ^+ dec (Z.quot id 4))).
Proof. intros G P. repeat split; intros z; [intros s H|intros H]; simpl; by rewrite H. Qed.
Print Assumptions C37_result_text.

Lemma dec_inj a b : dec a = dec b -> a = b.
Proof.
  unfold dec. intros H. assert (forall z, NilZero.int_of_string (NilZero.string_of_int (Z.to_int z)) = Some (Z.to_int z)) as Hi.
  { intros z. apply NilZero.isi; intros E; destruct z as [|p|p]; try discriminate E; simpl in E; injection E as E; by destruct (DecimalPos.Unsigned.to_uint_nonnil p). }
  pose proof (Hi a) as Ha. rewrite H, Hi in Ha. injection Ha as Ha. rewrite <- (DecimalZ.of_to a), <- (DecimalZ.of_to b). by rewrite Ha.
Qed.
Lemma append_inj s a b : s ^+ a = s ^+ b -> a = b.
Proof. induction s as [|c s IH]; [done|]. simpl. intros H. injection H as H. by apply IH. Qed.

(** The texts of two failed results are the same only if their errors are, but for the ids of C42_printed_refuted. *)
Theorem C42_results_printed_partial :
  forall G P void a b, valid_id a -> valid_id b ->
    show_result G P void (RErr a) = show_result G P void (RErr b) -> a = b \/ (a = 1 /\ b = -3) \/ (a = -3 /\ b = 1).
Proof.
  intros G P void a b Ha Hb H. apply C42_printed_partial; [done..|]. unfold show_result in H. injection H as H. by apply dec_inj.
Qed.
Print Assumptions C42_results_printed_partial.

(** ** Examples *)
Definition out_of {A} (r : res A) : option A := match r with Ok a => Some a | _ => None end.
Lemma out_of_ok {A} (r : res A) a : out_of r = Some a -> r = Ok a.
Proof. destruct r; simpl; congruence. Qed.
Definition PX : pcfg := PCfg (nl ^+ "    ") (nl ^+ "    ") (fun T => if (T =? TC)%nat then Traits false false false false else Traits true false false false)
  (fun T => if (T =? TA)%nat then "A" else if (T =? TB)%nat then "B" else "C")%string (fun _ _ v => match v with VZ z => Some (dec z) | _ => None end)
  (fun _ => "my_error"%string) (fun x => ("what " ^+ dec (x_val x))) (fun z => Some (dec z)).
Lemma PX_possible T : possible (p_traits PX T).
Proof. unfold possible. simpl. by destruct (T =? TC)%nat. Qed.

(** An error with four objects. The scope has places for two of the types. *)
Definition ex37_body : prog := PBind (PNewError [IVal TB (VZ 8)] (fun id => PRet (RErr id))) (fun _ =>
  PNewError [IVal TA (VZ (-7)); IVal TB (VZ 8); IVal TC (VZ 9); IVal 13%nat (VZ 3)] (fun id => PRet (RErr id))).
Definition ex37_hs : handlers := HCons [AE TA; APtr 14%nat; APtr TC; ADetails] (fun _ => PRet (RVal 2)) (HCons [] (fun _ => PRet (RVal 1)) HNil).
Definition ex37_text : string :=
  "Error with serial #2" ^+ nl ^+ "Caught:" ^+ nl ^+ "    A: -7" ^+ nl ^+ "    C" ^+ nl ^+ "Diagnostic details:" ^+ nl ^+ "    B: 8" ^+ nl ^+ "    C: 3" ^+ nl.
Example ex37 : exists o m' g' c ob mb gb o2 ei caught' m3 g3,
  runs GX None (PTHA ex37_body ex37_hs) mem0 glob0 o m' g' /\ failed GX KAll None ex37_body ex37_hs mem0 glob0 c ob mb gb o2 ei caught' m3 g3 /\
  ei_id ei <> 0 /\ show_diagnostic_details GX PX c ei m3 = Ok ex37_text.
Proof.
  edestruct (scope_ex GX KAll ex37_body ex37_hs mem0 smem0 glob0
    (fun o m' c o2 ei m3 => ei_id ei <> 0 /\ out_of (show_diagnostic_details GX PX c ei m3) = Some ex37_text))
    as (o & m' & g' & c' & ob & mb & gb & o2 & ei & caught' & m3 & g3 & Hr & HF & H1 & H2); [exact R0|vm_compute; reflexivity|].
  exists o, m', g', c', ob, mb, gb, o2, ei, caught', m3, g3. split; [done|]. split; [done|]. split; [done|]. by apply out_of_ok.
Qed.

(** An exception without objects, and a scope with a place for one type: the one title is the exception's, there are no details. *)
Definition ex37_throw : prog := PThrow None (XSpec true [T_STDEX] 5 None None) [].
Example ex37_none : exists o m' g' c ob mb gb o2 ei caught' m3 g3,
  runs GX None (PTC ex37_throw ex37_hs) mem0 glob0 o m' g' /\ failed GX KCatch None ex37_throw ex37_hs mem0 glob0 c ob mb gb o2 ei caught' m3 g3 /\
  ei_id ei <> 0 /\ show_diagnostic_details GX PX c ei m3 = Ok ("Error with serial #1" ^+ nl ^+ "Caught:" ^+ nl ^+ "    my_error: " ^+ quo ^+ "what 5" ^+ quo ^+ nl).
Proof.
  edestruct (scope_ex GX KCatch ex37_throw ex37_hs mem0 smem0 glob0
    (fun o m' c o2 ei m3 => ei_id ei <> 0 /\ out_of (show_diagnostic_details GX PX c ei m3) = Some ("Error with serial #1" ^+ nl ^+ "Caught:" ^+ nl ^+ "    my_error: " ^+ quo ^+ "what 5" ^+ quo ^+ nl)))
    as (o & m' & g' & c' & ob & mb & gb & o2 & ei & caught' & m3 & g3 & Hr & HF & H1 & H2); [exact R0|vm_compute; reflexivity|].
  exists o, m', g', c', ob, mb, gb, o2, ei, caught', m3, g3. split; [done|]. split; [done|]. split; [done|]. by apply out_of_ok.
Qed.

Example ex42_results :
  show_result GX PX false (RErr 9) = Ok "Error serial #2"%string /\ show_result GX PX true (RErr (-7)) = Ok "Error serial #-1"%string /\
  show_result GX PX false (RVal 9) = Ok "9"%string.
Proof. repeat split. Qed.
Example ex37_result : show_result GX PX false (RCap 9 [(TA, (9, VZ 1)); (TB, (5, VZ 2)); (TC, (9, VZ 3))] None) =
  Ok ("Error serial #2" ^+ nl ^+ "Captured:A: 1" ^+ nl ^+ "    C" ^+ nl).
Proof. reflexivity. Qed.

(** A scope whose context was printed from outside, with an object of an earlier error left in it. *)
Example ex37_context : show_context GX PX 0%nat ex49_m1 = Ok ("Contents:A: 1(1)" ^+ nl ^+ "    B: 2(1)" ^+ nl).
Proof. vm_compute. reflexivity. Qed.

(** The same error in builds where capturing, or all diagnostics, are switched off. *)
Definition GX_with (cap diag : bool) : cfg := Cfg cap diag (g_asserts GX) (g_class GX) (g_abs GX) (g_show GX) (g_def GX) (g_sup GX).
Definition ex37_off (diag : bool) : string :=
  "Error with serial #2" ^+ nl ^+ (if diag then "Caught:" ^+ nl ^+ "    A: -7" ^+ nl ^+ "    C" ^+ nl else "") ^+
  "boost::leaf::diagnostic_details N/A due to BOOST_LEAF_CFG_" ^+ (if diag then "CAPTURE" else "DIAGNOSTICS") ^+ "=0" ^+ nl.
Example ex37_switched_off : forall diag, exists o m' g' c ob mb gb o2 ei caught' m3 g3, let G := GX_with false diag in
  runs G None (PTHA ex37_body ex37_hs) mem0 glob0 o m' g' /\ failed G KAll None ex37_body ex37_hs mem0 glob0 c ob mb gb o2 ei caught' m3 g3 /\
  ei_id ei <> 0 /\ show_diagnostic_details G PX c ei m3 = Ok (ex37_off diag).
Proof.
  intros diag.
  edestruct (scope_ex (GX_with false diag) KAll ex37_body ex37_hs mem0 smem0 glob0
    (fun o m' c o2 ei m3 => ei_id ei <> 0 /\ out_of (show_diagnostic_details (GX_with false diag) PX c ei m3) = Some (ex37_off diag)))
    as (o & m' & g' & c' & ob & mb & gb & o2 & ei & caught' & m3 & g3 & Hr & HF & H1 & H2); [exact R0|destruct diag; vm_compute; reflexivity|].
  exists o, m', g', c', ob, mb, gb, o2, ei, caught', m3, g3. split; [done|]. split; [done|]. split; [done|]. by apply out_of_ok.
Qed.
