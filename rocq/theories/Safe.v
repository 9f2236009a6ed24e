(** Programs which keep the rules under which the library never misbehaves. *)
From Verif Require Export PropsCurrent.
Open Scope Z_scope.

(** ** Specification *)

(** The result type of a function: a plain value, leaf::result<>, or a third-party result. *)
Inductive rty := TyVal | TyLeaf | TyFor.

(** error_id::operator bool's assertion, error.hpp:709-714: the two low bits of an id are 01 *)
Definition vid (id : Z) : Prop := Z.land id 3 = 1.
Definition void_ (o : option Z) : Prop := forall id, o = Some id -> vid id.
(** An exception which is or has an error_id has a valid one. *)
Definition vexn (x : exn) : Prop := void_ (x_leaf x) /\ void_ (x_eid x).
Definition voexn (o : option exn) : Prop := forall x, o = Some x -> vexn x.

Definition has_ty (t : rty) (r : ret) : Prop :=
  match r with
  | RVal _ => True
  | RErr _ => t = TyLeaf
  | RCap _ _ ex => t = TyLeaf /\ voexn ex
  | RFor cat v => t = TyFor /\ v <> 0 /\ (cat = LEAFCAT -> vid v)
  end.
Definition vout (t : rty) (o : out) : Prop := match o with ORet r => has_ty t r | OThrow x => vexn x end.

(** What a handler is given for its arguments. *)
Definition varg (a : harg) (v : argval) : Prop :=
  match a, v with
  | AE _, VE _ | APtr _, VP _ => True
  | APred _ f, VE v => f v = true
  | ACatch _, VCatch x => vexn x
  | ABoost _ f, VE v => exists z, v = VZ z /\ f z = true
  | AInfo, VInfo id ex _ | ADiag, VDiag id ex _ _ | ADetails, VDetails id ex _ _ _ => vid id /\ voexn ex
  | _, _ => False
  end.

(** Where a piece of a program is: inside a handler of an exception; the user's context objects alive, those of them activated around it;
    the types for which a scope around it has storage; is there a scope around it which collects other objects? *)
Record env := Env { e_cg : bool; e_live : list (cid * list sty); e_act : list cid; e_srv : list ety; e_col : bool }.
Definition env0 : env := Env false [] [] [] false.

Definition types (tup : list sty) : list ety := flat_map (fun t => match t with SE T => [T] | SDA => [] end) tup.
Definition in_scope (tup : list sty) (E : env) : env :=
  Env (e_cg E) (e_live E) (e_act E) (types tup ++ e_srv E) (e_col E || bool_decide (SDA ∈ tup)).
Definition in_catch (E : env) : env := Env true (e_live E) (e_act E) (e_srv E) (e_col E).
Definition in_ctx (c : cid) (tup : list sty) (E : env) : env := Env (e_cg E) ((c, tup) :: e_live E) (e_act E) (e_srv E) (e_col E).
Definition in_act (c : cid) (tup : list sty) (E : env) : env := 
  Env (e_cg E) (e_live E) (c :: e_act E) (types tup ++ e_srv E) (e_col E || bool_decide (SDA ∈ tup)).
Definition takes_exn (a : harg) : bool := match a with ACatch _ | ABoost _ _ => true | _ => false end.

(** Three rules a program has to keep which the documentation does not mention; each can be dropped. *)
Record rules := Rules {
  r_acc : bool;    (* accumulating functions are only used where there is storage for the object, or nothing collects *)
  r_void : bool;   (* no try_capture_all of a function returning void *)
  r_ctx : bool }.  (* the user's own context objects are not for handlers that take diagnostic_details *)
Definition strict : rules := Rules true true true.

Section safe.
Context (G : cfg) (Q : rules).

Definition sitem (E : env) (it : item) : Prop :=
  match it with IAcc T _ _ => if r_acc Q then T ∈ e_srv E \/ e_col E = false \/ g_capture G = false else True | _ => True end.
(** One of the handlers matches any error. *)
Definition complete (hs : handlers) : Prop := Exists (fun h => takes_anything h.1) (flat hs).

Fixpoint gsafe (E : env) (t : rty) (p : prog) {struct p} : Prop :=
  match p with
  | PRet r => has_ty t r
  | PBind p k => exists t', gsafe E t' p /\ forall r, has_ty t' r -> gsafe E t (k r)
  | PEmit _ k => gsafe E t k
  | PNewError its k => Forall (sitem E) its /\ forall id, vid id -> gsafe E t (k id)
  | PLoad _ its k => Forall (sitem E) its /\ gsafe E t k
  | PCurErr k => forall id, vid id -> gsafe E t (k id)
  | PThrow oi x its => void_ oi /\ void_ (xs_eid x) /\ Forall (sitem E) its
  | PThrowX x => void_ (xs_eid x)
  | PRethrow => e_cg E = true
  | PCatch p h => gsafe E t p /\ forall x, vexn x -> gsafe (in_catch E) t (h x)
  | POnError its p => Forall (sitem E) its /\ gsafe E t p
  | PMonitor k => forall z, gsafe E t (k z)
  | PCheck _ k | PAssigned _ k => forall id, vid id -> gsafe E t (k id)
  | PTHA p hs => (exists t', gsafe (in_scope (deduce G hs) E) t' p) /\ gsafeH E TyVal hs /\ complete hs
  | PTHS p hs => gsafe (in_scope (deduce G hs) E) t p /\ gsafeH E t hs
  | PTC p hs => gsafe (in_scope (deduce G hs) E) t p /\ gsafeH (in_catch E) t hs
  | PCapture isvoid p => (if r_void Q then isvoid = false else True) /\ g_capture G = true /\ t = TyLeaf /\ 
      gsafe (in_scope [SDA] E) (if isvoid then TyVal else TyLeaf) p
  | PUnload r k => has_ty TyLeaf r /\ gsafe E t (k (match r with RCap id _ _ => RCap id [] None | _ => r end))
  | PValue r k => has_ty TyLeaf r /\ forall z, r = RVal z -> gsafe E t (k z)
  | PErrId r k => (exists t', has_ty t' r) /\ forall id, (if is_val r then id = 0 else vid id) -> gsafe E t (k id)
  | PE2R _ p => t = TyLeaf /\ gsafe E t p
  | PImport cat v k => (v <> 0 -> cat = LEAFCAT -> vid v) /\ forall id, (if v =? 0 then id = 0 else vid id) -> gsafe E t (k id)
  | PCtx tup k => (if r_ctx Q then SDA ∉ deduce_list G tup else True) /\
      forall c, c ∉ (e_live E).*1 -> gsafe (in_ctx c (deduce_list G tup) E) t (k c)
  | PAct c p => exists tup, (c, tup) ∈ e_live E /\ gsafe (in_act c tup E) t p
  | PCtxUnload c id k => c ∈ (e_live E).*1 /\ c ∉ e_act E /\ vid id /\ gsafe E t k
  | PCtxHandle c id hs => c ∈ (e_live E).*1 /\ c ∉ e_act E /\ vid id /\ gsafeH E t hs /\ complete hs
  end
with gsafeH (E : env) (t : rty) (hs : handlers) {struct hs} : Prop :=
  match hs with
  | HNil => True
  | HMut args _ b rest =>
      (forall l, Forall2 varg args l -> gsafe (if existsb takes_exn args then in_catch E else E) t (b l)) /\ gsafeH E t rest
  | HTup hs' rest => gsafeH E t hs' /\ gsafeH E t rest
  end.
End safe.

Definition safe (G : cfg) := gsafe G strict.
Definition safeH (G : cfg) := gsafeH G strict.

(** ** The stack machine *)

Record Inv (E : env) (s : smem) : Prop := MkInv {
  i_R : exists m, R m s;
  i_ok : aok s;
  i_live : forall c tup, (c, tup) ∈ e_live E -> SDA ∉ tup /\ exists a, actxs s !! c = Some a /\ ac_tup a = tup;
  i_act : forall c tup, (c, tup) ∈ e_live E -> c ∈ stack s <-> c ∈ e_act E;
  i_sub : forall c, c ∈ e_act E -> c ∈ (e_live E).*1;
  i_srv : forall T, T ∈ e_srv E -> exists c a, c ∈ stack s /\ actxs s !! c = Some a /\ SE T ∈ ac_tup a;
  i_col : e_col E = false -> forall c a, c ∈ stack s -> actxs s !! c = Some a -> SDA ∉ ac_tup a }.

(** What every piece of a program does to the memory. *)
Definition step (s s' : smem) : Prop := wb s s' /\ exists m, R m s'.

Lemma inv_wf E s : Inv E s -> swf s.
Proof. intros H. destruct (i_R _ _ H) as [m Hm]. by eapply R_wf. Qed.
Lemma step_refl E s : Inv E s -> step s s.
Proof. intros H. split; [constructor|by eapply i_R]. Qed.
Lemma step_trans s1 s2 s3 : step s1 s2 -> step s2 s3 -> step s1 s3.
Proof. intros [? ?] [? ?]. split; [by eapply wb_trans|done]. Qed.
Lemma inv_step E s s' : Inv E s -> step s s' -> Inv E s'.
Proof.
  intros H [Hw HR]. pose proof (inv_wf _ _ H) as Hwf. pose proof (wb_same _ _ Hw Hwf) as Hs. pose proof H as []. split; auto.
  - by eapply wb_aok.
  - intros c tup Hin. destruct (i_live0 _ _ Hin) as (? & a & Ha & <-). destruct (sm_tup _ _ Hs _ _ Ha) as (a' & ? & ?). eauto.
  - intros c tup Hin. rewrite (sm_stack _ _ Hs). eauto.
  - intros T HT. destruct (i_srv0 _ HT) as (c & a & Hc & Ha & Ht). destruct (sm_tup _ _ Hs _ _ Ha) as (a' & Ha' & Et).
    exists c, a'. rewrite (sm_stack _ _ Hs), Et. auto.
  - intros Hc c a' Hin Ha'. rewrite (sm_stack _ _ Hs) in Hin. destruct (wf_in _ Hwf _ Hin) as [a Ha]. destruct (sm_tup _ _ Hs _ _ Ha) as (a1 & ? & Et).
    simplify_eq. rewrite Et. eauto.
Qed.
(** A context which is not active stays. *)
Definition idle (c : cid) (s : smem) : Prop := c ∉ stack s /\ is_Some (actxs s !! c).
Lemma idle_step E c s s' : Inv E s -> idle c s -> step s s' -> idle c s'.
Proof.
  intros H [Hn [a Ha]] [Hw _]. pose proof (wb_same _ _ Hw (inv_wf _ _ H)) as Hs. destruct (sm_tup _ _ Hs _ _ Ha) as (a' & ? & ?).
  split; [by rewrite (sm_stack _ _ Hs)|eauto].
Qed.
Lemma inv_catch E s : Inv E s -> Inv (in_catch E) s.
Proof. intros []. by split. Qed.
Lemma inv_idle E c s : Inv E s -> c ∈ (e_live E).*1 -> c ∉ e_act E -> idle c s.
Proof.
  intros [] Hc Ha. apply elem_of_list_fmap in Hc as ([c' tup] & -> & Hin). destruct (i_live0 _ _ Hin) as (_ & a & E1 & _). split; [|eauto].
  simpl. rewrite (i_act0 _ _ Hin). done.
Qed.

Section G.
Context (G0 : cfg) (Hsup : good_sup G0).
Notation G := (asserts_on G0).
Notation MS := (smach G).

Lemma vid_mk id : vid (mk id).
Proof.
  unfold vid, mk. apply Z.bits_inj'. intros n Hn. rewrite Z.land_spec, Z.lor_spec, Z.ldiff_spec. destruct (decide (n < 2)) as [Hl|Hl].
  - assert (n = 0 \/ n = 1) as [-> | ->] by lia; destruct (Z.testbit id _); done.
  - assert (Z.testbit 3 n = false) as ->; [|by rewrite andb_false_r, (Z.bits_above_log2 1 n); simpl; try lia].
    apply Z.bits_above_log2; [lia|]. simpl. lia.
Qed.
Lemma vid_nz id : vid id -> id <> 0.
Proof. apply good_nz. Qed.

Lemma sitem_acc E id it s : Inv E s -> sitem G strict E it -> sacc_ok G id it s.
Proof.
  intros H. destruct it as [| |T tag f|]; simpl; auto. intros Hc Hn Hcap c a q Hd _. destruct Hc as [HT|[Hcol|Hcap']]; [| |simpl in Hcap; congruence].
  - exfalso. destruct (i_srv _ _ H _ HT) as (c1 & a1 & Hin & Ha & Ht). eapply (find_ctx_exists (has_e T)); [|exact Hin|exact Ha| |exact Hn].
    + apply (wf_in _ (inv_wf _ _ H)).
    + unfold has_e. by rewrite bool_decide_true.
  - exfalso. apply find_ctx_in in Hd as (Hin & Ha & Hd). unfold has_d in Hd. apply bool_decide_eq_true in Hd. by eapply (i_col _ _ H).
Qed.

Lemma s_load E onerr id it s g : Inv E s -> id <> 0 -> sitem G strict E it -> exists s' g', sload G onerr id it s g = Ok (s', g') /\ step s s'.
Proof.
  intros H Hid Hit. destruct (sload_cases G onerr id it s g Hid (aok_dok _ (i_ok _ _ H)) (sitem_acc _ _ _ _ H Hit)) as (s' & g' & E1 & _).
  exists s', g'. split; [done|]. split; [apply wb_atoms; by eapply sload_atom|].
  destruct (i_R _ _ H) as [m HR]. destruct (sim_ok _ _ _ _ (sim_load G0 onerr id it (m, g) (s, g) (conj HR eq_refl)) E1) as ([m' ?] & _ & ? & _). eauto.
Qed.
Lemma s_load_items E onerr id its : id <> 0 -> Forall (sitem G strict E) its -> forall s g, Inv E s ->
  exists s' g', load_items MS onerr id its (s, g) = Ok (s', g') /\ step s s'.
Proof.
  intros Hid. induction 1 as [|it its Hit _ IH]; intros s g H; [exists s, g; split; [done|by eapply step_refl]|].
  destruct (s_load E onerr id it s g H Hid Hit) as (s1 & g1 & E1 & S1). destruct (IH s1 g1 (inv_step _ _ _ H S1)) as (s' & g' & E2 & S2).
  exists s', g'. split; [|by eapply step_trans]. cbn [load_items]. eapply rb_ok; [exact E1|exact E2].
Qed.
Lemma s_id_load E id its s g : Forall (sitem G strict E) its -> Inv E s -> exists s' g', id_load MS id its (s, g) = Ok (s', g') /\ step s s'.
Proof.
  intros Hi H. unfold id_load. destruct (id =? 0) eqn:E1; [exists s, g; split; [done|by eapply step_refl]|]. apply s_load_items with (E := E); auto. by apply Z.eqb_neq.
Qed.
Lemma s_capunload E id l s g : Inv E s -> id <> 0 -> exists s' g', scap_unload G id l s g = Ok (s', g') /\ step s s'.
Proof.
  intros H Hid. destruct (sreceive_all_ok G id l s Hid (aok_dok _ (i_ok _ _ H))) as (s' & E1 & _). exists s', (set_cur id g).
  assert (scap_unload G id l s g = Ok (s', set_cur id g)) as E2 by (unfold scap_unload; by rewrite E1). split; [done|].
  split; [apply wb_atoms; by eapply sreceive_all_atom|]. destruct (i_R _ _ H) as [m HR].
  destruct (sim_ok _ _ _ _ (sim_capunload G0 id l (m, g) (s, g) (conj HR eq_refl)) E2) as ([m' ?] & _ & ? & _). eauto.
Qed.
Lemma s_unload E c id s g : Inv E s -> idle c s -> id <> 0 -> exists s' g', sunload G c id s g = Ok (s', g') /\ step s s'.
Proof.
  intros H [Hn [a Ha]] Hid. destruct (i_R _ _ H) as [m HR].
  destruct (sunload_recv G c id s g a Hid (inv_wf _ _ H) (aok_dok _ (i_ok _ _ H)) Hn Ha (R_awf _ _ _ _ HR Ha)) as (s' & E1 & _).
  eexists s', _. split; [exact E1|]. split; [apply wb_atoms; by eapply sunload_atom|].
  destruct (sim_ok _ _ _ _ (sim_unload G0 c id (m, g) (s, g) (conj HR eq_refl)) E1) as ([m' ?] & _ & ? & _). eauto.
Qed.
Lemma s_get c T id s : is_Some (actxs s !! c) -> id <> 0 -> exists o, sget c T id s = Ok o.
Proof.
  intros [a Ha] Hid. unfold sget. rewrite Ha. destruct (bool_decide _); [|eauto]. unfold sassert. rewrite (proj2 (nz_true id)) by done. simpl. eauto.
Qed.
Lemma s_destroy E c s : Inv E s -> idle c s -> exists s', sdestroy c s = Ok s'.
Proof. intros H [Hn [a Ha]]. unfold sdestroy. rewrite Ha, bool_decide_false by done. eauto. Qed.

Lemma vid_sup n : vid (g_sup G n).
Proof. apply Hsup. Qed.
Lemma s_import E cat v s g : Inv E s -> (v <> 0 -> cat = LEAFCAT -> vid v) ->
  exists id s' g', import_ec G MS cat v (s, g) = Ok (id, (s', g')) /\ step s s' /\ (if v =? 0 then id = 0 else vid id).
Proof.
  intros H Hv. unfold import_ec. destruct (v =? 0) eqn:E0; [exists 0, s, g; split; [done|]; split; [by eapply step_refl|done]|].
  apply Z.eqb_neq in E0. destruct (cat =? LEAFCAT)%nat eqn:Ec.
  - apply Nat.eqb_eq in Ec. exists (mk v), s, g. rewrite assert_ok by (apply Z.eqb_eq, Hv; auto). split; [done|]. split; [by eapply step_refl|apply vid_mk].
  - unfold gnew. cbv beta zeta iota.
    destruct (s_load E false (g_sup G (ngen g)) (IVal T_EC (VEC cat v)) s (Glob (g_sup G (ngen g)) (S (ngen g)) (oid g) (clr g) (tr g)) H) as (s' & g' & E1 & S1);
      [apply vid_nz, vid_sup|done|].
    eexists _, s', g'. split; [|split; [exact S1|apply vid_mk]]. eapply rb_ok; [exact E1|done].
Qed.
Lemma s_err_id E t r s g : Inv E s -> has_ty t r ->
  exists id s' g', err_id_of G MS r (s, g) = Ok (id, (s', g')) /\ step s s' /\ (if is_val r then id = 0 else vid id).
Proof.
  intros H Hr. pose proof (step_refl _ _ H) as S0. destruct r as [z|id|id l x|cat v]; cbn [err_id_of is_val].
  - eexists _, s, g. split; [reflexivity|]. by split.
  - eexists _, s, g. split; [reflexivity|]. split; [done|apply vid_mk].
  - eexists _, s, g. split; [reflexivity|]. split; [done|apply vid_mk].
  - destruct Hr as (_ & Hv & Hc). destruct (s_import E cat v s g H) as (id & s' & g' & E1 & S1 & Hid); [auto|].
    rewrite (proj2 (Z.eqb_neq v 0)) in Hid by done. eauto 10.
Qed.
(** The result afterwards is the same kind of result. *)
Lemma s_unload_ret E t r s g : Inv E s -> has_ty t r ->
  exists o s' g', unload_ret MS r (s, g) = Ok (o, (s', g')) /\ step s s' /\ vout t o /\
    (forall r', o = ORet r' -> r' = match r with RCap id _ _ => RCap id [] None | _ => r end).
Proof.
  intros H Hr. pose proof (step_refl _ _ H) as S0. destruct r as [z|id|id l x|cat v]; cbn [unload_ret].
  1, 2, 4: eexists _, s, g; split; [reflexivity|]; split; [done|]; split; [done|]; intros ? [= <-]; done.
  destruct (s_capunload E (mk id) l s g H (mk_nz id)) as (s' & g' & E1 & S1). eexists _, s', g'. split; [eapply rb_ok; [exact E1|reflexivity]|].
  destruct Hr as [-> Hx]. split; [done|]. destruct x as [x|]; simpl; (split; [|by intros ? [= <-]]); [by apply Hx|by split].
Qed.

Lemma vout_throw t x : vexn x -> vout t (OThrow x).
Proof. done. Qed.
Lemma catch_info_ok x g id ex g' : vexn x -> catch_info x g = (id, ex, g') -> vid id /\ (forall y, ex = Some y -> y = x).
Proof.
  intros [H1 H2] E. unfold catch_info in E. destruct (x_std x); [|simplify_eq; split; [apply vid_mk|done]].
  destruct (x_leaf x) as [i|] eqn:E1; [simplify_eq; split; [by apply H1|congruence]|]. destruct (x_eid x) as [i|] eqn:E2; simplify_eq; (split; [|congruence]).
  - by apply H2.
  - apply vid_mk.
Qed.

(** *** Arguments of handlers *)
Definition vei (ei : einfo) : Prop := vid (ei_id ei) /\ voexn (ei_ex ei).

Lemma s_peek T c ei s : is_Some (actxs s !! c) -> vei ei -> exists o, peek G MS T c ei s = Ok o.
Proof.
  intros Ha [Hid _]. unfold peek. rewrite (proj2 (Z.eqb_neq _ 0)) by (by apply vid_nz). destruct (s_get c T (ei_id ei) s Ha (vid_nz _ Hid)) as [o Eo].
  cbn [m_get MS]. eexists. eapply rb_ok; [exact Eo|reflexivity].
Qed.
Lemma s_shown c ei s : is_Some (actxs s !! c) -> exists l, shown G MS c ei s = Ok l.
Proof.
  intros [a Ha]. unfold shown. simpl. destruct (g_diag G0); [|eauto]. unfold sprint. rewrite Ha. eauto.
Qed.
Lemma s_arg a c ei s : is_Some (actxs s !! c) -> vei ei -> exists o, arg_get G MS a c ei s = Ok o /\
  (forall v, o = Some v -> varg a v /\ (takes_exn a = true -> ei_ex ei <> None)) /\
  (match a with APtr _ | AInfo | ADiag | ADetails => True | _ => False end -> o <> None).
Proof.
  intros Hc He. destruct a as [T|T|T f|cls|info f| | |]; cbn [arg_get].
  - destruct (s_peek T c ei s Hc He) as [o ->]. cbn [rbind]. eexists. split; [reflexivity|]. destruct o; (split; [|done]); intros ? [= <-]; done.
  - destruct (s_peek T c ei s Hc He) as [o ->]. cbn [rbind]. eexists. split; [reflexivity|]. (split; [|done]); intros ? [= <-]; done.
  - destruct (s_peek T c ei s Hc He) as [o ->]. cbn [rbind]. eexists. split; [reflexivity|]. (split; [|done]). intros v Hv. destruct o as [v0|]; [|done].
    destruct (f v0) eqn:Ef; [|done]. injection Hv as <-. done.
  - eexists. split; [reflexivity|]. split; [|done]. intros v Hv. destruct (ei_ex ei) as [x|] eqn:Ex; [|done]. split; [|done].
    destruct He as [_ He]. specialize (He _ Ex). destruct cls; [by injection Hv as <-|]. destruct (existsb _ _); [|done]. by injection Hv as <-.
  - eexists. split; [reflexivity|]. split; [|done]. intros v Hv. destruct (ei_ex ei) as [x|] eqn:Ex; [|done]. split; [|done].
    case_bool_decide; [|done]. destruct (info x) as [z|]; [|done]. destruct (f z) eqn:Ef; [|done]. injection Hv as <-. simpl. eauto.
  - eexists. split; [reflexivity|]. (split; [|done]). by intros ? [= <-].
  - destruct (s_shown c ei s Hc) as [l ->]. cbn [rbind]. eexists. split; [reflexivity|]. (split; [|done]). by intros ? [= <-].
  - destruct (s_shown c ei s Hc) as [l ->]. cbn [rbind].
    assert (exists d, (if g_diag G && g_capture G then m_details MS c (ei_id ei) s else Ok []) = Ok d) as [d ->].
    { destruct (_ && _); [|eauto]. cbn. unfold sdetails. destruct Hc as [a ->]. eauto. }
    cbn [rbind]. eexists. split; [reflexivity|]. (split; [|done]). by intros ? [= <-].
Qed.
Lemma s_args args c ei s : is_Some (actxs s !! c) -> vei ei -> exists o, args_get G MS args c ei s = Ok o /\
  (forall l, o = Some l -> Forall2 varg args l /\ (existsb takes_exn args = true -> ei_ex ei <> None)) /\ (takes_anything args -> o <> None).
Proof.
  intros Hc He. induction args as [|a args (o & Eo & H1 & H2)]; cbn [args_get].
  - eexists. split; [reflexivity|]. split; [|done]. intros l [= <-]. split; [constructor|done].
  - destruct (s_arg a c ei s Hc He) as (v & -> & H3 & H4). cbn [rbind]. destruct v as [v|].
    + rewrite Eo. cbn [rbind]. eexists. split; [reflexivity|]. destruct (H3 _ eq_refl) as [H5 H6]. split.
      * intros l Hl. destruct o as [l'|]; [|done]. injection Hl as <-. destruct (H1 _ eq_refl) as [H7 H8]. split; [by constructor|].
        simpl. intros [?|?]%orb_true_iff; auto.
      * intros Ht. apply Forall_cons in Ht as [_ Ht]. specialize (H2 Ht). by destruct o.
    + eexists. split; [reflexivity|]. split; [done|]. intros Ht. apply Forall_cons in Ht as [Ht _]. by apply H4 in Ht.
Qed.

(** *** Scopes *)
Lemma elem_types T tup : T ∈ types tup <-> SE T ∈ tup.
Proof.
  unfold types. rewrite elem_of_list_In, in_flat_map. split.
  - intros (t & Hin & Ht). destruct t; simpl in Ht; [|done]. destruct Ht as [->|[]]. by apply elem_of_list_In.
  - intros Hin. exists (SE T). split; [by apply elem_of_list_In|by left].
Qed.

Definition born (tup : list sty) (s : smem) : smem := snd (snew tup s).
Lemma s_born E tup s : NoDup tup -> Inv E s -> Inv E (born tup s) /\ idle (snc s) (born tup s).
Proof.
  intros Hnd H. destruct (wf_fresh _ (inv_wf _ _ H)) as [Hn1 Hn2]. pose proof H as []. split; [split; auto|].
  - destruct i_R0 as [m HR]. destruct (sim_new G0 tup (m, glob0) (s, glob0) Hnd (conj HR eq_refl)) as [_ [HR' _]]. eauto.
  - intros c Hc a q. unfold born. simpl. intros Ha Hq. rewrite lookup_insert_ne in Ha by (intros <-; done). by eapply i_ok0.
  - intros c tup' Hin. destruct (i_live0 _ _ Hin) as (? & a & Ha & ?). split; [done|]. exists a. unfold born. simpl. rewrite lookup_insert_ne by congruence. done.
  - intros T HT. destruct (i_srv0 _ HT) as (c & a & Hc & Ha & ?). exists c, a. unfold born. simpl. rewrite lookup_insert_ne by congruence. done.
  - intros Hcol c a Hc. unfold born. simpl. intros Ha. rewrite lookup_insert_ne in Ha by (intros <-; done). by eapply i_col0.
  - split; [done|]. unfold born. simpl. rewrite lookup_insert. eauto.
Qed.
(** Activation of a context which has collected nothing. *)
Lemma s_act E E' c s a : Inv E s -> c ∉ stack s -> actxs s !! c = Some a -> ac_coll a = None ->
  e_live E' = e_live E -> (forall c', c' ∈ e_act E' <-> c' ∈ e_act E \/ (c' = c /\ c ∈ (e_live E).*1)) ->
  e_srv E' = types (ac_tup a) ++ e_srv E -> (e_col E' = false -> e_col E = false /\ SDA ∉ ac_tup a) ->
  exists s1, sact c s = Ok s1 /\ Inv E' s1.
Proof.
  intros H Hn Ha Hq E1 E2 E3 E4. assert (nodes a = []) as Hnil by (unfold nodes; by rewrite Hq).
  set (s1 := SMem (c :: stack s) (actxs s) (snc s)).
  assert (sact c s = Ok s1) as E5 by (unfold sact; by rewrite Ha, bool_decide_false, Hnil by done). exists s1. split; [done|]. pose proof H as []. split.
  - destruct i_R0 as [m HR]. destruct (sim_ok _ _ _ (s1, glob0) (sim_act G0 c (m, glob0) (s, glob0) (conj HR eq_refl))) as ([m' ?] & _ & ? & _); [|eauto].
    unfold on_mem. simpl. by rewrite E5.
  - intros c' [->|Hc]%elem_of_cons a' q; simpl; [|by apply i_ok0]. intros. simplify_eq.
  - rewrite E1. done.
  - rewrite E1. intros c' tup Hin. rewrite E2. simpl. rewrite elem_of_cons, (i_act0 _ _ Hin). split; [|naive_solver]. intros [->|?]; [|auto]. right. split; [done|].
    apply elem_of_list_fmap. by exists (c, tup).
  - intros c'. rewrite E1, E2. intros [?|[-> ?]]; auto.
  - intros T. rewrite E3. intros [HT|HT]%elem_of_app.
    + apply elem_types in HT. exists c, a. split; [constructor|done].
    + destruct (i_srv0 _ HT) as (c' & a' & ? & ?). exists c', a'. split; [by constructor|done].
  - intros Hcol c' a' Hin Ha'. destruct (E4 Hcol). apply elem_of_cons in Hin as [->|Hin]; [by simplify_eq/=|by eapply i_col0].
Qed.
Lemma s_enter E tup s : NoDup tup -> Inv E s -> exists s1, sact (snc s) (born tup s) = Ok s1 /\ Inv (in_scope tup E) s1.
Proof.
  intros Hnd H. destruct (s_born E tup s Hnd H) as [Hb Hi]. eapply (s_act E); [exact Hb|apply Hi|unfold born; simpl; by rewrite lookup_insert|done|done| |done|].
  - intros c'. simpl. split; [auto|]. intros [?|[-> Hc]]; [done|]. exfalso. apply elem_of_list_fmap in Hc as ([c' tup'] & E1 & Hin). simpl in E1.
    destruct (i_live _ _ H _ _ Hin) as (_ & a & Ha & _). destruct (wf_fresh _ (inv_wf _ _ H)) as [Hn _]. congruence.
  - simpl. intros [Hc Hd]%orb_false_iff. by apply bool_decide_eq_false in Hd.
Qed.
(** Deactivation at the end of the block. *)
Lemma s_deact E c s0 s1 s2 : Inv E s0 -> sact c s0 = Ok s1 -> step s1 s2 -> exists s3, sdeact c s2 = Ok s3 /\ step s0 s3.
Proof.
  intros H Ha [Hw HR]. pose proof (sact_stack _ _ _ Ha) as (Es & _ & _). pose proof (wb_stack _ _ Hw) as Es2. rewrite Es in Es2.
  assert (sdeact c s2 = Ok (SMem (stack s0) (actxs s2) (snc s2))) as Ed by (unfold sdeact; rewrite Es2; by rewrite bool_decide_true). eexists. split; [exact Ed|].
  split; [by eapply wb_act|]. destruct HR as [m HR].
  destruct (sim_ok _ _ _ (SMem (stack s0) (actxs s2) (snc s2), glob0) (sim_deact G0 c (m, glob0) (s2, glob0) (conj HR eq_refl))) as ([m' ?] & _ & ? & _); [|eauto].
  unfold on_mem. simpl. by rewrite Ed.
Qed.

(** *** Programs *)
Definition ends (t : rty) (x : res (out * st MS)) : Prop := exists o s' g', x = Ok (o, (s', g')) /\ vout t o.
Lemma ends_bind {A} (x : res A) f a t : x = Ok a -> ends t (f a) -> ends t (rbind x f).
Proof. by intros ->. Qed.
Lemma ends_ok t o (s : st MS) : vout t o -> ends t (Ok (o, s)).
Proof. destruct s as [s g]. intros H. exists o, s, g. done. Qed.

Definition fine_run (t : rty) (s : smem) (x : res (out * st MS)) : Prop :=
  exists o s' g', x = Ok (o, (s', g')) /\ vout t o /\ step s s'.

Lemma eval_step caught p s g o s' g' E : Inv E s -> eval G MS caught p (s, g) = Ok (o, (s', g')) -> step s s'.
Proof.
  intros H Ev. split; [exact (proj1 (eval_wb G) _ _ _ _ _ Ev)|]. destruct (i_R _ _ H) as [m HR].
  destruct (C48_pointer_free_semantics G0 caught p m s g o s' g' HR Ev) as (m' & _ & ?). eauto.
Qed.
Lemma fine_intro caught p s g E t : Inv E s -> ends t (eval G MS caught p (s, g)) ->
  fine_run t s (eval G MS caught p (s, g)).
Proof. intros H (o & s' & g' & Ev & Ho). exists o, s', g'. split; [done|]. split; [done|]. by eapply eval_step. Qed.

Definition cg_ok (E : env) (caught : option exn) : Prop := voexn caught /\ (e_cg E = true -> caught <> None).
Lemma cg_catch E x : vexn x -> cg_ok (in_catch E) (Some x).
Proof. intros H. split; [|done]. by intros ? [= <-]. Qed.
Lemma cg_some E x : vexn x -> cg_ok E (Some x).
Proof. intros H. split; [|done]. by intros ? [= <-]. Qed.

(** The end of a scope. *)
Lemma s_leave E c o s g : Inv E s -> idle c s -> exists s', leave MS c o (s, g) = Ok (o, (s', g)).
Proof.
  intros H Hi. destruct (s_destroy E c s H Hi) as [s' Hd]. exists s'. unfold leave, on_mem. cbn [fst snd]. eapply rb_ok; [|reflexivity].
  eapply rb_ok; [exact Hd|reflexivity].
Qed.
Lemma s_deact_leave E c o s0 s1 s2 g : Inv E s0 -> idle c s0 -> sact c s0 = Ok s1 -> step s1 s2 -> exists s', deact_leave MS c o (s2, g) = Ok (o, (s', g)).
Proof.
  intros H Hi Ha S. destruct (s_deact E c s0 s1 s2 H Ha S) as (s3 & Hd & S3). destruct (s_leave E c o s3 g) as [s' Hl].
  - by eapply inv_step.
  - by eapply idle_step.
  - exists s'. unfold deact_leave, on_mem. cbn [fst snd]. eapply rb_ok; [eapply rb_ok; [exact Hd|reflexivity]|exact Hl].
Qed.
Lemma s_exn_info E c x s0 s1 s2 g : Inv E s0 -> idle c s0 -> sact c s0 = Ok s1 -> step s1 s2 -> vexn x ->
  exists ei s3 g3, exn_info MS c x (s2, g) = Ok (ei, (s3, g3)) /\ step s0 s3 /\ vei ei.
Proof.
  intros H Hi Ha S Hx. destruct (s_deact E c s0 s1 s2 H Ha S) as (s3 & Hd & S3). destruct (catch_info x g) as [[id ex] g3] eqn:Hc.
  destruct (catch_info_ok _ _ _ _ _ Hx Hc) as [Hid Hex]. destruct (idle_step _ _ _ _ H Hi S3) as [_ Hal].
  destruct (s_get c T_LOC id s3 Hal (vid_nz _ Hid)) as [loc Hl]. exists (EInfo id ex loc), s3, g3. split; [|split; [done|]].
  - unfold exn_info, on_mem. cbn [fst snd]. eapply rb_ok; [eapply rb_ok; [exact Hd|reflexivity]|]. cbn [fst snd]. rewrite Hc. eapply rb_ok; [exact Hl|reflexivity].
  - split; [done|]. intros y Hy. simpl in Hy. by rewrite (Hex _ Hy).
Qed.
Lemma s_res_info E E1 t c r s0 s1 s2 g : Inv E s0 -> idle c s0 -> sact c s0 = Ok s1 -> step s1 s2 -> Inv E1 s2 -> has_ty t r -> is_val r = false ->
  (exists x s3 g3, res_info G MS c r (s2, g) = Ok (inr (x, (s3, g3))) /\ step s1 s3 /\ vexn x) \/
  (exists ei r1 s3 g3, res_info G MS c r (s2, g) = Ok (inl (ei, r1, (s3, g3))) /\ step s0 s3 /\ vei ei /\ ei_ex ei = None /\ has_ty t r1).
Proof.
  intros H Hi Ha S H1 Hr Hv. unfold res_info. destruct (s_unload_ret E1 t r s2 g H1 Hr) as (o & s3 & g3 & -> & S3 & Ho & Hr1). cbn [rbind].
  destruct o as [r1|x].
  - right. simpl in Ho. assert (is_val r1 = false) as Hv1. { rewrite (Hr1 _ eq_refl). by destruct r. }
    destruct (s_err_id E1 t r1 s3 g3 (inv_step _ _ _ H1 S3) Ho) as (id & s4 & g4 & Ee & S4 & Hid). rewrite Hv1 in Hid.
    destruct (s_deact E c s0 s1 s4 H Ha) as (s5 & Hd & S5). { by do 2 (eapply step_trans; [eassumption|]). }
    destruct (idle_step _ _ _ _ H Hi S5) as [_ Hal]. destruct (s_get c T_LOC id s5 Hal (vid_nz _ Hid)) as [loc Hl].
    exists (EInfo id None loc), r1, s5, g4. split; [|split; [done|]].
    + eapply rb_ok; [exact Ee|]. cbn [fst snd]. eapply rb_ok; [unfold on_mem; cbn [fst snd]; eapply rb_ok; [exact Hd|reflexivity]|]. cbn [fst snd]. eapply rb_ok; [exact Hl|reflexivity].
    + split; [|by split]. split; [done|]. by intros ? ?.
  - left. exists x, s3, g3. split; [done|]. split; [by eapply step_trans|done].
Qed.
Lemma s_tha_end E c o s g t : Inv E s -> idle c s -> vout TyVal o -> exists s' g', tha_end MS c o (s, g) = Ok (o, (s', g')) /\ vout t o.
Proof.
  intros H Hi Ho. destruct (s_leave E c o s g H Hi) as [s' Hl]. exists s', g. unfold tha_end. destruct o as [r|x]; [|done].
  destruct r; simpl in Ho; try (by destruct Ho). done.
Qed.
Lemma s_ths_end E c o s g t : Inv E s -> idle c s -> vout t o -> exists s' g', ths_end G MS c o (s, g) = Ok (o, (s', g')) /\ vout t o.
Proof.
  intros H Hi Ho. unfold ths_end. destruct o as [r|x]; [|destruct (s_leave E c (OThrow x) s g H Hi) as [s' Hl]; eauto].
  destruct (is_val r) eqn:Hv; [destruct (s_leave E c (ORet r) s g H Hi) as [s' Hl]; eauto|].
  destruct (s_err_id E t r s g H Ho) as (id & s1 & g1 & Ee & S1 & Hid). rewrite Hv in Hid.
  pose proof (inv_step _ _ _ H S1) as H1. pose proof (idle_step _ _ _ _ H Hi S1) as Hi1.
  destruct (s_unload E c id s1 g1 H1 Hi1 (vid_nz _ Hid)) as (s2 & g2 & E2 & S2).
  destruct (s_leave E c (ORet r) s2 g2 (inv_step _ _ _ H1 S2) (idle_step _ _ _ _ H1 Hi1 S2)) as [s' Hl]. exists s', g2. split; [|done].
  eapply rb_ok; [exact Ee|]. cbn [fst snd]. eapply rb_ok; [exact E2|exact Hl].
Qed.
Lemma s_leave_end E c o s g t : Inv E s -> idle c s -> vout t o -> exists s' g', leave MS c o (s, g) = Ok (o, (s', g')) /\ vout t o.
Proof. intros H Hi Ho. destruct (s_leave E c o s g H Hi) as [s' Hl]. eauto. Qed.

(** The handlers' turn, after the exception x. *)
Lemma s_exn_part E c x s0 s1 s2 g t t' hs (fin : cid -> out -> st MS -> res (out * st MS)) :
  (forall o s g, Inv E s -> idle c s -> vout t' o -> exists s' g', fin c o (s, g) = Ok (o, (s', g')) /\ vout t o) ->
  (forall ei d s g, Inv E s -> idle c s -> vei ei -> (complete hs \/ fine_run t' s (d (s, g))) -> fine_run t' s (evalH G MS (Some x) hs c ei d (s, g))) ->
  Inv E s0 -> idle c s0 -> sact c s0 = Ok s1 -> step s1 s2 -> vexn x ->
  ends t (let! eis := exn_info MS c x (s2, g) in
    let! os3 := evalH G MS (Some x) hs c (fst eis) (unload_rethrow MS c (ei_id (fst eis)) x) (snd eis) in fin c (fst os3) (snd os3)).
Proof.
  intros Hfin HH H Hi Ha S Hx. destruct (s_exn_info E c x s0 s1 s2 g H Hi Ha S Hx) as (ei & s3 & g3 & Ex & S3 & Hei). eapply ends_bind; [exact Ex|]. cbn [fst snd].
  pose proof (inv_step _ _ _ H S3) as H3. pose proof (idle_step _ _ _ _ H Hi S3) as Hi3.
  destruct (HH ei (unload_rethrow MS c (ei_id ei) x) s3 g3 H3 Hi3 Hei) as (o & s4 & g4 & Ev & Ho & S4).
  { right. destruct (s_unload E c (ei_id ei) s3 g3 H3 Hi3 (vid_nz _ (proj1 Hei))) as (s4 & g4 & E4 & S4). exists (OThrow x), s4, g4.
    split; [unfold unload_rethrow; cbn [fst snd]; eapply rb_ok; [exact E4|reflexivity]|]. by split. }
  eapply ends_bind; [exact Ev|]. cbn [fst snd]. destruct (Hfin o s4 g4 (inv_step _ _ _ H3 S4) (idle_step _ _ _ _ H3 Hi3 S4) Ho) as (s' & g' & E' & ?). exists o, s', g'. done.
Qed.
(** The handlers' turn, after a failed result. *)
Lemma s_res_part E E1 c r s0 s1 s2 g t t' tb hs caught (fin : cid -> out -> st MS -> res (out * st MS)) (df : ret -> st MS -> res (out * st MS)) :
  (forall o s g, Inv E s -> idle c s -> vout t' o -> exists s' g', fin c o (s, g) = Ok (o, (s', g')) /\ vout t o) ->
  (forall ei d s g, Inv E s -> idle c s -> vei ei -> ei_ex ei = None -> (complete hs \/ fine_run t' s (d (s, g))) ->
     fine_run t' s (evalH G MS caught hs c ei d (s, g))) ->
  (complete hs \/ forall r1 s g, has_ty tb r1 -> Inv E s -> fine_run t' s (df r1 (s, g))) ->
  Inv E s0 -> idle c s0 -> sact c s0 = Ok s1 -> step s1 s2 -> Inv E1 s2 -> has_ty tb r -> is_val r = false ->
  ends t (let! i := res_info G MS c r (s2, g) in
    match i with
    | inr (x, s3) => deact_leave MS c (OThrow x) s3
    | inl (ei, r1, s3) => let! os3 := evalH G MS caught hs c ei (df r1) s3 in fin c (fst os3) (snd os3)
    end).
Proof.
  intros Hfin HH Hdf H Hi Ha S H2 Hr Hv.
  destruct (s_res_info E E1 tb c r s0 s1 s2 g H Hi Ha S H2 Hr Hv) as [(x & s3 & g3 & Ex & S3 & Hx)|(ei & r1 & s3 & g3 & Ex & S3 & Hei & Hne & Hr1)];
    (eapply ends_bind; [exact Ex|]); cbv beta iota.
  - destruct (s_deact_leave E c (OThrow x) s0 s1 s3 g3 H Hi Ha S3) as [s' Hl]. exists (OThrow x), s', g3. done.
  - pose proof (inv_step _ _ _ H S3) as H3. pose proof (idle_step _ _ _ _ H Hi S3) as Hi3.
    destruct (HH ei (df r1) s3 g3 H3 Hi3 Hei Hne) as (o & s4 & g4 & Ev & Ho & S4). { destruct Hdf as [?|Hdf]; [by left|]. right. auto. }
    eapply ends_bind; [exact Ev|]. cbn [fst snd]. destruct (Hfin o s4 g4 (inv_step _ _ _ H3 S4) (idle_step _ _ _ _ H3 Hi3 S4) Ho) as (s' & g' & E' & ?). exists o, s', g'. done.
Qed.

(** Assignments to handler arguments. *)
Lemma s_set_all E c id l : forall s, Inv E s -> idle c s -> exists s', set_all MS c id l s = Ok s' /\ step s s'.
Proof.
  induction l as [|[T v] l IH]; intros s H Hi; [exists s; split; [done|by eapply step_refl]|].
  assert (exists s1, sset c T id v s = Ok s1) as [s1 E1].
  { pose proof Hi as [Hn [a Ha]]. unfold sset. rewrite Ha, (bool_decide_false (c ∈ stack s)) by done. case_bool_decide; [|by eauto].
    destruct (ac_cell a !! T) as [[k v0]|]; [|by eauto]. destruct (k =? id); eauto. }
  assert (step s s1) as S1.
  { split; [apply wb_atoms; by eapply sset_atom|]. destruct (i_R _ _ H) as [m HR]. destruct (set_R _ _ _ _ _ _ _ HR E1) as (m' & _ & HR'). by exists m'. }
  destruct (IH s1 (inv_step _ _ _ H S1) (idle_step _ _ _ _ H Hi S1)) as (s2 & E2 & S2). exists s2. split; [|by eapply step_trans].
  cbn [set_all]. eapply rb_ok; [exact E1|exact E2].
Qed.
Lemma complete_cons args w b rest : complete (HMut args w b rest) <-> takes_anything args \/ complete rest.
Proof. unfold complete. simpl. by rewrite Exists_cons. Qed.
Lemma complete_tup hs rest : complete (HTup hs rest) <-> complete hs \/ complete rest.
Proof. unfold complete. simpl. by rewrite Exists_app. Qed.

Theorem safe_runs :
  (forall p E t caught s g, safe G E t p -> Inv E s -> cg_ok E caught -> ends t (eval G MS caught p (s, g))) /\
  (forall hs E t caught c ei d s g, safeH G E t hs -> Inv E s -> cg_ok E caught -> idle c s -> vei ei -> (ei_ex ei <> None -> caught <> None) ->
     complete hs \/ fine_run t s (d (s, g)) -> fine_run t s (evalH G MS caught hs c ei d (s, g))).
Proof.
  apply prog_handlers_ind.
  - intros r E t caught s g W H Hc. by apply ends_ok.
  - intros p IH k IHk E t caught s g (t' & W1 & W2) H Hc. cbn [eval]. destruct (IH _ _ _ s g W1 H Hc) as (o & s1 & g1 & E1 & Ho).
    eapply ends_bind; [exact E1|]. destruct o as [r|x]; [|by apply ends_ok]. eapply IHk; [by apply W2| |done]. eapply inv_step; [done|by eapply eval_step].
  - intros z k IH E t caught s g W H Hc. cbn [eval]. by eapply IH.
  - intros its k IH E t caught s g [W1 W2] H Hc. cbn [eval]. unfold gnew. cbv beta zeta iota. cbn [fst snd].
    match goal with |- ends _ (rbind (id_load _ ?i _ (_, ?g)) _) => destruct (s_id_load E i its s g W1 H) as (s1 & g1 & E1 & S1) end.
    eapply ends_bind; [exact E1|]. eapply IH; [apply W2, vid_mk|by eapply inv_step|done].
  - intros id its k IH E t caught s g [W1 W2] H Hc. cbn [eval]. destruct (s_id_load E id its s g W1 H) as (s1 & g1 & E1 & S1).
    eapply ends_bind; [exact E1|]. eapply IH; [done|by eapply inv_step|done].
  - intros k IH E t caught s g W H Hc. cbn [eval]. eapply IH; [apply W, vid_mk|done|done].
  - intros oi x its E t caught s g (W1 & W2 & W3) H Hc. cbn [eval].
    match goal with |- ends _ (match ?y with _ => _ end) => assert (exists id g1, vid id /\ y = (id, g1)) as (id & g1 & Hid & Eg) end.
    { destruct oi as [id|]; [eexists _, _; split; [by apply W1|reflexivity]|]. unfold gnew. cbv beta zeta iota. eexists _, _. split; [apply vid_mk|reflexivity]. }
    rewrite Eg. destruct (s_id_load E id its s g1 W3 H) as (s1 & g2 & E1 & S1). eapply ends_bind; [exact E1|]. unfold throw_leaf. apply ends_ok.
    split; [by intros ? [= <-]|done].
  - intros x E t caught s g W H Hc. cbn [eval]. unfold throw_plain. apply ends_ok. by split.
  - intros E t caught s g W H [Hc1 Hc2]. cbn [eval]. destruct caught as [x|]; [|by apply Hc2 in W]. apply ends_ok. by apply Hc1.
  - intros p IH h IHh E t caught s g [W1 W2] H Hc. cbn [eval]. destruct (IH _ _ _ s g W1 H Hc) as (o & s1 & g1 & E1 & Ho).
    eapply ends_bind; [exact E1|]. destruct o as [r|x]; [by apply ends_ok|].
    destruct (IHh x (in_catch E) t (Some x) s1 g1) as (o2 & s2 & g2 & E2 & Ho2).
    { by apply W2. }
    { apply inv_catch. eapply inv_step; [done|by eapply eval_step]. }
    { by apply cg_catch. }
    eapply ends_bind; [exact E2|]. cbn [fst snd]. by apply ends_ok.
  - intros its p IH E t caught s g [W1 W2] H Hc. cbn [eval]. destruct (IH _ _ _ s g W2 H Hc) as (o & s1 & g1 & E1 & Ho).
    eapply ends_bind; [exact E1|]. cbn [fst snd].
    match goal with |- ends _ (match ?x with _ => _ end) => destruct x as [i gi] eqn:Ei end.
    destruct (i =? 0) eqn:Ez; [by apply ends_ok|]. apply Z.eqb_neq in Ez.
    destruct (s_load_items E true i its Ez W1 s1 gi) as (s2 & g2 & E2 & S2). { eapply inv_step; [done|by eapply eval_step]. }
    eapply ends_bind; [exact E2|]. by apply ends_ok.
  - intros k IH E t caught s g W H Hc. cbn [eval]. eapply IH; [apply W|done|done].
  - intros m k IH E t caught s g W H Hc. cbn [eval]. eapply IH; [apply W, vid_mk|done|done].
  - intros m k IH E t caught s g W H Hc. cbn [eval]. destruct (negb _); [eapply IH; [apply W, vid_mk|done|done]|]. unfold gnew. cbv beta zeta iota.
    eapply IH; [apply W, vid_mk|done|done].
  - (* PTHA *) intros p IH hs IHh E t caught s g ((tb & W1) & W2 & W3) H Hc. cbn [eval].
    assert (NoDup (deduce G hs)) as Hnd by apply deduce_nodup. destruct (s_born E _ _ Hnd H) as [H0 Hi]. destruct (s_enter E _ _ Hnd H) as (s1 & Ea & H1).
    change (m_new MS (deduce G hs) (fst (s, g))) with (snc s, born (deduce G hs) s). cbv beta iota.
    eapply ends_bind; [unfold on_mem; cbn [fst snd]; eapply rb_ok; [exact Ea|reflexivity]|].
    destruct (IH _ _ _ s1 g W1 H1 Hc) as (o & s2 & g2 & E2 & Ho). cbn [fst snd]. eapply ends_bind; [exact E2|].
    pose proof (eval_step _ _ _ _ _ _ _ _ H1 E2) as S2. pose proof (inv_step _ _ _ H1 S2) as H2.
    assert (exists o3 s3 g3, (match o with ORet r => unload_ret MS r (s2, g2) | OThrow x => Ok (OThrow x, (s2, g2)) end) = Ok (o3, (s3, g3)) /\ step s2 s3 /\ vout tb o3)
      as (o3 & s3 & g3 & E3 & S3 & Ho3).
    { destruct o as [r|x]; [|eexists _, _, _; split; [reflexivity|]; split; [by eapply step_refl|done]].
      destruct (s_unload_ret _ tb r s2 g2 H2 Ho) as (? & ? & ? & ? & ? & ? & ?). eauto 10. }
    eapply ends_bind; [destruct o; exact E3|]. clear E3 Ho. clear E2 o. pose proof (step_trans _ _ _ S2 S3) as S4. pose proof (inv_step _ _ _ H2 S3) as H3.
    destruct o3 as [r|x].
    + destruct (is_val r) eqn:Hv.
      * destruct (s_deact_leave E (snc s) (ORet r) _ _ _ g3 H0 Hi Ea S4) as [s' Hl]. exists (ORet r), s', g3. split; [exact Hl|]. by destruct r.
      * eapply (s_res_part E _ (snc s) r _ _ s3 g3 t TyVal tb hs caught (tha_end MS) (fun _ _ => Fail IllTyped)); [| |by left|exact H0|exact Hi|exact Ea|exact S4|exact H3|exact Ho3|exact Hv].
        -- intros. by eapply s_tha_end.
        -- intros ei d s5 g5 ? ? ? En ?. eapply IHh; eauto; by rewrite En.
    + eapply (s_exn_part E (snc s) x _ _ s3 g3 t TyVal hs (tha_end MS)); [| |exact H0|exact Hi|exact Ea|exact S4|exact Ho3].
      * intros. by eapply s_tha_end.
      * intros ei d s5 g5 ? ? ? ?. eapply IHh; eauto; by apply cg_some.
  - (* PTHS *) intros p IH hs IHh E t caught s g (W1 & W2) H Hc. cbn [eval].
    assert (NoDup (deduce G hs)) as Hnd by apply deduce_nodup. destruct (s_born E _ _ Hnd H) as [H0 Hi]. destruct (s_enter E _ _ Hnd H) as (s1 & Ea & H1).
    change (m_new MS (deduce G hs) (fst (s, g))) with (snc s, born (deduce G hs) s). cbv beta iota.
    eapply ends_bind; [unfold on_mem; cbn [fst snd]; eapply rb_ok; [exact Ea|reflexivity]|].
    destruct (IH _ _ _ s1 g W1 H1 Hc) as (o & s2 & g2 & E2 & Ho). cbn [fst snd]. eapply ends_bind; [exact E2|].
    pose proof (eval_step _ _ _ _ _ _ _ _ H1 E2) as S2. pose proof (inv_step _ _ _ H1 S2) as H2.
    assert (exists o3 s3 g3, (match o with ORet r => unload_ret MS r (s2, g2) | OThrow x => Ok (OThrow x, (s2, g2)) end) = Ok (o3, (s3, g3)) /\ step s2 s3 /\ vout t o3)
      as (o3 & s3 & g3 & E3 & S3 & Ho3).
    { destruct o as [r|x]; [|eexists _, _, _; split; [reflexivity|]; split; [by eapply step_refl|done]].
      destruct (s_unload_ret _ t r s2 g2 H2 Ho) as (? & ? & ? & ? & ? & ? & ?). eauto 10. }
    eapply ends_bind; [destruct o; exact E3|]. clear E3 Ho. clear E2 o. pose proof (step_trans _ _ _ S2 S3) as S4. pose proof (inv_step _ _ _ H2 S3) as H3.
    destruct o3 as [r|x].
    + destruct (is_val r) eqn:Hv.
      * destruct (s_deact_leave E (snc s) (ORet r) _ _ _ g3 H0 Hi Ea S4) as [s' Hl]. exists (ORet r), s', g3. split; [exact Hl|]. by destruct r.
      * eapply (s_res_part E _ (snc s) r _ _ s3 g3 t t t hs caught (ths_end G MS) (fun r s => Ok (ORet r, s)));
          [| | |exact H0|exact Hi|exact Ea|exact S4|exact H3|exact Ho3|exact Hv].
        -- intros. by eapply s_ths_end.
        -- intros ei d s5 g5 ? ? ? En ?. eapply IHh; eauto; by rewrite En.
        -- right. intros r1 s5 g5 ? ?. eexists _, _, _. split; [reflexivity|]. split; [done|]. by eapply step_refl.
    + eapply (s_exn_part E (snc s) x _ _ s3 g3 t t hs (ths_end G MS)); [| |exact H0|exact Hi|exact Ea|exact S4|exact Ho3].
      * intros. by eapply s_ths_end.
      * intros ei d s5 g5 ? ? ? ?. eapply IHh; eauto; by apply cg_some.
  - (* PTC *) intros p IH hs IHh E t caught s g (W1 & W2) H Hc. cbn [eval].
    assert (NoDup (deduce G hs)) as Hnd by apply deduce_nodup. destruct (s_born E _ _ Hnd H) as [H0 Hi]. destruct (s_enter E _ _ Hnd H) as (s1 & Ea & H1).
    change (m_new MS (deduce G hs) (fst (s, g))) with (snc s, born (deduce G hs) s). cbv beta iota.
    eapply ends_bind; [unfold on_mem; cbn [fst snd]; eapply rb_ok; [exact Ea|reflexivity]|].
    destruct (IH _ _ _ s1 g W1 H1 Hc) as (o & s2 & g2 & E2 & Ho). cbn [fst snd]. eapply ends_bind; [exact E2|].
    pose proof (eval_step _ _ _ _ _ _ _ _ H1 E2) as S2. destruct o as [r|x].
    + destruct (s_deact_leave E (snc s) (ORet r) _ _ _ g2 H0 Hi Ea S2) as [s' Hl]. exists (ORet r), s', g2. by split.
    + eapply (s_exn_part (in_catch E) (snc s) x _ _ s2 g2 t t hs (leave MS)); [| |by apply inv_catch|exact Hi|exact Ea|exact S2|exact Ho].
      * intros. by eapply s_leave_end.
      * intros ei d s5 g5 ? ? ? ?. eapply IHh; eauto; by apply cg_catch.
  - (* PCapture *) intros isvoid p IH E t caught s g (-> & Wc & -> & W1) H Hc. cbn [eval]. rewrite Wc. cbn [negb].
    assert (NoDup [SDA]) as Hnd by (repeat constructor; set_solver). destruct (s_born E _ _ Hnd H) as [H0 Hi]. destruct (s_enter E _ _ Hnd H) as (s1 & Ea & H1).
    change (m_new MS [SDA] (fst (s, g))) with (snc s, born [SDA] s). cbv beta iota.
    eapply ends_bind; [unfold on_mem; cbn [fst snd]; eapply rb_ok; [exact Ea|reflexivity]|].
    destruct (IH _ _ _ s1 g W1 H1 Hc) as (o & s2 & g2 & E2 & Ho). cbn [fst snd]. eapply ends_bind; [exact E2|].
    pose proof (eval_step _ _ _ _ _ _ _ _ H1 E2) as S2.
    assert (forall id b ex g5 (s3 : smem), sdeact (snc s) s2 = Ok s3 -> vid id -> voexn ex ->
      ends TyLeaf (let! lm := m_extract MS (snc s) id b s3 in leave MS (snc s) (ORet (RCap id (fst lm) ex)) (snd lm, g5))) as Hfin.
    { intros id b ex g5 s3 Hd Hid Hex. destruct (s_deact E _ _ _ _ H0 Ea S2) as (s3' & Hd' & S3). rewrite Hd in Hd'. injection Hd' as <-.
      pose proof (inv_step _ _ _ H0 S3) as H3. destruct (idle_step _ _ _ _ H0 Hi S3) as [Hn [a Ha]].
      assert (has_d a = true) as Hda.
      { destruct (sm_tup _ _ (wb_same _ _ (proj1 S3) (inv_wf _ _ H0)) (snc s) (ACtx [SDA] ∅ None)) as (a' & Ha' & Et); [unfold born; simpl; by rewrite lookup_insert|].
        simplify_eq. unfold has_d. rewrite Et. apply bool_decide_eq_true. constructor. }
      assert (ok_at (snc s) s3) as Hok.
      { pose proof (sact_stack _ _ _ Ea) as (Est & Eax & _). apply sdeact_inv in Hd as (Es2 & Ex2 & _). intros a' q Ha' Hq. rewrite Ex2 in Ha'.
        eapply (i_ok _ _ (inv_step _ _ _ H1 S2) (snc s)); eauto. rewrite Es2. constructor. }
      assert (exists l s4, sextract (snc s) id b s3 = Ok (l, s4)) as (l & s4 & Ee).
      { unfold sextract. rewrite Ha, Hda, bool_decide_false by done. simpl. unfold sassert. rewrite (proj2 (nz_true id)) by (by apply vid_nz). simpl.
        destruct (ac_coll a) as [q|] eqn:Hq; [|eauto]. destruct (q_key q =? id); [|eauto]. rewrite (Hok _ _ Ha Hq), andb_false_r. eauto. }
      eapply ends_bind; [exact Ee|]. cbn [fst snd].
      assert (step s3 s4) as S4.
      { split; [apply wb_atom; by eapply sextract_atom|]. destruct (i_R _ _ H3) as [m3 HR3].
        destruct (sim_ok _ _ _ _ (sim_extract G0 (snc s) id b m3 s3 HR3) Ee) as ([l' m4] & _ & _ & HR4). eauto. }
      destruct (s_leave E (snc s) (ORet (RCap id l ex)) s4 g5 (inv_step _ _ _ H3 S4) (idle_step _ _ _ _ H3 (conj Hn (mk_is_Some _ _ Ha)) S4)) as [s' Hl].
      exists (ORet (RCap id l ex)), s', g5. split; [exact Hl|]. by split. }
    destruct (s_deact E _ _ _ _ H0 Ea S2) as (s3 & Hd & S3). destruct o as [r|x].
    + destruct r as [z|id|id l x|cat v]; [| | |by destruct Ho].
      * destruct (s_deact_leave E (snc s) (ORet (RVal z)) _ _ _ g2 H0 Hi Ea S2) as [s' Hl]. exists (ORet (RVal z)), s', g2. by split.
      * eapply ends_bind; [unfold on_mem; cbn [fst snd]; eapply rb_ok; [exact Hd|reflexivity]|]. cbn [fst snd]. apply Hfin; [done|apply vid_mk|apply Hc].
      * eapply ends_bind; [unfold on_mem; cbn [fst snd]; eapply rb_ok; [exact Hd|reflexivity]|]. cbn [fst snd]. apply Hfin; [done|apply vid_mk|apply Hc].
    + eapply ends_bind; [unfold on_mem; cbn [fst snd]; eapply rb_ok; [exact Hd|reflexivity]|]. cbn [fst snd].
      destruct (catch_info x g2) as [[id ex] g3] eqn:Hci. destruct (catch_info_ok _ _ _ _ _ Ho Hci) as [Hid _]. apply Hfin; [done|done|]. by intros ? [= <-].
  - intros r k IH E t caught s g [W1 W2] H Hc. cbn [eval]. destruct (s_unload_ret E TyLeaf r s g H W1) as (o & s1 & g1 & E1 & S1 & Ho & Hr).
    eapply ends_bind; [exact E1|]. destruct o as [r1|x]; [|by apply ends_ok]. eapply IH; [|by eapply inv_step|done]. by rewrite (Hr _ eq_refl).
  - intros r k IH E t caught s g [W1 W2] H Hc. cbn [eval].
    assert (forall id, r = RErr id \/ (exists l x, r = RCap id l x) -> ends t (let! os := unload_ret MS r (s, g) in
      match os with (ORet _, s1) => Ok (throw_leaf MS (mk id) (XSpec true [T_STDEX; T_BADRES] 0 None None) s1) | (OThrow x, s1) => Ok (OThrow x, s1) end)) as HH.
    { intros id _. destruct (s_unload_ret E TyLeaf r s g H W1) as (o & s1 & g1 & E1 & S1 & Ho & _). eapply ends_bind; [exact E1|].
      destruct o as [r1|x]; [|by apply ends_ok]. unfold throw_leaf. apply ends_ok. split; [|done]. intros ? [= <-]. apply vid_mk. }
    destruct r as [z|id|id l x|cat v]; [eapply IH; [by apply W2|done|done]| | |by destruct W1]; apply HH; eauto.
  - intros r k IH E t caught s g [(t' & W1) W2] H Hc. cbn [eval]. destruct (s_err_id E t' r s g H W1) as (id & s1 & g1 & E1 & S1 & Hid).
    eapply ends_bind; [exact E1|]. cbn [fst snd]. eapply IH; [by apply W2|by eapply inv_step|done].
  - intros cls p IH E t caught s g [-> W2] H Hc. cbn [eval]. destruct (IH _ _ _ s g W2 H Hc) as (o & s1 & g1 & E1 & Ho).
    eapply ends_bind; [exact E1|]. destruct o as [r|x]; [by apply ends_ok|]. unfold e2r, gnew. cbv beta zeta iota. cbn [fst snd].
    assert (Inv E s1) as H1. { eapply inv_step; [done|by eapply eval_step]. }
    match goal with |- ends _ (rbind (id_load _ ?i ?its (_, ?g)) _) => destruct (s_id_load E i its s1 g) as (s2 & g2 & E2 & S2); [|done|] end.
    { constructor; [done|]. destruct (x_std x); [|constructor]. unfold slices. apply Forall_forall. intros it Hin. apply elem_of_list_fmap in Hin as (? & -> & _). done. }
    eapply ends_bind; [exact E2|]. by apply ends_ok.
  - intros cat v k IH E t caught s g [W1 W2] H Hc. cbn [eval]. destruct (s_import E cat v s g H W1) as (id & s1 & g1 & E1 & S1 & Hid).
    eapply ends_bind; [exact E1|]. cbn [fst snd]. eapply IH; [by apply W2|by eapply inv_step|done].
  - (* PCtx *) intros tup k IH E t caught s g [W1 W2] H Hc. cbn [eval].
    assert (NoDup (deduce_list G tup)) as Hnd by apply deduce_list_nodup. destruct (s_born E _ _ Hnd H) as [H0 Hi].
    change (m_new MS (deduce_list G tup) (fst (s, g))) with (snc s, born (deduce_list G tup) s). cbv beta iota. cbn [fst snd].
    assert (snc s ∉ (e_live E).*1) as Hfr.
    { intros Hin. apply elem_of_list_fmap in Hin as ([c' tup'] & E1 & Hin). simpl in E1.
      destruct (i_live _ _ H _ _ Hin) as (_ & a & Ha & _). destruct (wf_fresh _ (inv_wf _ _ H)) as [Hn _]. congruence. }
    destruct (IH (snc s) (in_ctx (snc s) (deduce_list G tup) E) t caught (born (deduce_list G tup) s) g) as (o & s1 & g1 & E1 & Ho).
    + by apply W2.
    + pose proof H0 as []. split; auto.
      * intros c' tup' [Heq|Hin]%elem_of_cons; [|by apply i_live0]. injection Heq as -> ->. split; [done|].
        exists (ACtx (deduce_list G tup) ∅ None). split; [unfold born; simpl; by rewrite lookup_insert|done].
      * intros c' tup' [Heq|Hin]%elem_of_cons; [|by eapply i_act0]. injection Heq as -> ->. simpl. destruct Hi as [Hi _]. split; [done|]. intros Hin.
        exfalso. apply Hfr. by apply i_sub0.
      * intros c' Hin. simpl. right. by apply i_sub0.
    + exact Hc.
    + eapply ends_bind; [exact E1|]. cbn [fst snd]. assert (step (born (deduce_list G tup) s) s1) as S1 by (by eapply eval_step).
      destruct (s_leave E (snc s) o s1 g1 (inv_step _ _ _ H0 S1) (idle_step _ _ _ _ H0 Hi S1)) as [s' Hl]. exists o, s', g1. by split.
  - (* PAct *) intros c p IH E t caught s g (tup & W1 & W2) H Hc. cbn [eval]. cbn [fst snd]. destruct (i_live _ _ H _ _ W1) as (Hsd & a & Ha & Et).
    eapply ends_bind; [change (m_isact MS c s) with (sisact c s); unfold sisact; rewrite Ha; reflexivity|].
    case_bool_decide as Hin.
    + pose proof H as []. eapply IH; [exact W2| |exact Hc]. split; auto.
      * intros c' tup' Hl. simpl. rewrite elem_of_cons. rewrite (i_act0 _ _ Hl). split; [auto|]. intros [->|?]; [|done]. by eapply i_act0.
      * simpl. intros c' [->|?]%elem_of_cons; [|by apply i_sub0]. apply elem_of_list_fmap. by exists (c, tup).
      * simpl. intros T [HT|HT]%elem_of_app; [|by apply i_srv0]. apply elem_types in HT. exists c, a. by rewrite Et.
      * simpl. intros [? _]%orb_false_iff. by apply i_col0.
    + destruct (i_R _ _ H) as [m HR]. pose proof (R_awf _ _ _ _ HR Ha) as Hw.
      destruct (s_act E (in_act c tup E) c s a H Hin Ha) as (s1 & Ea & H1).
      * apply (aw_nocoll _ Hw). by rewrite Et.
      * done.
      * intros c'. simpl. rewrite elem_of_cons. split; [|naive_solver]. intros [->|?]; [|auto]. right. split; [done|]. apply elem_of_list_fmap. by exists (c, tup).
      * simpl. by rewrite Et.
      * simpl. rewrite Et, bool_decide_false by done. rewrite orb_false_r. auto.
      * eapply ends_bind; [unfold on_mem; cbn [fst snd]; eapply rb_ok; [exact Ea|reflexivity]|]. cbn [fst snd].
        destruct (IH _ _ _ s1 g W2 H1 Hc) as (o & s2 & g2 & E2 & Ho). eapply ends_bind; [exact E2|]. cbn [fst snd].
        pose proof (eval_step _ _ _ _ _ _ _ _ H1 E2) as S2. destruct (s_deact E c s s1 s2 H Ea S2) as (s3 & Hd & S3).
        pose proof (sdeact_inv _ _ _ Hd) as (Es & Eax & _). pose proof (wb_same _ _ (proj1 S2) (inv_wf _ _ H1)) as Hs.
        pose proof (sact_stack _ _ _ Ea) as (_ & Eax1 & _). destruct (sm_tup _ _ Hs c a) as (a2 & Ha2 & _); [by rewrite Eax1|].
        eapply ends_bind; [change (m_isact MS c s2) with (sisact c s2); unfold sisact; rewrite Ha2, bool_decide_true; [reflexivity|rewrite Es; constructor]|].
        cbv iota. eapply ends_bind; [unfold on_mem; cbn [fst snd]; eapply rb_ok; [exact Hd|reflexivity]|]. by apply ends_ok.
  - intros c id k IH E t caught s g (W1 & W2 & W3 & W4) H Hc. cbn [eval]. cbn [fst snd].
    destruct (s_unload E c id s g H (inv_idle _ _ _ H W1 W2) (vid_nz _ W3)) as (s1 & g1 & E1 & S1). eapply ends_bind; [exact E1|].
    eapply IH; [done|by eapply inv_step|done].
  - intros c id hs IH E t caught s g (W1 & W2 & W3 & W4 & W5) H Hc. cbn [eval]. cbn [fst snd]. pose proof (inv_idle _ _ _ H W1 W2) as Hi. pose proof Hi as [Hn [a Ha]].
    eapply ends_bind; [change (m_isact MS c s) with (sisact c s); unfold sisact; rewrite Ha, bool_decide_false by done; reflexivity|].
    eapply ends_bind; [by apply assert_ok|]. destruct (s_get c T_LOC id s (mk_is_Some _ _ Ha) (vid_nz _ W3)) as [loc Hl].
    eapply ends_bind; [exact Hl|]. destruct (IH E t caught c (EInfo id None loc) (fun _ => Fail IllTyped) s g W4 H Hc Hi) as (o & s' & g' & E' & Ho & _); [|done|by left|].
    + split; [done|]. by intros ? ?.
    + exists o, s', g'. done.
  - intros E t caught c ei d s g _ H Hc Hi Hei Hex [Hd|Hd]; [by apply Exists_nil in Hd|]. exact Hd.
  - intros args w b IHb rest IH E t caught c ei d s g [W1 W2] H Hc Hi Hei Hex Hd. cbn [evalH].
    destruct (s_args args c ei s (proj2 Hi) Hei) as (o & Eo & H1 & H2). destruct o as [l|].
    + destruct (H1 _ eq_refl) as [Hl Hx]. set (E' := if existsb takes_exn args then in_catch E else E) in *.
      destruct (s_set_all E c (ei_id ei) (writes args (w l)) s H Hi) as (s1 & Es & S1). pose proof (inv_step _ _ _ H S1) as H1'.
      assert (fine_run t s1 (eval G MS caught (b l) (s1, g))) as Hf.
      { assert (Inv E' s1) as H'. { unfold E'. destruct (existsb _ _); [by apply inv_catch|done]. }
        eapply fine_intro; [exact H'|]. eapply IHb; [by apply W1|done|].
        unfold E'. destruct (existsb _ _); [|done]. split; [apply Hc|]. auto. }
      destruct Hf as (o & s' & g' & E1 & Ho & S2). exists o, s', g'. split; [|split; [done|by eapply step_trans]]. eapply rb_ok; [exact Eo|].
      eapply rb_ok; [exact Es|exact E1].
    + destruct (IH E t caught c ei d s g W2 H Hc Hi Hei Hex) as (o & s' & g' & E1 & ? & ?).
      { destruct Hd as [Hd|Hd]; [|by right]. left. apply complete_cons in Hd as [Hd|Hd]; [by apply H2 in Hd|done]. }
      exists o, s', g'. split; [|done]. eapply rb_ok; [exact Eo|exact E1].
  - intros hs IH rest IHr E t caught c ei d s g [W1 W2] H Hc Hi Hei Hex Hd. cbn [evalH]. eapply IH; eauto.
    destruct Hd as [Hd|Hd]; [apply complete_tup in Hd as [Hd|Hd]; [by left|]|]; right; eapply IHr; eauto.
Qed.
End G.
