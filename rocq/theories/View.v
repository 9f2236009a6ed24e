(** What can be seen of the storage in the library's memory, and how it follows from the stack machine's state. *)
From Verif Require Export Frame PropsSim.
Open Scope Z_scope.

(** The run of a program by the library, and by the stack machine. *)
Notation lib_run G caught p m g o m' g' := (eval G (pmach G) caught p (m, g) = Ok (o, (m', g'))).
Notation spec_run G caught p s g o s' g' := (eval (asserts_on G) (smach (asserts_on G)) caught p (s, g) = Ok (o, (s', g'))).

(** The object of type T a context holds, with the error it belongs to: the contents of its slot<T>, or of the node it
    collected dynamically. *)
Definition held (m : mem) (c : cid) (T : ety) : option (Z * val) :=
  match caddr m c T with
  | Some ad => match hp m !! ad with
               | Some sl => if e_key sl =? 0 then None else Some (e_key sl, e_val sl)
               | None => None
               end
  | None => None
  end.

(** The next load of an object of type T goes to a slot of context c. *)
Definition serves (m : mem) (T : ety) (c : cid) : Prop := exists ad, tls m !! T = Some ad /\ caddr m c T = Some ad.

(** Slots the library can reach by following pointers, starting from its thread-local pointers. *)
Inductive reach (m : mem) (T : ety) : addr -> Prop :=
| reach_top ad : tls m !! T = Some ad -> reach m T ad
| reach_prev ad sl ad' : reach m T ad -> hp m !! ad = Some sl -> e_prev sl = Some ad' -> reach m T ad'.

Lemma cellR_held sl o : cellR sl o -> (if e_key sl =? 0 then None else Some (e_key sl, e_val sl)) = o.
Proof.
  destruct o as [[k v]|]; simpl.
  - intros (H & -> & ->). by rewrite (proj2 (Z.eqb_neq k 0)).
  - by intros ->.
Qed.

Lemma R_held m s c a T : R m s -> actxs s !! c = Some a -> held m c T = get_e T a.
Proof.
  intros HR Ha. destruct (R_look _ _ _ _ HR Ha) as (k & Hk & Hc). pose proof (caddr_spec _ _ _ _ _ T Hk Hc) as H.
  unfold held. destruct (has_e T a) eqn:He.
  - destruct H as (ad & sl & -> & -> & H). by apply cellR_held.
  - rewrite H. rewrite has_e_alt in He. apply orb_false_iff in He as [_ He]. apply bool_decide_eq_false in He.
    destruct (get_e T a); [|done]. exfalso. apply He. eauto.
Qed.

Lemma R_ctxs m s c : R m s -> ctxs m !! c = (fun a => CCtx (ac_tup a) (bool_decide (c ∈ stack s))) <$> actxs s !! c.
Proof.
  intros HR. destruct (actxs s !! c) as [a|] eqn:Ha; simpl.
  - destruct (R_look _ _ _ _ HR Ha) as (k & -> & Hc). destruct Hc. destruct k. simpl in *. by subst.
  - by eapply R_look_none.
Qed.

Lemma R_tlsd_find m s : R m s -> tlsd m = fst <$> find_d s.
Proof. intros HR. pose proof (find_d_R _ _ HR) as H. destruct (find_d s) as [[c a]|]; [|done]. by destruct H as (_ & _ & _ & -> & _). Qed.

Lemma caddr_has m s T c ad : R m s -> caddr m c T = Some ad -> hasT T c s = true.
Proof.
  intros HR H. unfold hasT. destruct (actxs s !! c) as [a|] eqn:Ha.
  - destruct (R_look _ _ _ _ HR Ha) as (k & Hk & Hc). pose proof (caddr_spec _ _ _ _ _ T Hk Hc) as Hs. destruct (has_e T a); congruence.
  - unfold caddr in H. by rewrite (R_look_none _ _ _ HR Ha) in H.
Qed.

Lemma caddr_inj m s T c1 c2 ad : R m s -> caddr m c1 T = Some ad -> caddr m c2 T = Some ad -> c1 = c2.
Proof.
  intros HR. unfold caddr. destruct (ctxs m !! c1) as [k1|]; [|done]. destruct (ctxs m !! c2) as [k2|]; [|done].
  repeat case_bool_decide; intros; simplify_eq; auto.
  - destruct (dhp m !! c2) as [d|]; [|done]. by destruct (node_at T (d_nodes d)).
  - destruct (dhp m !! c1) as [d|]; [|done]. by destruct (node_at T (d_nodes d)).
  - destruct (dhp m !! c1) as [d1|] eqn:E1; [|done]. destruct (dhp m !! c2) as [d2|] eqn:E2; [|done].
    destruct (node_at T (d_nodes d1)) as [n1|] eqn:N1; simplify_eq/=. destruct (node_at T (d_nodes d2)) as [n2|] eqn:N2; simplify_eq/=.
    eapply (R_own _ _ HR); eauto; apply elem_of_list_fmap; [exists (T, n1)|exists (T, n1)]; split; auto; by apply node_at_in.
Qed.

Lemma R_serves m s T c : R m s -> serves m T c <-> fst <$> find_e T s = Some c.
Proof.
  intros HR. pose proof (find_e_R _ _ T HR) as H. unfold serves. destruct (find_e T s) as [[c1 a]|]; simpl.
  - destruct H as (_ & _ & _ & ad & sl & H1 & H2 & _). split.
    + intros (ad' & H3 & H4). f_equal. rewrite H1 in H3. simplify_eq. eapply caddr_inj; eauto.
    + intros. simplify_eq. eauto.
  - split; [intros (ad & ? & _); congruence|done].
Qed.

Lemma linked_app m T l1 l2 : linked m T (l1 ++ l2) -> linked m T l2.
Proof. induction l1; simpl; auto. intros [_ ?]. auto. Qed.
Lemma chead_split m T l ad : chead m T l = Some ad -> exists l1 c l2, l = l1 ++ c :: l2 /\ caddr m c T = Some ad.
Proof.
  induction l as [|c l IH]; simpl; [done|]. destruct (caddr m c T) as [a|] eqn:E.
  - intros. simplify_eq. by exists [], c, l.
  - intros H. destruct (IH H) as (l1 & c1 & l2 & -> & ?). by exists (c :: l1), c1, l2.
Qed.
Lemma R_reach m s T ad : R m s -> reach m T ad -> exists l1 c l2, stack s = l1 ++ c :: l2 /\ caddr m c T = Some ad.
Proof.
  intros HR. induction 1 as [ad H|ad sl ad' H IH H1 H2].
  - rewrite (R_tls _ _ HR) in H. by apply chead_split.
  - destruct IH as (l1 & c & l2 & E & Hc). pose proof (R_lnk _ _ HR T) as HL. rewrite E in HL. apply linked_app in HL as [HL _].
    destruct (HL _ Hc) as (sl' & H3 & H4). simplify_eq. rewrite H4 in H2. apply chead_split in H2 as (l3 & c' & l4 & -> & Hc').
    exists (l1 ++ c :: l3), c', l4. split; auto. rewrite E. by rewrite <- app_assoc.
Qed.

Lemma R_hp m s c T ad : R m s -> caddr m c T = Some ad -> is_Some (hp m !! ad).
Proof.
  intros HR H. destruct (actxs s !! c) as [a|] eqn:Ha.
  - destruct (R_look _ _ _ _ HR Ha) as (k & Hk & Hc). pose proof (caddr_spec _ _ _ _ _ T Hk Hc) as Hs.
    destruct (has_e T a); [|congruence]. destruct Hs as (ad' & sl & H1 & H2 & _). simplify_eq. eauto.
  - unfold caddr in H. by rewrite (R_look_none _ _ _ HR Ha) in H.
Qed.
