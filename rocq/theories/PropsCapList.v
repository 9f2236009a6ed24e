(** C41: capture lists keep every node exactly once, in order. *)
From Verif Require Export CapList.
Open Scope Z_scope.

(** ** Specification: a list object is a sequence of objects, possibly followed by an exception. *)
Record alist := AList { a_da : bool; a_stale : bool; a_objs : list Z; a_exn : option Z }.
Notation alists := (gmap nat alist).
Definition payloads (a : alist) : list Z := a_objs a ++ match a_exn a with Some z => [z] | None => [] end.

(** Allowed: what works on an object that exists; creating one that does not. Left out (see the refutations below): an append during which
    copying the object throws, and operations that use last_ ([a_stale]) after the dynamic_allocator was unloaded while it had nodes. *)
Definition lallowed (op : lop) (A : alists) : Prop :=
  match op with
  | LNewDA l => A !! l = None
  | LAppend l _ throws => throws = false /\ exists a, A !! l = Some a /\ a_da a = true /\ a_stale a = false
  | LMoveDA l' l => A !! l' = None /\ exists a, A !! l = Some a /\ a_da a = true /\ a_stale a = false
  | LMove l' l => A !! l' = None /\ exists a, A !! l = Some a /\ a_da a = false
  | LExtract l' l ex => A !! l' = None /\ exists a, A !! l = Some a /\ a_da a = true /\ (ex = None \/ a_stale a = false)
  | LUnload l | LWalk l | LDestroy l => is_Some (A !! l)
  end.
Definition leffect (op : lop) (A : alists) : alists :=
  match op with
  | LNewDA l => <[l := AList true false [] None]> A
  | LAppend l pay _ => alter (fun a => AList true false (a_objs a ++ [pay]) None) l A
  | LMoveDA l' l => match A !! l with Some a => <[l := AList true false [] None]> (<[l' := a]> A) | None => A end
  | LMove l' l => match A !! l with Some a => <[l := AList false false [] None]> (<[l' := a]> A) | None => A end
  | LExtract l' l ex => match A !! l with Some a => <[l := AList true false [] None]> (<[l' := AList false false (a_objs a) ex]> A) | None => A end
  | LUnload l => alter (fun a => AList (a_da a) (a_da a && (a_stale a || negb (bool_decide (a_objs a = [])))) [] None) l A
  | LWalk _ => A
  | LDestroy l => delete l A
  end.
(** What the operation goes through, in this order *)
Definition lseen (op : lop) (A : alists) : list Z :=
  match op with LUnload l | LWalk l => match A !! l with Some a => payloads a | None => [] end | _ => [] end.

(** ** Proof *)
Definition entries (a : alist) : list (Z * bool) := map (fun z => (z, false)) (a_objs a) ++ match a_exn a with Some z => [(z, true)] | None => [] end.
Fixpoint chain (h : gmap nat lnode) (p : option nat) (ids : list nat) (es : list (Z * bool)) : Prop :=
  match ids, es with
  | [], [] => p = None
  | n :: ids', (z, b) :: es' => p = Some n /\ exists nx, h !! n = Some (LNode nx z b) /\ chain h nx ids' es'
  | _, _ => False
  end.
Definition last_loc (l : nat) (ids : list nat) : ploc := match last ids with Some n => LNext n | None => LFirst l end.

Record linv (A : alists) (s : lstate) (own : nat -> list nat) : Prop := {
  w_none : forall l, s_lists s !! l = None <-> A !! l = None;
  w_own_none : forall l, A !! l = None -> own l = [];
  w_list : forall l a x, A !! l = Some a -> s_lists s !! l = Some x ->
     chain (s_heap s) (l_first x) (own l) (entries a) /\
     (if a_da a then a_exn a = None /\ (exists p, l_last x = Some p /\ (a_stale a = false -> p = last_loc l (own l))) else l_last x = None /\ a_stale a = false);
  w_nodup : forall l, NoDup (own l);
  w_disj : forall l l' n, n ∈ own l -> n ∈ own l' -> l = l';
  w_dom : forall n, is_Some (s_heap s !! n) <-> exists l, n ∈ own l;
  w_fresh : forall n, is_Some (s_heap s !! n) -> (n < s_made s)%nat;
  w_count : s_made s = (s_freed s + size (s_heap s))%nat }.

Lemma chain_length h p ids es : chain h p ids es -> length ids = length es.
Proof. revert p es. induction ids as [|n ids IH]; intros p [|[z b] es]; simpl; try done. intros (_ & nx & _ & H). f_equal. by eapply IH. Qed.
Lemma chain_ext h h' p ids es : (forall n, n ∈ ids -> h' !! n = h !! n) -> chain h p ids es -> chain h' p ids es.
Proof.
  revert p es. induction ids as [|n ids IH]; intros p [|[z b] es] Hh; simpl; try done. intros (-> & nx & Hn & H). split; [done|]. exists nx.
  split; [rewrite Hh; [done|constructor]|]. apply IH; [|done]. intros. apply Hh. by constructor.
Qed.
Lemma chain_alive h p ids es n : chain h p ids es -> n ∈ ids -> is_Some (h !! n).
Proof.
  revert p es. induction ids as [|m ids IH]; intros p [|[z b] es]; simpl; try done; [by intros _ ?%elem_of_nil|]. intros (-> & nx & Hn & H).
  intros [->|Hin]%elem_of_cons; [eauto|]. by eapply IH.
Qed.
(** appending at the end *)
Lemma chain_app h p ids es n z b : chain h p ids es -> NoDup ids -> n ∉ ids -> h !! n = Some (LNode None z b) ->
  forall k, last ids = Some k -> forall xk, h !! k = Some xk ->
  chain (<[k := LNode (Some n) (n_pay xk) (n_exn xk)]> h) p (ids ++ [n]) (es ++ [(z, b)]).
Proof.
  revert p es. induction ids as [|m ids IH]; intros p [|[z1 b1] es]; simpl; try done. intros (-> & nx & Hm & H) [Hn1 Hnd]%NoDup_cons [Hne Hni]%not_elem_of_cons Hn k Hk xk Hxk.
  split; [done|]. destruct ids as [|m2 ids].
  - simpl in Hk. injection Hk as <-. destruct es; [|done]. simpl. rewrite Hm in Hxk. injection Hxk as <-. simpl. exists (Some n). rewrite lookup_insert. split; [done|].
    split; [done|]. exists None. rewrite lookup_insert_ne by done. done.
  - exists nx. assert (k <> m). { intros ->. apply Hn1. change (last (m2 :: ids) = Some m) in Hk. apply last_Some in Hk as [l' ->]. apply elem_of_app. right. constructor. }
    rewrite lookup_insert_ne by done. split; [done|]. apply IH; try done.
Qed.
Lemma visit_ok unl h p objs ex ids fuel : chain h p ids (map (fun z => (z, false)) objs ++ match ex with Some z => [(z, true)] | None => [] end) -> (length ids <= fuel)%nat ->
  visit unl fuel p h = Some (objs ++ match ex with Some z => [z] | None => [] end, unl && match ex with Some _ => true | None => false end).
Proof.
  revert p ids fuel. induction objs as [|z objs IH]; intros p ids fuel; simpl.
  - destruct ex as [z|]; destruct ids as [|n ids]; simpl; try done.
    + intros (-> & nx & Hn & H) Hf. destruct fuel as [|f]; [lia|]. simpl. rewrite Hn. simpl. destruct ids; [|done]. simpl in H. subst nx. destruct unl; [done|]. by destruct f.
    + intros -> _. rewrite andb_false_r. by destruct fuel.
  - destruct ids as [|n ids]; simpl; [done|]. intros (-> & nx & Hn & H) Hf. destruct fuel as [|f]; [lia|]. simpl. rewrite Hn. simpl. rewrite andb_false_r, (IH _ _ f H) by lia. done.
Qed.
Definition remove_all (ids : list nat) (h : gmap nat lnode) : gmap nat lnode := foldl (fun h n => delete n h) h ids.
Lemma remove_lookup ids h n : remove_all ids h !! n = if decide (n ∈ ids) then None else h !! n.
Proof.
  revert h. induction ids as [|m ids IH]; intros h; [cbn [remove_all foldl]; rewrite decide_False; [done|by apply not_elem_of_nil]|].
  change (remove_all (m :: ids) h) with (remove_all ids (delete m h)). rewrite IH.
  destruct (decide (n ∈ ids)) as [Hi|Hi]; [rewrite decide_True; [done|by constructor]|]. destruct (decide (n = m)) as [->|Hn].
  - rewrite decide_True by constructor. apply lookup_delete.
  - rewrite lookup_delete_ne by done. rewrite decide_False; [done|]. by apply not_elem_of_cons.
Qed.
Lemma free_ok ids : forall h p es fuel k, chain h p ids es -> NoDup ids -> (length ids <= fuel)%nat ->
  free fuel p h k = Some (remove_all ids h, k + length ids)%nat /\ size h = (length ids + size (remove_all ids h))%nat.
Proof.
  induction ids as [|n ids IH]; intros h p [|[z b] es] fuel k; simpl; try done.
  - intros -> _ _. split; [|done]. rewrite Nat.add_0_r. by destruct fuel.
  - intros (-> & nx & Hn & H) [Hni Hnd]%NoDup_cons Hf. destruct fuel as [|f]; [lia|]. simpl. rewrite Hn. simpl.
    assert (chain (delete n h) nx ids es) as H'. { eapply chain_ext; [|exact H]. intros m Hm. rewrite lookup_delete_ne; [done|]. by intros <-. }
    destruct (IH _ _ _ f (S k) H' Hnd) as [-> E]; [lia|]. split; [do 2 f_equal; lia|]. rewrite <- E.
    rewrite <- (insert_delete h n _ Hn) at 1. rewrite map_size_insert_None by apply lookup_delete. done.
Qed.

Lemma inv_list A s own l a : linv A s own -> A !! l = Some a -> exists x, s_lists s !! l = Some x.
Proof. intros I H. destruct (s_lists s !! l) as [x|] eqn:E; [eauto|]. apply (w_none _ _ _ I) in E. congruence. Qed.
Lemma inv_fuel A s own l a x : linv A s own -> A !! l = Some a -> s_lists s !! l = Some x -> (length (own l) <= size (s_heap s))%nat.
Proof.
  intros I HA HS. destruct (w_list _ _ _ I _ _ _ HA HS) as [Hc _]. destruct (free_ok _ _ _ _ (length (own l)) 0%nat Hc (w_nodup _ _ _ I l)) as [_ E]; lia.
Qed.

Lemma alter_Some (f : alist -> alist) (A : alists) l a : A !! l = Some a -> alter f l A = <[l := f a]> A.
Proof. intros H. apply map_eq. intros k. destruct (decide (k = l)) as [->|Hk]; [by rewrite lookup_alter, H, lookup_insert|]. by rewrite lookup_alter_ne, lookup_insert_ne. Qed.
(** Changing only list objects: enough to know how they relate to the nodes. *)
Definition upd {X} (f : nat -> X) (l : nat) (x : X) : nat -> X := fun l' => if Nat.eqb l' l then x else f l'.
Lemma upd_same {X} (f : nat -> X) l x : upd f l x l = x.
Proof. unfold upd. by rewrite Nat.eqb_refl. Qed.
Lemma upd_ne {X} (f : nat -> X) l l' x : l' <> l -> upd f l x l' = f l'.
Proof. intros H. unfold upd. by rewrite (proj2 (Nat.eqb_neq _ _)). Qed.

(** the nodes of l go to l' *)
Lemma linv_transfer A s own l l' a x x' y y' : linv A s own -> l <> l' ->
  A !! l = Some a -> s_lists s !! l = Some x -> A !! l' = None ->
  forall a' b',
  entries a' = entries a -> l_first x' = l_first x ->
  (if a_da a' then a_exn a' = None /\ (exists p, l_last x' = Some p /\ (a_stale a' = false -> p = last_loc l' (own l))) else l_last x' = None /\ a_stale a' = false) ->
  entries b' = [] -> l_first y' = None ->
  (if a_da b' then a_exn b' = None /\ (exists p, l_last y' = Some p /\ (a_stale b' = false -> p = LFirst l)) else l_last y' = None /\ a_stale b' = false) ->
  y = y' ->
  linv (<[l := b']> (<[l' := a']> A)) (LState (s_heap s) (<[l := y']> (<[l' := x']> (s_lists s))) (s_made s) (s_freed s)) (upd (upd own l []) l' (own l)).
Proof.
  intros I Hne HA HS HA' a' b' Ea Ef Hl Eb Efb Hlb ->. pose proof (w_own_none _ _ _ I _ HA') as Ho'.
  destruct I as [W1 W2 W3 W4 W5 W6 W7 W8]. constructor; simpl.
  - intros l1. destruct (decide (l1 = l)) as [->|H1]; [rewrite !lookup_insert; naive_solver|]. rewrite !(lookup_insert_ne _ l) by done.
    destruct (decide (l1 = l')) as [->|H2]; [rewrite !lookup_insert; naive_solver|]. rewrite !lookup_insert_ne by done. apply W1.
  - intros l1. destruct (decide (l1 = l)) as [->|H1]; [by rewrite lookup_insert|]. rewrite (lookup_insert_ne _ l) by done.
    destruct (decide (l1 = l')) as [->|H2]; [by rewrite lookup_insert|]. rewrite lookup_insert_ne by done. rewrite !upd_ne by done. apply W2.
  - intros l1 a1 x1. destruct (decide (l1 = l)) as [->|H1].
    + rewrite !lookup_insert. intros [= <-] [= <-]. rewrite upd_ne, upd_same by done. rewrite Eb, Efb. simpl. split; [done|]. exact Hlb.
    + rewrite !(lookup_insert_ne _ l) by done. destruct (decide (l1 = l')) as [->|H2].
      * rewrite !lookup_insert. intros [= <-] [= <-]. rewrite upd_same, Ea, Ef. split; [|done]. by apply (W3 _ _ _ HA HS).
      * rewrite !lookup_insert_ne by done. rewrite !upd_ne by done. apply W3.
  - intros l1. unfold upd. destruct (Nat.eqb l1 l'); [done|]. destruct (Nat.eqb l1 l); [constructor|done].
  - intros l1 l2 n. unfold upd. destruct (Nat.eqb_spec l1 l') as [->|], (Nat.eqb_spec l2 l') as [->|]; try done.
    + destruct (Nat.eqb_spec l2 l) as [->|]; [by intros _ ?%elem_of_nil|]. intros H1 H2. destruct (W5 _ _ _ H1 H2). done.
    + destruct (Nat.eqb_spec l1 l) as [->|]; [by intros ?%elem_of_nil|]. intros H1 H2. destruct (W5 _ _ _ H1 H2). done.
    + destruct (Nat.eqb l1 l); [by intros ?%elem_of_nil|]. destruct (Nat.eqb l2 l); [by intros _ ?%elem_of_nil|]. apply W5.
  - intros n. rewrite W6. split.
    + intros [l1 Hl1]. destruct (decide (l1 = l)) as [->|H1]; [exists l'; by rewrite upd_same|]. exists l1. destruct (decide (l1 = l')) as [->|H2]; [rewrite Ho' in Hl1; by apply elem_of_nil in Hl1|].
      by rewrite !upd_ne.
    + intros [l1 Hl1]. unfold upd in Hl1. destruct (Nat.eqb l1 l'); [eauto|]. destruct (Nat.eqb l1 l); [by apply elem_of_nil in Hl1|eauto].
  - done.
  - done.
Qed.

(** the nodes of l go away; l is replaced or removed *)
Lemma linv_free A s own l a x : linv A s own -> A !! l = Some a -> s_lists s !! l = Some x ->
  forall (b' : option alist) (y' : option lobj),
  match b', y' with
  | Some b, Some y => entries b = [] /\ l_first y = None /\
     (if a_da b then a_exn b = None /\ (exists p, l_last y = Some p /\ (a_stale b = false -> p = LFirst l)) else l_last y = None /\ a_stale b = false)
  | None, None => True | _, _ => False end ->
  linv (match b' with Some b => <[l := b]> A | None => delete l A end)
    (LState (remove_all (own l) (s_heap s)) (match y' with Some y => <[l := y]> (s_lists s) | None => delete l (s_lists s) end) (s_made s) (s_freed s + length (own l)))
    (upd own l []).
Proof.
  intros I HA HS b' y' Hby. destruct (w_list _ _ _ I _ _ _ HA HS) as [Hc _].
  destruct (free_ok _ _ _ _ (length (own l)) 0%nat Hc (w_nodup _ _ _ I l)) as [_ Es]; [lia|].
  destruct I as [W1 W2 W3 W4 W5 W6 W7 W8].
  assert (forall l1, l1 <> l -> (match b' with Some b => <[l := b]> A | None => delete l A end) !! l1 = A !! l1) as HA1.
  { intros l1 H1. destruct b'; [by rewrite lookup_insert_ne|by rewrite lookup_delete_ne]. }
  assert (forall l1, l1 <> l -> (match y' with Some y => <[l := y]> (s_lists s) | None => delete l (s_lists s) end) !! l1 = s_lists s !! l1) as HS1.
  { intros l1 H1. destruct y'; [by rewrite lookup_insert_ne|by rewrite lookup_delete_ne]. }
  constructor; simpl.
  - intros l1. destruct (decide (l1 = l)) as [->|H1]; [|rewrite HA1, HS1 by done; apply W1].
    destruct b', y'; try done; rewrite ?lookup_insert, ?lookup_delete; naive_solver.
  - intros l1. destruct (decide (l1 = l)) as [->|H1]; [by rewrite upd_same|]. rewrite HA1, upd_ne by done. apply W2.
  - intros l1 a1 x1. destruct (decide (l1 = l)) as [->|H1].
    + destruct b', y'; try done; rewrite ?lookup_insert, ?lookup_delete; [|done]. intros [= <-] [= <-]. rewrite upd_same. destruct Hby as (-> & -> & H). by split.
    + rewrite HA1, HS1, upd_ne by done. intros Ha1 Hx1. destruct (W3 _ _ _ Ha1 Hx1) as [Hc1 Hl1]. split; [|done]. eapply chain_ext; [|exact Hc1].
      intros n Hn. rewrite remove_lookup, decide_False; [done|]. intros Hn'. destruct (W5 _ _ _ Hn Hn'). done.
  - intros l1. unfold upd. destruct (Nat.eqb l1 l); [constructor|done].
  - intros l1 l2 n. unfold upd. destruct (Nat.eqb l1 l); [by intros ?%elem_of_nil|]. destruct (Nat.eqb l2 l); [by intros _ ?%elem_of_nil|]. apply W5.
  - intros n. rewrite remove_lookup. split.
    + destruct (decide (n ∈ own l)) as [|Hn]; [by intros ?%is_Some_None|]. intros [l1 Hl1]%W6. exists l1. rewrite upd_ne; [done|]. by intros ->.
    + intros [l1 Hl1]. destruct (decide (l1 = l)) as [->|H1]; [rewrite upd_same in Hl1; by apply elem_of_nil in Hl1|]. rewrite upd_ne in Hl1 by done.
      rewrite decide_False; [apply W6; eauto|]. intros Hn. destruct (W5 _ _ _ Hn Hl1). done.
  - intros n. rewrite remove_lookup. destruct (decide _); [by intros ?%is_Some_None|]. apply W7.
  - lia.
Qed.

Lemma append_ok A s own l a pay ex : linv A s own -> A !! l = Some a -> a_da a = true -> a_stale a = false ->
  exists s' x', append l pay ex false s = LDone [] s' /\ s_lists s' !! l = Some x' /\ l_last x' = Some (LNext (s_made s)) /\
    (forall l1, l1 <> l -> s_lists s' !! l1 = s_lists s !! l1) /\
    chain (s_heap s') (l_first x') (own l ++ [s_made s]) (entries a ++ [(pay, ex)]) /\
    (forall l1, l1 <> l -> forall n, n ∈ own l1 -> s_heap s' !! n = s_heap s !! n) /\
    (forall n, is_Some (s_heap s' !! n) <-> n = s_made s \/ is_Some (s_heap s !! n)) /\
    s_made s' = S (s_made s) /\ s_freed s' = s_freed s /\ size (s_heap s') = S (size (s_heap s)).
Proof.
  intros I HA Hda Hst. destruct (inv_list _ _ _ _ _ I HA) as [x HS]. destruct (w_list _ _ _ I _ _ _ HA HS) as [Hc Hl]. rewrite Hda in Hl.
  destruct Hl as (_ & p & Hp & Hpl). specialize (Hpl Hst). subst p.
  assert (s_heap s !! s_made s = None) as Hfr. { apply eq_None_not_Some. intros H. apply (w_fresh _ _ _ I) in H. lia. }
  assert (forall n, n ∈ own l -> n <> s_made s) as Hni. { intros n Hn ->. destruct (chain_alive _ _ _ _ _ Hc Hn). congruence. }
  unfold append. destruct x as [f lst]. simpl in Hp. subst lst. rewrite HS. unfold last_loc in *. destruct (last (own l)) as [k|] eqn:Ek.
  - destruct (chain_alive _ _ _ _ k Hc) as [xk Hxk]. { apply last_Some in Ek as [l' ->]. apply elem_of_app. right. constructor. }
    assert (k <> s_made s) as Hkn by congruence. unfold assign. simpl. rewrite lookup_insert_ne, Hxk by done. simpl. rewrite HS. simpl.
    eexists _, _. split; [done|]. simpl. rewrite lookup_insert. split; [done|]. split; [done|]. split; [intros; by rewrite lookup_insert_ne|]. split; [|split; [|split; [|split; [|split]]]]; try done.
    + eapply chain_app; try done.
      * eapply chain_ext; [|exact Hc]. intros n Hn. rewrite lookup_insert_ne; [done|]. intros <-. by eapply Hni.
      * apply (w_nodup _ _ _ I).
      * intros Hn. by eapply Hni.
      * apply lookup_insert.
      * by rewrite lookup_insert_ne.
    + intros l1 Hl1 n Hn. rewrite lookup_insert_ne; [rewrite lookup_insert_ne; [done|]|].
      * intros <-. assert (is_Some (s_heap s !! s_made s)) as H by (apply (w_dom _ _ _ I); eauto). destruct H. congruence.
      * intros <-. apply Hl1. eapply (w_disj _ _ _ I); [exact Hn|]. apply last_Some in Ek as [l' ->]. apply elem_of_app. right. constructor.
    + intros n. rewrite !lookup_insert_is_Some. assert (is_Some (s_heap s !! k)) by eauto. destruct (decide (k = n)) as [->|]; [tauto|]. destruct (decide (s_made s = n)) as [->|]; [tauto|].
      split; [intros [?|[_ [?|[_ ?]]]]; try done; by right|]. intros [?|?]; [by subst|]. right. split; [done|]. by right.
    + rewrite map_size_insert. rewrite lookup_insert_ne, Hxk by done. simpl. by rewrite map_size_insert_None.
  - apply last_None in Ek. rewrite Ek in *. assert (entries a = []) as Ee. { apply chain_length in Hc. by destruct (entries a). }
    unfold assign. simpl. rewrite HS. simpl. rewrite lookup_insert. simpl. eexists _, _. split; [done|]. simpl. rewrite lookup_insert. split; [done|]. split; [done|].
    split; [intros; by rewrite !lookup_insert_ne|]. split; [|split; [|split; [|split; [|split]]]]; try done.
    + rewrite Ee. simpl. split; [done|]. exists None. by rewrite lookup_insert.
    + intros l1 Hl1 n Hn. rewrite lookup_insert_ne; [done|]. intros <-. assert (is_Some (s_heap s !! s_made s)) as H by (apply (w_dom _ _ _ I); eauto). destruct H. congruence.
    + intros n. rewrite lookup_insert_is_Some. destruct (decide (s_made s = n)) as [->|]; [tauto|]. split; [intros [?|[_ ?]]; [done|by right]|]. intros [?|?]; [by subst|]. by right.
    + by rewrite map_size_insert_None.
Qed.

(** the invariant after appending *)
Lemma append_inv A s own l a a' s' x' : linv A s own -> A !! l = Some a ->
  s_lists s' !! l = Some x' -> (forall l1, l1 <> l -> s_lists s' !! l1 = s_lists s !! l1) ->
  chain (s_heap s') (l_first x') (own l ++ [s_made s]) (entries a') ->
  (if a_da a' then a_exn a' = None /\ (exists p, l_last x' = Some p /\ (a_stale a' = false -> p = last_loc l (own l ++ [s_made s]))) else l_last x' = None /\ a_stale a' = false) ->
  (forall l1, l1 <> l -> forall n, n ∈ own l1 -> s_heap s' !! n = s_heap s !! n) ->
  (forall n, is_Some (s_heap s' !! n) <-> n = s_made s \/ is_Some (s_heap s !! n)) ->
  s_made s' = S (s_made s) -> s_freed s' = s_freed s -> size (s_heap s') = S (size (s_heap s)) ->
  linv (<[l := a']> A) s' (upd own l (own l ++ [s_made s])).
Proof.
  intros I HA HS Hoth Hc Hl Hheap Hdom Hm Hf Hsz. destruct I as [W1 W2 W3 W4 W5 W6 W7 W8].
  assert (forall l1, s_made s ∉ own l1) as Hfr. { intros l1 H. assert (is_Some (s_heap s !! s_made s)) as H' by (apply W6; eauto). apply W7 in H'. lia. }
  constructor.
  - intros l1. destruct (decide (l1 = l)) as [->|H1]; [rewrite lookup_insert, HS; naive_solver|]. rewrite lookup_insert_ne, Hoth by done. apply W1.
  - intros l1. destruct (decide (l1 = l)) as [->|H1]; [by rewrite lookup_insert|]. rewrite lookup_insert_ne, upd_ne by done. apply W2.
  - intros l1 a1 x1. destruct (decide (l1 = l)) as [->|H1].
    + rewrite lookup_insert, HS, upd_same. intros [= <-] [= <-]. done.
    + rewrite lookup_insert_ne, Hoth, upd_ne by done. intros Ha Hx. destruct (W3 _ _ _ Ha Hx) as [Hc1 Hl1]. split; [|done].
      eapply chain_ext; [|exact Hc1]. by apply Hheap.
  - intros l1. unfold upd. destruct (Nat.eqb l1 l); [|done]. apply NoDup_app. split; [done|]. split; [|apply NoDup_singleton].
    intros n Hn ->%elem_of_list_singleton. by eapply Hfr.
  - intros l1 l2 n. unfold upd. destruct (Nat.eqb_spec l1 l) as [->|], (Nat.eqb_spec l2 l) as [->|]; try done; rewrite ?elem_of_app, ?elem_of_list_singleton.
    + intros [H1| ->] H2; [by eapply W5|]. by apply Hfr in H2.
    + intros H1 [H2| ->]; [by eapply W5|]. by apply Hfr in H1.
    + apply W5.
  - intros n. rewrite Hdom, W6. split.
    + intros [->|[l1 H1]]; [exists l; rewrite upd_same; apply elem_of_app; right; constructor|]. exists l1.
      destruct (decide (l1 = l)) as [->|Hn]; [rewrite upd_same; apply elem_of_app; by left|by rewrite upd_ne].
    + intros [l1 H1]. destruct (decide (l1 = l)) as [->|Hn]; [|rewrite upd_ne in H1 by done; eauto]. rewrite upd_same in H1.
      apply elem_of_app in H1 as [H1| ->%elem_of_list_singleton]; eauto.
  - intros n [->|Hn]%Hdom; [lia|]. apply W7 in Hn. lia.
  - lia.
Qed.

Lemma unload_effect A s own l a x : linv A s own -> A !! l = Some a -> s_lists s !! l = Some x ->
  free_list (l_first x) s = Some (LState (remove_all (own l) (s_heap s)) (s_lists s) (s_made s) (s_freed s + length (own l))).
Proof.
  intros I HA HS. destruct (w_list _ _ _ I _ _ _ HA HS) as [Hc _]. pose proof (inv_fuel _ _ _ _ _ _ I HA HS). unfold free_list.
  destruct (free_ok _ _ _ _ (S (size (s_heap s))) (s_freed s) Hc (w_nodup _ _ _ I l)) as [-> _]; [lia|]. done.
Qed.

Lemma lstep_ok op A s own : linv A s own -> lallowed op A ->
  exists s' own', (lstep op s = LDone (lseen op A) s' \/ lstep op s = LThrown (lseen op A) s' /\ (exists l a z, op = LUnload l /\ A !! l = Some a /\ a_exn a = Some z)) /\
    linv (leffect op A) s' own'.
Proof.
  intros I Hal. destruct op as [l|l pay thr|l' l|l' l|l' l ex|l|l|l]; cbn [lallowed leffect lseen lstep] in *.
  - rewrite (proj2 (w_none _ _ _ I _) Hal). exists (set_list l (LObj None (Some (LFirst l))) s), own. split; [by left|].
    pose proof (w_own_none _ _ _ I _ Hal) as Ho. destruct I as [W1 W2 W3 W4 W5 W6 W7 W8]. constructor; simpl; try done.
    + intros l1. destruct (decide (l1 = l)) as [->|H1]; [rewrite !lookup_insert; naive_solver|]. by rewrite !lookup_insert_ne.
    + intros l1. destruct (decide (l1 = l)) as [->|H1]; [by rewrite lookup_insert|]. rewrite lookup_insert_ne by done. apply W2.
    + intros l1 a x. destruct (decide (l1 = l)) as [->|H1].
      * rewrite !lookup_insert. intros [= <-] [= <-]. rewrite Ho. simpl. split; [done|]. split; [done|]. exists (LFirst l). done.
      * rewrite !lookup_insert_ne by done. apply W3.
  - destruct Hal as (-> & a & HA & Hda & Hst). destruct (append_ok _ _ _ _ _ pay false I HA Hda Hst) as (s' & x' & E & HS' & Hlast & Hoth & Hc & Hh & Hd & H1 & H2 & H3).
    destruct (inv_list _ _ _ _ _ I HA) as [x HS]. destruct (w_list _ _ _ I _ _ _ HA HS) as [Hc0 Hl0]. rewrite Hda in Hl0. destruct Hl0 as (Hex & p & Hp & Hpl). specialize (Hpl Hst).
    exists s', (upd own l (own l ++ [s_made s])). split.
    + left. destruct x as [f lst]. simpl in Hp. rewrite HS, Hp. assert (deref p s = Some None) as ->; [|done]. subst p. unfold last_loc.
      destruct (last (own l)) as [k|] eqn:Ek; simpl.
      * clear -Hc0 Ek. simpl in Hc0. revert f Hc0. generalize (entries a). induction (own l) as [|n ids IH]; intros [|[z b] es] f; simpl; try done. intros (-> & nx & Hn & H).
        destruct ids as [|n2 ids]; [|by eapply IH]. simpl in Ek. injection Ek as <-. rewrite Hn. simpl. f_equal. destruct es; done.
      * rewrite HS. simpl. apply last_None in Ek. rewrite Ek in Hc0. simpl in Hc0. destruct (entries a); [by subst|done].
    + rewrite (alter_Some _ _ _ _ HA). eapply append_inv; try done.
      * unfold entries in *. simpl. rewrite map_app. simpl. rewrite Hex, !app_nil_r in *. done.
      * simpl. split; [done|]. exists (LNext (s_made s)). split; [done|]. intros _. unfold last_loc. by rewrite last_snoc.
  - destruct Hal as (HA' & a & HA & Hda & Hst). destruct (inv_list _ _ _ _ _ I HA) as [x HS]. destruct (w_list _ _ _ I _ _ _ HA HS) as [Hc0 Hl0]. rewrite Hda in Hl0.
    destruct Hl0 as (Hex & p & Hp & Hpl). specialize (Hpl Hst). assert (l <> l') as Hne by congruence. rewrite HA.
    destruct x as [f lst]. simpl in Hp. eexists _, _. split.
    + left. rewrite HS, Hp, (proj2 (w_none _ _ _ I _) HA'). cbn zeta.
      match goal with |- context [deref ?q ?st] => assert (deref q st = Some None) as -> end; [|reflexivity].
      subst p. unfold last_loc in *. destruct (last (own l)) as [k|] eqn:Ek; simpl.
      * clear -Hc0 Ek. simpl in Hc0. revert f Hc0. generalize (entries a). induction (own l) as [|n ids IH]; intros [|[z b] es] f; simpl; try done. intros (-> & nx & Hn & H).
        destruct ids as [|n2 ids]; [|by eapply IH]. simpl in Ek. injection Ek as <-. rewrite Hn. simpl. f_equal. destruct es; done.
      * rewrite bool_decide_true by done. simpl. rewrite lookup_insert. simpl. apply last_None in Ek. rewrite Ek in Hc0. simpl in Hc0. destruct (entries a); [by subst|done].
    + unfold set_list. simpl.
      match goal with |- context [<[l := ?u]> (<[l' := ?v]> (<[l := ?w]> (s_lists s)))] => replace (<[l := u]> (<[l' := v]> (<[l := w]> (s_lists s)))) with (<[l := u]> (<[l' := v]> (s_lists s)))
        by (rewrite (insert_commute _ l' l) by done; rewrite insert_insert; done) end.
      eapply (linv_transfer A s own l l' a _); try done; simpl.
      * rewrite Hda. split; [done|]. eexists. split; [done|]. intros _. subst p. unfold last_loc. destruct (last (own l)); [by rewrite bool_decide_false|by rewrite bool_decide_true].
      * split; [done|]. eauto.
  - destruct Hal as (HA' & a & HA & Hda). destruct (inv_list _ _ _ _ _ I HA) as [x HS]. destruct (w_list _ _ _ I _ _ _ HA HS) as [Hc0 Hl0]. rewrite Hda in Hl0. destruct Hl0 as [Hp Hst].
    assert (l <> l') as Hne by congruence. rewrite HA. destruct x as [f lst]. simpl in Hp. eexists _, _. split.
    + left. rewrite HS, Hp, (proj2 (w_none _ _ _ I _) HA'). reflexivity.
    + unfold set_list. simpl. rewrite (insert_commute _ l' l) by done. eapply (linv_transfer A s own l l' a _); try done; simpl.
      * rewrite Hda. done.
  - destruct Hal as (HA' & a & HA & Hda & Hst). destruct (inv_list _ _ _ _ _ I HA) as [x HS]. destruct (w_list _ _ _ I _ _ _ HA HS) as [Hc0 Hl0]. rewrite Hda in Hl0.
    destruct Hl0 as (Hex & p & Hp & Hpl). assert (l <> l') as Hne by congruence. rewrite HA. destruct ex as [z|].
    + destruct Hst as [?|Hst]; [done|].
      destruct (append_ok _ _ _ _ _ z true I HA Hda Hst) as (s' & x' & E & HS' & Hlast & Hoth & Hc & Hh & Hd & H1 & H2 & H3).
      (* an intermediate state in which the list ends with the exception *)
      set (own' := upd own l (own l ++ [s_made s])). set (x2 := LObj (l_first x') None). set (s2 := set_list l x2 s').
      assert (linv (<[l := AList false false (a_objs a) (Some z)]> A) s2 own') as I2.
      { eapply (append_inv A s own l a _ s2 x2); try done; simpl.
        - apply lookup_insert.
        - intros l1 Hl1. rewrite lookup_insert_ne by done. by apply Hoth.
        - unfold entries in *. simpl. rewrite Hex, app_nil_r in Hc. done. }
      rewrite E. destruct x' as [f lst]. eexists _, _. split.
      * left. simpl in *. rewrite HS', Hlast, (Hoth l') by done. rewrite (proj2 (w_none _ _ _ I _) HA'). reflexivity.
      * unfold set_list. simpl. 
        assert (linv (<[l := AList true false [] None]> (<[l' := AList false false (a_objs a) (Some z)]> (<[l := AList false false (a_objs a) (Some z)]> A)))
          (LState (s_heap s2) (<[l := LObj None (Some (LFirst l))]> (<[l' := LObj f None]> (s_lists s2))) (s_made s2) (s_freed s2)) (upd (upd own' l []) l' (own' l))) as I3.
        { eapply (linv_transfer _ s2 own' l l' _ x2); try done; simpl.
          - apply lookup_insert.
          - apply lookup_insert.
          - by rewrite lookup_insert_ne.
          - split; [done|]. eauto. }
        unfold s2, set_list in I3. simpl in I3. rewrite (insert_commute _ l' l) in I3 by done. rewrite insert_insert in I3.
        rewrite (insert_commute _ l' l) in I3 by done. rewrite insert_insert in I3. rewrite (insert_commute _ l' l) by done.
        exact I3.
    + destruct x as [f lst]. simpl in Hp. eexists _, _. split.
      * left. rewrite HS, Hp, (proj2 (w_none _ _ _ I _) HA'). reflexivity.
      * unfold set_list. simpl. rewrite (insert_commute _ l' l) by done. eapply (linv_transfer A s own l l' a _); try done; simpl.
        -- unfold entries. simpl. by rewrite Hex.
                -- split; [done|]. eauto.
  - destruct Hal as [a HA]. destruct (inv_list _ _ _ _ _ I HA) as [x HS]. destruct (w_list _ _ _ I _ _ _ HA HS) as [Hc0 Hl0]. pose proof (inv_fuel _ _ _ _ _ _ I HA HS) as Hfu.
    rewrite HS, HA. rewrite (visit_ok _ _ _ (a_objs a) (a_exn a) (own l) _ Hc0) by lia.
    assert (free_list (l_first x) (set_list l (LObj None (l_last x)) s) =
      Some (LState (remove_all (own l) (s_heap s)) (<[l := LObj None (l_last x)]> (s_lists s)) (s_made s) (s_freed s + length (own l)))) as ->.
    { unfold free_list. cbn [s_heap s_lists s_made s_freed set_list]. destruct (free_ok _ _ _ _ (S (size (s_heap s))) (s_freed s) Hc0 (w_nodup _ _ _ I l)) as [-> _]; [lia|]. done. }
    eexists _, (upd own l []). split.
    + unfold payloads. destruct (a_exn a) as [z|] eqn:Ez; [right|left; reflexivity]. split; [reflexivity|]. eauto 8.
    + rewrite (alter_Some _ _ _ _ HA).
      apply (linv_free _ _ _ _ _ _ I HA HS (Some (AList (a_da a) (a_da a && (a_stale a || negb (bool_decide (a_objs a = [])))) [] None)) (Some (LObj None (l_last x)))). simpl.
      split; [done|]. split; [done|]. destruct (a_da a) eqn:Ed; simpl; [|by destruct Hl0]. split; [done|]. destruct Hl0 as (Hex & p & Hp & Hpl). exists p. split; [done|].
      intros [Hst Hb]%orb_false_iff. specialize (Hpl Hst). apply negb_false_iff, bool_decide_eq_true in Hb. unfold entries in Hc0. rewrite Hb, Hex in Hc0. simpl in Hc0.
      destruct (own l); [|done]. done.
  - destruct Hal as [a HA]. destruct (inv_list _ _ _ _ _ I HA) as [x HS]. destruct (w_list _ _ _ I _ _ _ HA HS) as [Hc0 Hl0]. pose proof (inv_fuel _ _ _ _ _ _ I HA HS) as Hfu.
    rewrite HS, HA. rewrite (visit_ok _ _ _ (a_objs a) (a_exn a) (own l) _ Hc0) by lia. exists s, own. split; [by left|done].
  - destruct Hal as [a HA]. destruct (inv_list _ _ _ _ _ I HA) as [x HS]. rewrite HS. rewrite (unload_effect _ _ _ _ _ _ I HA HS). simpl.
    eexists _, (upd own l []). split; [left; reflexivity|]. exact (linv_free _ _ _ _ _ _ I HA HS None None Logic.I).
Qed.

(** ** Executions *)
(** The operations are allowed one after another *)
Fixpoint lall (ops : list lop) (A : alists) : Prop :=
  match ops with [] => True | op :: ops' => lallowed op A /\ lall ops' (leffect op A) end.
Definition lfinal (ops : list lop) (A : alists) : alists := foldl (fun A op => leffect op A) A ops.
Fixpoint lsees (ops : list lop) (A : alists) : list (list Z) :=
  match ops with [] => [] | op :: ops' => lseen op A :: lsees ops' (leffect op A) end.

Lemma linv_init : linv ∅ linit (fun _ => []).
Proof.
  constructor; simpl; try done.
  - intros l. constructor.
  - intros l l' n. by intros ?%elem_of_nil.
  - intros n. rewrite lookup_empty. split; [by intros ?%is_Some_None|]. intros [_ H]. by apply elem_of_nil in H.
  - intros n. rewrite lookup_empty. by intros ?%is_Some_None.
Qed.
Lemma lrun_ok ops : forall A s own, linv A s own -> lall ops A ->
  exists s' own', lrun ops s = Some (lsees ops A, s') /\ linv (lfinal ops A) s' own'.
Proof.
  induction ops as [|op ops IH]; intros A s own I Hall; [exists s, own; done|]. destruct Hall as [Hal Hall].
  destruct (lstep_ok op A s own I Hal) as (s1 & own1 & Hs & I1). destruct (IH _ _ _ I1 Hall) as (s2 & own2 & E & I2).
  exists s2, own2. split; [|done]. simpl. destruct Hs as [->|[-> _]]; by rewrite E.
Qed.

(** What a list holds, read off the nodes *)
Definition holds (s : lstate) (l : nat) : option (list Z) :=
  match s_lists s !! l with Some x => match visit false (S (size (s_heap s))) (l_first x) (s_heap s) with Some (v, _) => Some v | None => None end | None => None end.

(** Any sequence of allowed operations: nothing is accessed that does not exist, no assertion fails, every list holds exactly the objects the
    specification says, in order, each visit sees exactly these; a node exists for exactly each object held; once there are no lists, every
    node allocated was freed, exactly once. *)
Theorem C41_capture_list_partial : forall ops, lall ops ∅ ->
  exists s, lrun ops linit = Some (lsees ops ∅, s) /\
    (forall l, holds s l = payloads <$> lfinal ops ∅ !! l) /\
    s_made s = (s_freed s + size (s_heap s))%nat /\
    size (s_heap s) = map_fold (fun _ a n => (length (payloads a) + n)%nat) 0%nat (lfinal ops ∅) /\
    (lfinal ops ∅ = ∅ -> s_heap s = ∅ /\ s_made s = s_freed s).
Proof.
  intros ops Hall. destruct (lrun_ok _ _ _ _ linv_init Hall) as (s & own & E & I). exists s. split; [done|].
  assert (size (s_heap s) = map_fold (fun _ a n => (length (payloads a) + n)%nat) 0%nat (lfinal ops ∅)) as Hsz.
  { generalize (lfinal ops ∅) I. clear. intros A I. revert s own I. induction A as [|l a A Hl IH] using map_ind; intros s own I.
    - rewrite map_fold_empty. apply map_size_empty_iff, map_empty. intros n. apply eq_None_not_Some. intros H. apply (w_dom _ _ _ I) in H as [l Hn].
      rewrite (w_own_none _ _ _ I l (lookup_empty l)) in Hn. by apply elem_of_nil in Hn.
    - destruct (inv_list _ _ _ l a I) as [x Hx]; [apply lookup_insert|]. pose proof (lookup_insert A l a) as Ha.
      pose proof (linv_free _ _ _ _ _ _ I Ha Hx None None Logic.I) as I'. simpl in I'. rewrite delete_insert in I' by done. specialize (IH _ _ I'). simpl in IH.
      destruct (w_list _ _ _ I _ _ _ Ha Hx) as [Hc _]. destruct (free_ok _ _ _ _ (length (own l)) 0%nat Hc (w_nodup _ _ _ I l)) as [_ ->]; [lia|].
      rewrite map_fold_insert_L; [|intros; lia|done]. rewrite IH. f_equal. apply chain_length in Hc. rewrite Hc. unfold entries, payloads. rewrite !app_length, map_length. by destruct (a_exn a). }
  split; [|split; [apply (w_count _ _ _ I)|split; [done|]]].
  - intros l. unfold holds. destruct (s_lists s !! l) as [x|] eqn:Ex.
    + destruct (lfinal ops ∅ !! l) as [a|] eqn:Ea; [|apply (w_none _ _ _ I) in Ea; congruence].
      destruct (w_list _ _ _ I _ _ _ Ea Ex) as [Hc _]. pose proof (inv_fuel _ _ _ _ _ _ I Ea Ex). rewrite (visit_ok _ _ _ (a_objs a) (a_exn a) (own l) _ Hc) by lia. done.
    + apply (w_none _ _ _ I) in Ex. by rewrite Ex.
  - intros E0. rewrite E0, map_fold_empty in Hsz. split; [by apply map_size_empty_iff|]. pose proof (w_count _ _ _ I). lia.
Qed.
Print Assumptions C41_capture_list_partial.

(** An exception captured last is thrown after everything before it was unloaded; nothing else makes unloading throw. *)
Theorem C41_unload_throws : forall ops, lall ops ∅ -> forall s l a, snd <$> lrun ops linit = Some s -> lfinal ops ∅ !! l = Some a ->
  exists s', lstep (LUnload l) s = (if a_exn a then LThrown (payloads a) s' else LDone (payloads a) s') /\ holds s' l = Some [].
Proof.
  intros ops Hall s l a Hs Ha. destruct (lrun_ok _ _ _ _ linv_init Hall) as (s0 & own & E & I). rewrite E in Hs. injection Hs as <-.
  destruct (lstep_ok (LUnload l) _ _ _ I (ex_intro _ a Ha)) as (s' & own' & _ & I'). destruct (inv_list _ _ _ _ _ I Ha) as [x Hx].
  destruct (w_list _ _ _ I _ _ _ Ha Hx) as [Hc0 Hl0]. pose proof (inv_fuel _ _ _ _ _ _ I Ha Hx) as Hfu. cbn [lstep]. rewrite Hx.
  rewrite (visit_ok _ _ _ (a_objs a) (a_exn a) (own l) _ Hc0) by lia.
  assert (free_list (l_first x) (set_list l (LObj None (l_last x)) s0) =
    Some (LState (remove_all (own l) (s_heap s0)) (<[l := LObj None (l_last x)]> (s_lists s0)) (s_made s0) (s_freed s0 + length (own l)))) as ->.
  { unfold free_list. cbn [s_heap s_lists s_made s_freed set_list]. destruct (free_ok _ _ _ _ (S (size (s_heap s0))) (s_freed s0) Hc0 (w_nodup _ _ _ I l)) as [-> _]; [lia|]. done. }
  eexists. split; [unfold payloads; by destruct (a_exn a)|]. unfold holds. simpl. by rewrite lookup_insert.
Qed.
Print Assumptions C41_unload_throws.

(** Objects are collected, moved with their allocator, extracted with an exception, unloaded; in between everything is in place. *)
Definition ops41 : list lop :=
  [LNewDA 0; LAppend 0 5 false; LAppend 0 6 false; LMoveDA 1 0; LAppend 0 9 false; LAppend 1 7 false; LWalk 1; LExtract 2 1 (Some 100%Z); LMove 3 2;
   LWalk 2; LUnload 3; LDestroy 0; LDestroy 1; LDestroy 2; LDestroy 3]%nat.
Example ex41_allowed : lall ops41 ∅.
Proof. vm_compute. repeat split; eauto 10; try (eexists; split; [reflexivity|]; auto). Qed.
Example ex41 : match lrun ops41 linit with Some (seen, s) => (seen, map_to_list (s_heap s), s_made s, s_freed s) | None => ([], [], 0%nat, 1%nat) end =
  ([[]; []; []; []; []; []; [5; 6; 7]; []; []; []; [5; 6; 7; 100]; []; []; []; []], [], 5%nat, 5%nat).
Proof. vm_compute. reflexivity. Qed.
Example ex41_throws : exists s, lrun (take 9 ops41) linit = Some s /\ exists v s', lstep (LUnload 3%nat) (snd s) = LThrown v s' /\ v = [5; 6; 7; 100].
Proof. eexists. split; [vm_compute; reflexivity|]. eexists _, _. split; vm_compute; reflexivity. Qed.

(** *** The two uses left out: they access nodes that do not exist any more. *)
(** The copy constructor of the second object throws; destroying the list then visits the freed node. *)
Theorem C41_throwing_copy_refuted : exists ops s, lrun ops linit = Some s /\ lstep (LDestroy 0) (snd s) = LBad /\
  ops = [LNewDA 0; LAppend 0 5 false; LAppend 0 6 true]%nat.
Proof. eexists _, _. split; [|split; [|reflexivity]]; vm_compute; reflexivity. Qed.
Print Assumptions C41_throwing_copy_refuted.
(** After unloading, last_ still refers to the freed node: the next object is linked into freed memory. *)
Theorem C41_reuse_after_unload_refuted : exists ops s, lrun ops linit = Some s /\ lstep (LAppend 0 6 false) (snd s) = LBad /\
  ops = [LNewDA 0; LAppend 0 5 false; LUnload 0]%nat.
Proof. eexists _, _. split; [|split; [|reflexivity]]; vm_compute; reflexivity. Qed.
Print Assumptions C41_reuse_after_unload_refuted.
