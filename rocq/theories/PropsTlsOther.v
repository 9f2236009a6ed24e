(** C69: the implementations of thread local storage behave alike. *)
From Verif Require Export PropsTls TlsOther.
Open Scope Z_scope.

(** Values written to unsigned int variables are of that type. *)
Definition uints (evs : list tevent) : Prop := Forall (fun ev => match ev with EvWriteU _ _ x => 0 <= x < 2 ^ 32 | _ => True end) evs.
(** Only thread th takes part. *)
Definition only (th : nat) (evs : list tevent) : Prop :=
  Forall (fun ev => match ev with EvInit _ => True | EvRead th' _ | EvWrite th' _ _ | EvReadU th' _ | EvWriteU th' _ _ => th' = th end) evs.

(** ** thread_local variables *)
Lemma crun_ok evs : forall s vars, uints evs -> (forall th T, default 0 (s !! (th, T)) = vars th T) -> crun s evs = reads vars evs.
Proof.
  assert (forall (s : cstate) vars th T v, (forall th T, default 0 (s !! (th, T)) = vars th T) ->
    forall th' T', default 0 (<[(th, T) := v]> s !! (th', T')) = if Nat.eqb th th' && Nat.eqb T T' then v else vars th' T') as Hw.
  { intros s vars th T v Hs th' T'. destruct (decide ((th, T) = (th', T'))) as [E|E].
    - rewrite E, lookup_insert. injection E as -> ->. by rewrite !Nat.eqb_refl.
    - rewrite lookup_insert_ne, Hs by done. destruct (Nat.eqb_spec th th') as [->|]; [|done]. destruct (Nat.eqb_spec T T') as [->|]; [|done]. done. }
  induction evs as [|ev evs IH]; intros s vars Hu Hs; [done|]. inversion_clear Hu as [|? ? Hx Hu'].
  destruct ev as [T|th T|th T p|th T|th T x]; cbn [crun cstep reads app].
  - by apply IH.
  - rewrite Hs. f_equal. by apply IH.
  - apply IH; [done|]. by apply Hw.
  - rewrite Hs. f_equal. by apply IH.
  - rewrite Z.mod_small by done. apply IH; [done|]. by apply Hw.
Qed.
Theorem C69_thread_local :
  forall evs, uints evs -> crun ∅ evs = reads (fun _ _ => 0) evs.
Proof. intros evs Hu. apply crun_ok; [done|]. intros th T. by rewrite lookup_empty. Qed.
Print Assumptions C69_thread_local.

(** ** Globals: programs of one thread *)
Lemma grun_ok th evs : forall s vars, uints evs -> only th evs -> (forall T, default 0 (s !! T) = vars th T) -> grun s evs = reads vars evs.
Proof.
  assert (forall (s : gstate) (vars : nat -> nat -> Z) T v, (forall T, default 0 (s !! T) = vars th T) ->
    forall T', default 0 (<[T := v]> s !! T') = if Nat.eqb th th && Nat.eqb T T' then v else vars th T') as Hw.
  { intros s vars T v Hs T'. rewrite Nat.eqb_refl. simpl. destruct (Nat.eqb_spec T T') as [->|]; [by rewrite lookup_insert|by rewrite lookup_insert_ne]. }
  induction evs as [|ev evs IH]; intros s vars Hu Ho Hs; [done|]. inversion_clear Hu as [|? ? Hx Hu']. inversion_clear Ho as [|? ? Hth Ho'].
  destruct ev as [T|th' T|th' T p|th' T|th' T x]; cbn [grun gstep reads app]; try subst th'.
  - by apply IH.
  - rewrite Hs. f_equal. by apply IH.
  - apply IH; [done..|]. by apply Hw.
  - rewrite Hs. f_equal. by apply IH.
  - rewrite Z.mod_small by done. apply IH; [done..|]. by apply Hw.
Qed.
Theorem C69_globals :
  forall th evs, uints evs -> only th evs -> grun ∅ evs = reads (fun _ _ => 0) evs.
Proof. intros th evs Hu Ho. eapply grun_ok; [done..|]. intros T. by rewrite lookup_empty. Qed.
Print Assumptions C69_globals.
(** With two threads the variables are shared (BOOST_LEAF_NO_THREADS is for programs without threads). *)
Example ex69_shared : grun ∅ [EvWrite 0 1 100; EvRead 1 1] = [100] /\ reads (fun _ _ => 0) [EvWrite 0 1 100; EvRead 1 1] = [0].
Proof. by vm_compute. Qed.

(** ** FreeRTOS *)
Section freertos.
Context (C : tcfg) (num : nat) (HC : cfg_ok C) (Hnum : c_size C <= Z.of_nat num).
Record same (s : tstate) (f : fstate) : Prop := {
  sm_c : t_c s = t_c (fst f); sm_idx : t_idx s = t_idx (fst f); sm_alloc : t_alloc s = t_alloc (fst f);
  sm_len : forall th, length (task_tab num (snd f) th) = num;
  sm_arr : forall th i, 0 <= i < c_size C -> default 0 (t_arr s !! (th, i)) = default 0 (task_tab num (snd f) th !! Z.to_nat i) }.
Lemma range_spec i : in_range C i = true -> 0 <= i < c_size C.
Proof. unfold in_range. destruct HC as (H0 & _). intros [?%Z.leb_le ?%Z.ltb_lt]%andb_prop. lia. Qed.
Lemma same_get s f th i v : same s f -> read_void_ptr C s th i = TOk v -> pvTaskGetThreadLocalStoragePointer num (snd f) th i = v.
Proof.
  intros S H. unfold read_void_ptr in H. destruct (in_range C i) eqn:E; [|done]. injection H as <-. apply range_spec in E.
  unfold pvTaskGetThreadLocalStoragePointer. rewrite (proj2 (Z.ltb_ge i 0)) by lia. symmetry. by apply (sm_arr _ _ S).
Qed.
Lemma same_set s f th i p s' : same s f -> write_void_ptr C s th i p = TOk s' -> same s' (fst f, vTaskSetThreadLocalStoragePointer num (snd f) th i p).
Proof.
  intros S H. unfold write_void_ptr in H. destruct (in_range C i) eqn:E; [|done]. injection H as <-. apply range_spec in E.
  unfold vTaskSetThreadLocalStoragePointer. rewrite (proj2 (Z.ltb_ge i 0)) by lia. destruct S as [S1 S2 S3 S4 S5]. constructor; simpl; auto.
  - intros th'. unfold task_tab at 1. destruct (decide (th = th')) as [<-|Hn]; [rewrite lookup_insert; simpl; by rewrite insert_length|rewrite lookup_insert_ne by done; apply S4].
  - intros th' j Hj. unfold task_tab at 1. destruct (decide (th = th')) as [<-|Hn].
    + rewrite lookup_insert. simpl. destruct (decide (i = j)) as [<-|Hij].
      * rewrite lookup_insert, list_lookup_insert; [done|]. rewrite S4. lia.
      * rewrite lookup_insert_ne by congruence. rewrite list_lookup_insert_ne by lia. by apply S5.
    + rewrite !lookup_insert_ne by congruence. by apply S5.
Qed.
Lemma same_read s f th T v : same s f -> read_ptr C s th T = TOk v -> fread C num f th T = v.
Proof.
  intros S H. unfold read_ptr in H. unfold fread. rewrite <- (sm_idx _ _ S). destruct (_ =? c_start C); [by injection H|]. by eapply same_get.
Qed.
Lemma same_write s f th T p s' : same s f -> write_ptr C s th T p = TOk s' -> exists f', fwrite C num f th T p = TOk f' /\ same s' f'.
Proof.
  intros S H. unfold write_ptr in H. unfold fwrite. rewrite <- (sm_alloc _ _ S). set (i := default 0 (t_alloc s !! T) - 1) in *.
  destruct (write_void_ptr C s th i p) as [s1| |] eqn:E; try done. pose proof (same_set _ _ _ _ _ _ S E) as S1. destruct (c_assert C); simpl.
  - destruct (read_void_ptr C s1 th i) as [q| |] eqn:Er; try done. destruct (Z.eqb_spec q p) as [->|]; [|done]. injection H as <-.
    pose proof (same_get _ _ _ _ _ S1 Er) as Hg. simpl in Hg. rewrite Hg, Z.eqb_refl. simpl. eauto.
  - injection H as <-. eauto.
Qed.
Lemma same_run evs : forall s f vs s', same s f -> trun C s evs = TOk (vs, s') -> exists f', frun C num f evs = TOk (vs, f') /\ same s' f'.
Proof.
  induction evs as [|ev evs IH]; intros s f vs s' S H; cbn [trun frun] in *; [injection H as <- <-; eauto|].
  assert (forall vs1 s1 f1, fstep C num f ev = TOk (vs1, f1) -> same s1 f1 ->
    match trun C s1 evs with TOk (vs', s'') => TOk (vs1 ++ vs', s'') | e => e end = TOk (vs, s') ->
    exists f', match fstep C num f ev with TOk (vs, s') => match frun C num s' evs with TOk (vs', s'') => TOk (vs ++ vs', s'') | e => e end | TAssert => TAssert | TRange => TRange end = TOk (vs, f') /\ same s' f') as Hgo.
  { intros vs1 s1 f1 -> S1 Hr. destruct (trun C s1 evs) as [[vs' s'']| |] eqn:E; try done. injection Hr as <- <-. destruct (IH _ _ _ _ S1 E) as (f' & -> & S'). eauto. }
  destruct ev as [T|th T|th T p|th T|th T x]; cbn [fstep] in Hgo |- *.
  - destruct (init_alloc C s T) as [s1| |] eqn:E; try done. unfold init_alloc in *. rewrite <- (sm_c _ _ S) in *.
    destruct (c_assert C && _); [done|]. injection E as <-. eapply (Hgo [] _ _ eq_refl); [|exact H]. destruct S as [S1 S2 S3 S4 S5]. constructor; simpl; auto; congruence.
  - destruct (read_ptr C s th T) as [v| |] eqn:E; try done. eapply (Hgo [v]); [|exact S|exact H]. by rewrite (same_read _ _ _ _ _ S E).
  - destruct (write_ptr C s th T p) as [s1| |] eqn:E; try done. destruct (same_write _ _ _ _ _ _ S E) as (f1 & Ef & S1). rewrite Ef in *. eapply (Hgo [] _ _ eq_refl S1 H).
  - unfold read_uint in H. destruct (read_ptr C s th T) as [v| |] eqn:E; try done. eapply (Hgo [v mod 2 ^ 32]); [|exact S|exact H]. by rewrite (same_read _ _ _ _ _ S E).
  - unfold write_uint in H. destruct (write_ptr C s th T _) as [s1| |] eqn:E; try done. destruct (same_write _ _ _ _ _ _ S E) as (f1 & Ef & S1). rewrite Ef in *. eapply (Hgo [] _ _ eq_refl S1 H).
Qed.
End freertos.

(** c_size C <= num: the static assertion, tls_freertos.hpp:25-26. *)
Theorem C69_freertos :
  forall C num isu evs, cfg_ok C -> c_size C <= Z.of_nat num -> ordered isu [] evs -> c_start C + Z.of_nat (length (inits evs)) < c_size C ->
    exists f, frun C num (tinit C, ∅) evs = TOk (reads (fun _ _ => 0) evs, f).
Proof.
  intros C num isu evs HC Hn Ho Hl. destruct (C34_tls_array C isu evs HC Ho Hl) as (s' & E & _).
  assert (forall th, task_tab num ∅ th = replicate num 0) as Ht by (intros th; unfold task_tab; by rewrite lookup_empty).
  assert (same C num (tinit C) (tinit C, ∅)) as S; [|destruct (same_run C num HC Hn evs _ _ _ _ S E) as (f & Ef & _); eauto].
  constructor; simpl; auto.
  - intros th. rewrite Ht. apply replicate_length.
  - intros th i Hi. rewrite lookup_empty, Ht. simpl. rewrite lookup_replicate_2; [done|lia].
Qed.
Print Assumptions C69_freertos.

(** The events of ex34 with all four implementations; and without the static assertion: the table has no place for the second type, the assertion of write_ptr fails,
    or (NDEBUG) what is written is lost. *)
Example ex69 : uints tex /\ crun ∅ tex = [0; 0; 100; 200; 0; 4294967295; 0; 300; 0; 0] /\
  match frun texC 6 (tinit texC, ∅) tex with TOk (vs, _) => vs = [0; 0; 100; 200; 0; 4294967295; 0; 300; 0; 0] | _ => False end.
Proof. split; [by repeat constructor|]. by vm_compute. Qed.
Definition tex1 : list tevent := [EvRead 5 1; EvInit 1; EvWrite 5 1 100; EvInit 2; EvWriteU 5 2 7; EvRead 5 1; EvReadU 5 2; EvRead 5 3; EvWrite 5 1 0; EvRead 5 1].
Example ex69_globals : uints tex1 /\ only 5 tex1 /\ grun ∅ tex1 = [0; 100; 7; 0; 0].
Proof. split; [by repeat constructor|]. split; [by repeat constructor|]. by vm_compute. Qed.
Example ex69_table_too_small :
  frun (TCfg 0 3 255 32 true) 1 (tinit (TCfg 0 3 255 32 true), ∅) tex1 = TAssert /\
  match frun (TCfg 0 3 255 32 false) 1 (tinit (TCfg 0 3 255 32 false), ∅) tex1 with TOk (vs, _) => vs = [0; 100; 0; 0; 0] | _ => False end.
Proof. by vm_compute. Qed.
