(** C34: array-based TLS behaves like per-type thread-local variables. *)
From Verif Require Export TlsArray.
Open Scope Z_scope.

(** Specification: one variable per thread and type, initially null; reading gives the last value written. *)
Fixpoint reads (vars : nat -> nat -> Z) (evs : list tevent) : list Z :=
  match evs with
  | [] => []
  | EvInit _ :: evs' => reads vars evs'
  | EvRead th T :: evs' | EvReadU th T :: evs' => vars th T :: reads vars evs'
  | EvWrite th T v :: evs' | EvWriteU th T v :: evs' =>
      reads (fun th' T' => if Nat.eqb th th' && Nat.eqb T T' then v else vars th' T') evs'
  end.
Definition inits (evs : list tevent) : list nat := omap (fun ev => match ev with EvInit T => Some T | _ => None end) evs.

(** What the language guarantees: the index variable of a type is initialised once, before the type is written; and
    every type is used either for a pointer or for an unsigned int (isu). *)
Fixpoint ordered (isu : nat -> bool) (done : list nat) (evs : list tevent) : Prop :=
  match evs with
  | [] => True
  | EvInit T :: evs' => T ∉ done /\ ordered isu (T :: done) evs'
  | EvRead _ T :: evs' => isu T = false /\ ordered isu done evs'
  | EvReadU _ T :: evs' => isu T = true /\ ordered isu done evs'
  | EvWrite _ T _ :: evs' => isu T = false /\ T ∈ done /\ ordered isu done evs'
  | EvWriteU _ T x :: evs' => isu T = true /\ 0 <= x < 2 ^ 32 /\ T ∈ done /\ ordered isu done evs'
  end.

(** The invariant: types have distinct indices in (START, START + number of types]; the array holds the variables. *)
Record tinv (C : tcfg) (isu : nat -> bool) (done : list nat) (vars : nat -> nat -> Z) (s : tstate) : Prop := {
  i_c : t_c s = c_start C + Z.of_nat (length done);
  i_alloc : t_alloc s = t_idx s;
  i_dom : forall T, T ∈ done <-> is_Some (t_idx s !! T);
  i_range : forall T i, t_idx s !! T = Some i -> c_start C < i <= t_c s;
  i_inj : forall T T' i, t_idx s !! T = Some i -> t_idx s !! T' = Some i -> T = T';
  i_arr : forall th T i, t_idx s !! T = Some i ->
      let a := default 0 (t_arr s !! (th, i - 1)) in (if isu T then a mod 2 ^ 32 else a) = vars th T;
  i_free : forall th j, t_c s <= j -> t_arr s !! (th, j) = None;
  i_none : forall th T, T ∉ done -> vars th T = 0 }.

Lemma in_range_true C i : c_start C <= i < c_size C -> in_range C i = true.
Proof. intros H. unfold in_range. rewrite (proj2 (Z.leb_le _ _)), (proj2 (Z.ltb_lt _ _)) by lia. done. Qed.

Lemma read_ok C isu done vars s th T : tinv C isu done vars s -> t_c s < c_size C -> exists v, read_ptr C s th T = TOk v /\
  (if isu T then v mod 2 ^ 32 else v) = vars th T.
Proof.
  intros I Hc. unfold read_ptr. destruct (t_idx s !! T) as [i|] eqn:E; simpl.
  - pose proof (i_range _ _ _ _ _ I _ _ E). rewrite (proj2 (Z.eqb_neq _ _)) by lia. unfold read_void_ptr. rewrite in_range_true by lia.
    eexists. split; [done|]. by apply (i_arr _ _ _ _ _ I th T i E).
  - rewrite Z.eqb_refl. exists 0. split; [done|]. rewrite (i_none _ _ _ _ _ I th T); [by destruct (isu T)|].
    intros H. apply (i_dom _ _ _ _ _ I) in H. rewrite E in H. by apply is_Some_None in H.
Qed.

Lemma write_ok C isu done vars s th T v w : tinv C isu done vars s -> t_c s < c_size C -> T ∈ done ->
  (if isu T then v mod 2 ^ 32 else v) = w ->
  exists s', write_ptr C s th T v = TOk s' /\ t_c s' = t_c s /\
    tinv C isu done (fun th' T' => if Nat.eqb th th' && Nat.eqb T T' then w else vars th' T') s'.
Proof.
  intros I Hc HT Hw. destruct (proj1 (i_dom _ _ _ _ _ I T) HT) as [i Hi]. pose proof (i_range _ _ _ _ _ I _ _ Hi) as Hr.
  unfold write_ptr, write_void_ptr, read_void_ptr. rewrite (i_alloc _ _ _ _ _ I), Hi. simpl. rewrite in_range_true by lia. simpl. rewrite lookup_insert. simpl.
  rewrite Z.eqb_refl. eexists. split; [by destruct (c_assert C)|]. split; [done|].
  destruct I as [I1 I2 I3 I4 I5 I6 I7 I8]. constructor; simpl; try done.
  - intros th' T' i' Hi'. destruct (Nat.eqb_spec th th') as [<-|Hth]; simpl.
    + destruct (Nat.eqb_spec T T') as [<-|HTT].
      * rewrite Hi in Hi'. injection Hi' as <-. by rewrite lookup_insert.
      * rewrite lookup_insert_ne; [by apply I6|]. intros [= HE]. apply HTT. eapply I5; [exact Hi|]. replace i with i' by lia. done.
    + rewrite lookup_insert_ne; [by apply I6|]. congruence.
  - intros th' j Hj. rewrite lookup_insert_ne; [by apply I7|]. intros [= _ HE]. lia.
  - intros th' T' HT'. destruct (Nat.eqb_spec T T') as [<-|]; [done|]. rewrite andb_false_r. by apply I8.
Qed.

Lemma init_ok C isu done vars s T : cfg_ok C -> tinv C isu done vars s -> t_c s + 1 < c_size C -> T ∉ done ->
  exists s', init_alloc C s T = TOk s' /\ tinv C isu (T :: done) vars s'.
Proof.
  intros (C1 & C2 & C3 & C4) I Hc HT. unfold init_alloc. pose proof (i_c _ _ _ _ _ I) as Ec.
  rewrite (proj2 (Z.ltb_lt (c_start C) _)), (proj2 (Z.ltb_lt (t_c s + 1) _)) by lia. rewrite andb_false_r. simpl. eexists. split; [done|].
  rewrite Z.mod_small by lia. destruct I as [I1 I2 I3 I4 I5 I6 I7 I8]. assert (t_idx s !! T = None) as HN.
  { apply eq_None_not_Some. by rewrite <- I3. }
  constructor; simpl.
  - lia.
  - by rewrite I2.
  - intros T'. rewrite elem_of_cons, I3. destruct (decide (T = T')) as [<-|Hn]; [rewrite lookup_insert; naive_solver|rewrite lookup_insert_ne by done; naive_solver].
  - intros T' i Hi. destruct (decide (T = T')) as [<-|Hn].
    + rewrite lookup_insert in Hi. injection Hi as <-. lia.
    + rewrite lookup_insert_ne in Hi by done. apply I4 in Hi. lia.
  - intros T1 T2 i H1 H2. destruct (decide (T = T1)) as [<-|Hn1], (decide (T = T2)) as [<-|Hn2]; [done|..];
      rewrite ?lookup_insert in *; rewrite ?lookup_insert_ne in H1 by done; rewrite ?lookup_insert_ne in H2 by done.
    + injection H1 as <-. apply I4 in H2. lia.
    + injection H2 as <-. apply I4 in H1. lia.
    + eauto.
  - intros th T' i Hi. destruct (decide (T = T')) as [<-|Hn].
    + rewrite lookup_insert in Hi. injection Hi as <-. rewrite (I7 th) by lia. simpl. rewrite I8 by done. by destruct (isu T).
    + rewrite lookup_insert_ne in Hi by done. by apply I6.
  - intros th j Hj. apply I7. lia.
  - intros th T' HT'. apply not_elem_of_cons in HT' as [_ HT']. by apply I8.
Qed.

Lemma tinv_init C isu : tinv C isu [] (fun _ _ => 0) (tinit C).
Proof.
  constructor; simpl; try done; try lia.
  - intros T. rewrite lookup_empty. split; [by intros ?%elem_of_nil|by intros ?%is_Some_None].
Qed.

Lemma trun_ok C isu evs : forall done vars s, cfg_ok C -> tinv C isu done vars s ->
  t_c s + Z.of_nat (length (inits evs)) < c_size C -> ordered isu done evs ->
  exists s', trun C s evs = TOk (reads vars evs, s') /\ t_c s' = t_c s + Z.of_nat (length (inits evs)) /\
    (forall T, T ∉ done -> T ∉ inits evs -> t_idx s' !! T = None).
Proof.
  induction evs as [|ev evs IH]; intros done vars s HC I Hc Ho.
  { exists s. split; [done|]. split; [simpl; lia|]. intros T HT _. apply eq_None_not_Some. by rewrite <- (i_dom _ _ _ _ _ I). }
  destruct ev as [T|th T|th T p|th T|th T x]; cbn [trun reads]; simpl in Ho;
    change (inits (_ :: evs)) with (inits evs) in * || change (inits (EvInit T :: evs)) with (T :: inits evs) in *.
  - destruct Ho as [HT Ho]. simpl length in *. destruct (init_ok _ _ _ _ _ T HC I) as (s1 & -> & I1); [lia|done|].
    pose proof (i_c _ _ _ _ _ I) as E0. pose proof (i_c _ _ _ _ _ I1) as E1. simpl length in E1.
    destruct (IH _ _ _ HC I1) as (s' & -> & E & N); [lia|done|]. exists s'. split; [done|]. split; [lia|].
    intros T' H1 [H2 H3]%not_elem_of_cons. apply N; [by apply not_elem_of_cons|done].
  - destruct Ho as [Hu Ho]. destruct (read_ok _ _ _ _ _ th T I) as (v & -> & Hv); [lia|]. rewrite Hu in Hv. subst v.
    destruct (IH _ _ _ HC I) as (s' & -> & E & N); [lia|done|]. by exists s'.
  - destruct Ho as (Hu & HT & Ho). destruct (write_ok _ _ _ _ _ th T p p I) as (s1 & -> & E1 & I1); [lia|done|by rewrite Hu|].
    destruct (IH _ _ _ HC I1) as (s' & -> & E & N); [lia|done|]. exists s'. split; [done|]. split; [lia|done].
  - destruct Ho as [Hu Ho]. unfold read_uint. destruct (read_ok _ _ _ _ _ th T I) as (v & -> & Hv); [lia|]. rewrite Hu in Hv. rewrite Hv.
    destruct (IH _ _ _ HC I) as (s' & -> & E & N); [lia|done|]. by exists s'.
  - destruct Ho as (Hu & Hx & HT & Ho). unfold write_uint.
    destruct (write_ok _ _ _ _ _ th T (x mod 2 ^ c_bits C) x I) as (s1 & -> & E1 & I1); [lia|done| |].
    { rewrite Hu. destruct HC as (_ & _ & _ & HB). rewrite (Z.mod_small x).
      - apply Z.mod_small. lia.
      - split; [lia|]. eapply Z.lt_le_trans; [exact (proj2 Hx)|]. apply Z.pow_le_mono_r; lia. }
    destruct (IH _ _ _ HC I1) as (s' & -> & E & N); [lia|done|]. exists s'. split; [done|]. split; [lia|done].
Qed.

(** C34. The condition on the number of types is the one LEAF asserts: one index less than the array has places. *)
Theorem C34_tls_array :
  forall C isu evs, cfg_ok C -> ordered isu [] evs -> c_start C + Z.of_nat (length (inits evs)) < c_size C ->
    exists s', trun C (tinit C) evs = TOk (reads (fun _ _ => 0) evs, s') /\
      (* exactly one index is taken per type that is ever written; a type that is only read has none *)
      t_c s' = c_start C + Z.of_nat (length (inits evs)) /\
      (forall T, T ∉ inits evs -> t_idx s' !! T = None).
Proof.
  intros C isu evs HC Ho Hn. destruct (trun_ok C isu evs [] (fun _ _ => 0) (tinit C) HC (tinv_init C isu)) as (s' & E & Ec & N); [done..|].
  exists s'. split; [done|]. split; [done|]. intros T HT. apply N; [by apply not_elem_of_nil|done].
Qed.
Print Assumptions C34_tls_array.

(** Two threads, three types (type 3 is an unsigned int, type 4 is only read), a first read before the index exists. *)
Definition tex : list tevent :=
  [EvRead 0 1; EvInit 1; EvWrite 0 1 100; EvInit 2; EvRead 1 1; EvWrite 1 1 200; EvInit 3; EvWriteU 1 3 4294967295; EvWrite 0 2 300;
   EvRead 0 1; EvRead 1 1; EvRead 1 2; EvReadU 1 3; EvReadU 0 3; EvRead 0 2; EvRead 0 4; EvWrite 0 1 0; EvRead 0 1].
Definition texC : tcfg := TCfg 2 6 255 32 true.
Example ex34 : cfg_ok texC /\ ordered (fun T => Nat.eqb T 3) [] tex /\ c_start texC + Z.of_nat (length (inits tex)) < c_size texC /\
  match trun texC (tinit texC) tex with TOk (vs, s) => vs = [0; 0; 100; 200; 0; 4294967295; 0; 300; 0; 0] /\ t_c s = 5 | _ => False end.
Proof.
  split; [by repeat split; vm_compute|]. split.
  - simpl. repeat split; try done; try set_solver.
  - split; [by vm_compute|]. by vm_compute.
Qed.

(** The condition is needed. With assertions off, an index type of 8 bits and the 256th type written: its index is 0,
    which is what a type without index has; the write goes to place -1. With an array of 256 places and 255 types, one place is never used. *)
Definition many (n : nat) : list tevent := map EvInit (seq 1 n).
Example ex34_limit :
  trun (TCfg 0 256 255 64 true) (tinit (TCfg 0 256 255 64 true)) (many 256) = TAssert /\
  match trun (TCfg 0 256 255 64 false) (tinit (TCfg 0 256 255 64 false)) (many 256 ++ [EvWrite 0 256 7]) with TRange => True | _ => False end /\
  match trun (TCfg 0 256 255 64 true) (tinit (TCfg 0 256 255 64 true)) (many 255 ++ [EvWrite 0 255 7; EvRead 0 255]) with TOk (vs, _) => vs = [7] | _ => False end.
Proof. by vm_compute. Qed.
