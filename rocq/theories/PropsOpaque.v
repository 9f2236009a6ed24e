(** C65: what the numbers are which are used as error ids does not matter. *)
From Verif Require Import Ids Threads Rename LocalN PropsThreads PropsIds PropsOwn.
Open Scope Z_scope.

(** ** Specification *)
(** The program uses ids only as the library's interface intends: it may store them, compare them with each other, pass them on, but what it does is the
    same if all ids are replaced by other ids. *)
Definition opaque (p : prog) : Prop := forall f, renaming f -> like f p p.
(** Objects made by default constructors contain no ids. *)
Definition plain_defaults (G : cfg) : Prop := forall f T, renaming f -> fv f (g_def G T) = g_def G T.
(** The first N ids are valid, different, and none is 1 (which is what current_error() is without an error, C04). *)
Definition fresh_ids (sup : nat -> Z) (N : nat) : Prop :=
  (forall n, (n < N)%nat -> sup n mod 4 = 1 /\ sup n <> 1) /\ (forall a b, (a < b < N)%nat -> sup a <> sup b).

(** ** Ids are replaced in a state, the program is adapted: the run is the same up to these ids, also if it fails. *)
Theorem C65_replaced_ids :
  forall f G sup' caught p p' m g, renaming f -> plain_defaults G -> (forall n, sup' n = f (g_sup G n)) -> like f p p' ->
    eval (with_sup sup' G) (pmach (with_sup sup' G)) (fx f <$> caught) p' (fm f m, fg f g) =
    match eval G (pmach G) caught p (m, g) with
    | Ok (o, (m', g')) => Ok (fo f o, (fm f m', fg f g'))
    | Fail e => Fail e
    end.
Proof.
  intros f G sup' caught p p' m g F Hd Hs Hl. etransitivity; [exact (proj1 (rn_eval f F G ltac:(intros; by apply Hd) sup' Hs) p p' caught (m, g) Hl)|].
  by destruct (eval _ _ _ _ _) as [[o [m' g']]|].
Qed.
Print Assumptions C65_replaced_ids.

(** ** Any two supplies of ids are replacements of each other *)
Definition swap (a b q : Z) : Z := if q =? a then b else if q =? b then a else q.
Lemma swap_inj a b x y : swap a b x = swap a b y -> x = y.
Proof. unfold swap. destruct (Z.eqb_spec x a), (Z.eqb_spec x b), (Z.eqb_spec y a), (Z.eqb_spec y b); congruence. Qed.
Lemma mk_eq z : mk z = 4 * (z / 4) + 1.
Proof. unfold mk. rewrite Z.ldiff_land, lnot3. rewrite lor_low by lia. done. Qed.
Definition onq (h : Z -> Z) (z : Z) : Z := 4 * h (z / 4) + z mod 4.
Lemma renaming_onq h : h 0 = 0 -> (forall a b, h a = h b -> a = b) -> renaming (onq h).
Proof.
  intros H0 Hi. assert (forall z, onq h z / 4 = h (z / 4) /\ onq h z mod 4 = z mod 4) as E.
  { intros z. unfold onq. pose proof (Z.mod_pos_bound z 4). split; [symmetry; apply (Z.div_unique _ 4 _ (z mod 4)); lia|symmetry; apply (Z.mod_unique _ 4 (h (z / 4))); lia]. }
  constructor.
  - unfold onq. change (0 / 4) with 0. by rewrite H0.
  - intros a b H. pose proof (E a) as [A1 A2]. pose proof (E b) as [B1 B2]. rewrite H in A1, A2. rewrite (Z.div_mod a 4), (Z.div_mod b 4) by lia.
    assert (a / 4 = b / 4) by (apply Hi; congruence). congruence.
  - intros z. rewrite !mk_eq, (proj1 (E z)). unfold onq.
    replace ((4 * (z / 4) + 1) / 4) with (z / 4) by (apply (Z.div_unique _ 4 _ 1); lia). replace ((4 * (z / 4) + 1) mod 4) with 1 by (apply (Z.mod_unique _ 4 (z / 4)); lia). done.
  - intros z. rewrite !land3. apply E.
Qed.
Fixpoint match_up (s1 s2 : nat -> Z) (n : nat) (q : Z) : Z :=
  match n with O => q | S n => swap (match_up s1 s2 n (s1 n / 4)) (s2 n / 4) (match_up s1 s2 n q) end.
Lemma match_up_inj s1 s2 n : forall a b, match_up s1 s2 n a = match_up s1 s2 n b -> a = b.
Proof. induction n; simpl; intros a b H; [done|]. apply swap_inj in H. auto. Qed.
Lemma quot_inj a b : a mod 4 = 1 -> b mod 4 = 1 -> a / 4 = b / 4 -> a = b.
Proof. intros. rewrite (Z.div_mod a 4), (Z.div_mod b 4) by lia. congruence. Qed.
Lemma match_up_ok s1 s2 n : fresh_ids s1 n -> fresh_ids s2 n -> match_up s1 s2 n 0 = 0 /\ forall k, (k < n)%nat -> match_up s1 s2 n (s1 k / 4) = s2 k / 4.
Proof.
  induction n as [|n IH]; intros [V1 D1] [V2 D2]; simpl; [split; [done|lia]|].
  destruct IH as [I0 IH]; [split; [intros; apply V1; lia|intros; apply D1; lia]|split; [intros; apply V2; lia|intros; apply D2; lia]|].
  assert (s1 n / 4 <> 0) as N1. { destruct (V1 n) as [A B]; [lia|]. intros E. apply B. apply quot_inj; [done|done|]. by rewrite E. }
  assert (s2 n / 4 <> 0) as N2. { destruct (V2 n) as [A B]; [lia|]. intros E. apply B. apply quot_inj; [done|done|]. by rewrite E. }
  split.
  - rewrite I0. unfold swap. destruct (Z.eqb_spec 0 (match_up s1 s2 n (s1 n / 4))) as [E|_].
    + exfalso. rewrite <- I0 in E at 1. apply match_up_inj in E. congruence.
    + destruct (Z.eqb_spec 0 (s2 n / 4)); [congruence|done].
  - intros k Hk. unfold swap. destruct (decide (k = n)) as [->|Hne]; [by rewrite Z.eqb_refl|]. rewrite IH by lia.
    destruct (Z.eqb_spec (s2 k / 4) (match_up s1 s2 n (s1 n / 4))) as [E|_].
    + exfalso. rewrite <- (IH k) in E by lia. apply match_up_inj in E. apply (D1 k n); [lia|]. apply quot_inj; [apply V1; lia|apply V1; lia|done].
    + destruct (Z.eqb_spec (s2 k / 4) (s2 n / 4)) as [E|_]; [|done]. exfalso. apply (D2 k n); [lia|]. apply quot_inj; [apply V2; lia|apply V2; lia|done].
Qed.
Lemma supplies_alike s1 s2 N : fresh_ids s1 N -> fresh_ids s2 N -> exists f, renaming f /\ forall n, (n < N)%nat -> f (s1 n) = s2 n.
Proof.
  intros H1 H2. destruct (match_up_ok s1 s2 N H1 H2) as [M0 M]. exists (onq (match_up s1 s2 N)). split; [apply renaming_onq; [done|apply match_up_inj]|].
  intros n Hn. unfold onq. rewrite M by done. rewrite (proj1 (proj1 H1 n Hn)). rewrite (Z.div_mod (s2 n) 4) at 2 by lia. by rewrite (proj1 (proj1 H2 n Hn)).
Qed.

Lemma fm0 f : fm f mem0 = mem0.
Proof. unfold fm, mem0. simpl. rewrite fmap_empty. f_equal. exact (fmap_empty (fd f)). Qed.
Lemma fg0 f : renaming f -> fg f glob0 = glob0.
Proof. intros F. unfold fg, glob0. simpl. by rewrite (f_zero _ F). Qed.

(** ** A program that treats ids as opaque does the same whatever ids it is given: same events, same outcome and same contents of all storage up to a
    replacement of ids. *)
Theorem C65_numbers_do_not_matter :
  forall G sup1 sup2 p o m' g', opaque p -> plain_defaults G -> fresh_ids sup1 (ngen g') -> fresh_ids sup2 (ngen g') ->
    lib_run (with_sup sup1 G) None p mem0 glob0 o m' g' ->
    exists f, renaming f /\ (forall n, (n < ngen g')%nat -> f (sup1 n) = sup2 n) /\
      lib_run (with_sup sup2 G) None p mem0 glob0 (fo f o) (fm f m') (fg f g') /\ tr (fg f g') = tr g'.
Proof.
  intros G sup1 sup2 p o m' g' Hp Hd H1 H2 H. destruct (supplies_alike _ _ _ H1 H2) as (f & F & Hf). exists f. split; [done|]. split; [done|]. split; [|done].
  apply (run_depends_on_ids G (fun n => f (sup1 n)) sup2); [|intros n Hn; apply Hf; simpl in Hn; lia].
  pose proof (C65_replaced_ids f (with_sup sup1 G) (fun n => f (sup1 n)) None p p mem0 glob0 F Hd ltac:(done) (Hp _ F)) as E.
  rewrite fm0, (fg0 _ F) in E. change (eval (with_sup sup1 G) (pmach (with_sup sup1 G)) None p (mem0, glob0) = Ok (o, (m', g'))) in H. rewrite H in E. exact E.
Qed.
Print Assumptions C65_numbers_do_not_matter.

(** ** The same for builds without exceptions *)
Theorem C65_replaced_ids_noexcept :
  forall f G sup' p p' m g, renaming f -> plain_defaults G -> (forall n, sup' n = f (g_sup G n)) -> like f p p' ->
    evalN (with_sup sup' G) (pmach (with_sup sup' G)) p' (fm f m, fg f g) =
    match evalN G (pmach G) p (m, g) with
    | Ok (o, (m', g')) => Ok (fo f o, (fm f m', fg f g'))
    | Fail e => Fail e
    end.
Proof.
  intros f G sup' p p' m g F Hd Hs Hl. etransitivity; [exact (proj1 (rn_evalN f F G ltac:(intros; by apply Hd) sup' Hs) p p' (m, g) Hl)|].
  by destruct (evalN _ _ _ _) as [[o [m' g']]|].
Qed.
Print Assumptions C65_replaced_ids_noexcept.
Theorem C65_numbers_do_not_matter_noexcept :
  forall G sup1 sup2 p o m' g', opaque p -> plain_defaults G -> fresh_ids sup1 (ngen g') -> fresh_ids sup2 (ngen g') ->
    evalN (with_sup sup1 G) (pmach (with_sup sup1 G)) p (mem0, glob0) = Ok (o, (m', g')) ->
    exists f, renaming f /\ (forall n, (n < ngen g')%nat -> f (sup1 n) = sup2 n) /\
      evalN (with_sup sup2 G) (pmach (with_sup sup2 G)) p (mem0, glob0) = Ok (fo f o, (fm f m', fg f g')) /\ tr (fg f g') = tr g'.
Proof.
  intros G sup1 sup2 p o m' g' Hp Hd H1 H2 H. destruct (supplies_alike _ _ _ H1 H2) as (f & F & Hf). exists f. split; [done|]. split; [done|]. split; [|done].
  apply (run_depends_on_idsN G (fun n => f (sup1 n)) sup2); [|intros n Hn; apply Hf; simpl in Hn; lia].
  pose proof (C65_replaced_ids_noexcept f (with_sup sup1 G) (fun n => f (sup1 n)) p p mem0 glob0 F Hd ltac:(done) (Hp _ F)) as E.
  rewrite fm0, (fg0 _ F) in E. rewrite H in E. exact E.
Qed.
Print Assumptions C65_numbers_do_not_matter_noexcept.

(** ** Threads: a thread whose program treats ids as opaque does the same under every schedule, whatever the other threads are and do, before the id counter
    has gone round: same events, same outcome and storage up to a replacement of ids. *)
Lemma thread_ids G k n ts c ts' i t o m' g' : Forall begins ts -> steps G n (counter_after k, ts) (c, ts') -> ts' !! i = Some t -> t_glob t = glob0 ->
  ended G t o m' g' -> Z.of_nat (k + n) < 2^30 -> fresh_ids (given (g_sup G) 0 (t_ids t)) (ngen g').
Proof.
  intros Hb H Ht Hg He Hk. destruct (C38_threads_do_not_interfere _ _ _ _ _ _ _ _ _ _ _ Hb H Ht He) as (_ & Hn & _). rewrite Hg in Hn. simpl in Hn.
  destruct (steps_inv _ _ _ _ _ _ Hb H) as (_ & _ & own & Hd & Hown & Hall).
  assert (forall j, (j < ngen g')%nat -> exists a, (a < n)%nat /\ own a = (i, j) /\ given (g_sup G) 0 (t_ids t) j = nth_id (k + a)) as K.
  { intros j Hj. destruct (Hall i t j Ht ltac:(lia)) as (a & Ha & Ea). exists a. split; [done|]. split; [done|]. destruct (Hown a Ha) as (u & Hu & Hid).
    rewrite Ea in Hu, Hid. simpl in *. rewrite Ht in Hu. injection Hu as <-. apply given_old. by rewrite Nat.sub_0_r. }
  split.
  - intros j Hj. destruct (K j Hj) as (a & Ha & _ & ->). split; [apply (C01_ids_valid (k + a))|]. rewrite nth_id_eq. intros E.
    apply (to_int_inj _ 1) in E; [|apply Z.mod_pos_bound; lia|lia]. rewrite Z.mod_small in E; lia.
  - intros a b Hab. destruct (K a ltac:(lia)) as (a1 & A1 & A2 & ->). destruct (K b ltac:(lia)) as (b1 & B1 & B2 & ->).
    assert (a1 <> b1) by (intros ->; rewrite A2 in B2; injection B2; lia).
    destruct (decide (a1 < b1)%nat); [apply C02_ids_distinct; lia|]. intros E. symmetry in E. revert E. apply C02_ids_distinct; lia.
Qed.
Theorem C65_threads :
  forall G k1 n1 ts1 c1 ts1' i1 t1 o1 m1 g1 k2 n2 ts2 c2 ts2' i2 t2 o2 m2 g2,
    Forall begins ts1 -> steps G n1 (counter_after k1, ts1) (c1, ts1') -> ts1' !! i1 = Some t1 -> ended G t1 o1 m1 g1 -> Z.of_nat (k1 + n1) < 2^30 ->
    Forall begins ts2 -> steps G n2 (counter_after k2, ts2) (c2, ts2') -> ts2' !! i2 = Some t2 -> ended G t2 o2 m2 g2 -> Z.of_nat (k2 + n2) < 2^30 ->
    t_mem t1 = mem0 -> t_glob t1 = glob0 -> origin t1 = origin t2 -> opaque (t_prog t1) -> plain_defaults G ->
    tr g1 = tr g2 /\ length (t_ids t1) = length (t_ids t2) /\ exists f, renaming f /\ o2 = fo f o1 /\ m2 = fm f m1 /\ g2 = fg f g1.
Proof.
  assert (forall G k1 n1 ts1 c1 ts1' i1 t1 o1 m1 g1 k2 n2 ts2 c2 ts2' i2 t2 o2 m2 g2,
    Forall begins ts1 -> steps G n1 (counter_after k1, ts1) (c1, ts1') -> ts1' !! i1 = Some t1 -> ended G t1 o1 m1 g1 -> Z.of_nat (k1 + n1) < 2^30 ->
    Forall begins ts2 -> steps G n2 (counter_after k2, ts2) (c2, ts2') -> ts2' !! i2 = Some t2 -> ended G t2 o2 m2 g2 -> Z.of_nat (k2 + n2) < 2^30 ->
    t_mem t1 = mem0 -> t_glob t1 = glob0 -> origin t1 = origin t2 -> opaque (t_prog t1) -> plain_defaults G -> (ngen g1 <= ngen g2)%nat ->
    exists f, renaming f /\ o2 = fo f o1 /\ m2 = fm f m1 /\ g2 = fg f g1) as Half.
  { intros G k1 n1 ts1 c1 ts1' i1 t1 o1 m1 g1 k2 n2 ts2 c2 ts2' i2 t2 o2 m2 g2 Hb1 H1 Ht1 He1 Hk1 Hb2 H2 Ht2 He2 Hk2 Hm Hg Ho Hp Hd Hle.
    injection Ho as E1 E2 E3. pose proof (thread_ids _ _ _ _ _ _ _ _ _ _ _ Hb1 H1 Ht1 Hg He1 Hk1) as F1.
    pose proof (thread_ids _ _ _ _ _ _ _ _ _ _ _ Hb2 H2 Ht2 ltac:(congruence) He2 Hk2) as F2.
    destruct He1 as [R1 L1], He2 as [R2 L2]. rewrite Hm, Hg in R1. rewrite <- E1, <- E2, <- E3, Hm, Hg in R2. simpl in R1, R2.
    destruct (C65_numbers_do_not_matter G _ (given (g_sup G) 0 (t_ids t2)) _ _ _ _ Hp Hd F1 ltac:(destruct F2 as [Fa Fb]; split; [intros; apply Fa; lia|intros; apply Fb; lia]) R1) as (f & F & _ & R & _).
    exists f. split; [done|]. change (eval (with_sup (given (g_sup G) 0 (t_ids t2)) G) (pmach G) None (t_prog t1) (mem0, glob0) = Ok (o2, (m2, g2))) in R2.
    change (eval (with_sup (given (g_sup G) 0 (t_ids t2)) G) (pmach G) None (t_prog t1) (mem0, glob0) = Ok (fo f o1, (fm f m1, fg f g1))) in R. rewrite R2 in R. by injection R. }
  intros G k1 n1 ts1 c1 ts1' i1 t1 o1 m1 g1 k2 n2 ts2 c2 ts2' i2 t2 o2 m2 g2 Hb1 H1 Ht1 He1 Hk1 Hb2 H2 Ht2 He2 Hk2 Hm Hg Ho Hp Hd.
  destruct (C38_threads_do_not_interfere _ _ _ _ _ _ _ _ _ _ _ Hb1 H1 Ht1 He1) as (_ & N1 & _).
  destruct (C38_threads_do_not_interfere _ _ _ _ _ _ _ _ _ _ _ Hb2 H2 Ht2 He2) as (_ & N2 & _).
  injection Ho as E1 E2 E3. rewrite Hg in N1. rewrite <- E3, Hg in N2. simpl in N1, N2. rewrite <- N1, <- N2.
  assert (ngen g1 <= ngen g2)%nat as Hle.
  { destruct (decide (ngen g1 <= ngen g2)%nat) as [|Hn]; [done|].
    assert (exists f, renaming f /\ o1 = fo f o2 /\ m1 = fm f m2 /\ g1 = fg f g2) as (f & _ & _ & _ & E).
    { apply (Half G k2 n2 ts2 c2 ts2' i2 t2 o2 m2 g2 k1 n1 ts1 c1 ts1' i1 t1 o1 m1 g1); try done; try congruence; try lia; [unfold origin; congruence|by rewrite <- E1]. }
    rewrite E in Hn. simpl in Hn. lia. }
  assert (exists f, renaming f /\ o2 = fo f o1 /\ m2 = fm f m1 /\ g2 = fg f g1) as (f & F & Eo & Em & Eg).
  { apply (Half G k1 n1 ts1 c1 ts1' i1 t1 o1 m1 g1 k2 n2 ts2 c2 ts2' i2 t2 o2 m2 g2); try done. unfold origin. congruence. }
  split; [by rewrite Eg|]. split; [by rewrite Eg|]. eauto.
Qed.
Print Assumptions C65_threads.

(** ** Non-vacuity *)
(** A program which keeps an id, starts another error, compares the two, and handles the second with the first one's objects gone. *)
Definition ex65 : prog :=
  PNewError [] (fun a =>
  PBind (PTHA (POnError [IVal TB (VZ 4)] (PNewError [IVal TA (VZ 3)] (fun b => PEmit (if a =? b then 1 else 0) (PRet (RErr b)))))
    (HCons [AE TA; AE TB] (fun l => match l with [VE (VZ x); VE (VZ y)] => PEmit (x + y) (PRet (RVal 1)) | _ => PRet (RVal 2) end) (HCons [] (fun _ => PRet (RVal 3)) HNil)))
   (fun r => match r with RVal z => PEmit z (PRet (RErr a)) | _ => PRet r end)).
Example ex65_opaque : opaque ex65 /\ plain_defaults GX.
Proof.
  split; [|intros f T F; done]. intros f F. cbn. split; [constructor|]. intros a. split.
  - split; [split; [by repeat constructor|split; [by repeat constructor|]]|].
    + intros b. split; [by rewrite (f_eqb _ F)|done].
    + split; [by repeat constructor|]. split; [done|]. split; [|by repeat constructor].
      intros [|[[]| | | | |] [|[[]| | | | |] []]]; done.
  - intros []; done.
Qed.
Example ex65_runs : (exists m' g', lib_run GX None ex65 mem0 glob0 (ORet (RErr 5)) m' g' /\ tr g' = [EvUser 1; EvUser 7; EvUser 0]) /\
  (exists m' g', lib_run (with_sup (fun n => nth_id (100 + 3 * n)) GX) None ex65 mem0 glob0 (ORet (RErr 405)) m' g' /\ tr g' = [EvUser 1; EvUser 7; EvUser 0]).
Proof. split; eexists _, _; (split; [vm_compute; reflexivity|reflexivity]). Qed.
Example ex65_runs_noexcept : (exists m' g', evalN GX (pmach GX) ex65 (mem0, glob0) = Ok (ORet (RErr 5), (m', g')) /\ tr g' = [EvUser 1; EvUser 7; EvUser 0]) /\
  (exists m' g', evalN (with_sup (fun n => nth_id (100 + 3 * n)) GX) (pmach GX) ex65 (mem0, glob0) = Ok (ORet (RErr 405), (m', g')) /\ tr g' = [EvUser 1; EvUser 7; EvUser 0]).
Proof. split; eexists _, _; (split; [vm_compute; reflexivity|reflexivity]). Qed.
Example ex65_threads : forall z, opaque (ex38_prog z).
Proof.
  intros z f F. cbn. split.
  - split; [split; [by repeat constructor|done]|]. split; [by repeat constructor|]. split; [done|]. split; [|by repeat constructor]. intros [|[[]| | | | |] []]; done.
  - intros r. split; [constructor|done].
Qed.
(** A program that prints an id is not opaque. *)
Example ex65_not_opaque : ~ opaque (PNewError [] (fun id => PEmit id (PRet (RVal 0)))).
Proof.
  intros H. destruct (supplies_alike (fun _ => 5) (fun _ => 9) 1) as (f & F & Hf); try (split; [intros; split; [done|lia]|intros; lia]).
  specialize (H f F). cbn in H. destruct H as [_ H]. destruct (H 5) as [E _]. rewrite (Hf 0%nat) in E; [done|lia].
Qed.

(** ** When the id counter has gone round one id is 1, which is what current_error() is without an error. Then an opaque program can behave differently (see C49). *)
Theorem C65_after_wrap_refuted :
  (forall before n, Z.of_nat before = 2^30 - 1 -> Z.of_nat n < 2^29 -> g_sup GW n = nth_id (before + n)) /\
  opaque ex49_first /\
  (exists m' g', lib_run GX None ex49_first mem0 glob0 (ORet (RVal 1)) m' g') /\
  (exists m' g', lib_run (with_sup (g_sup GW) GX) None ex49_first mem0 glob0 (ORet (RVal 7)) m' g').
Proof.
  split; [exact GW_ids|]. split.
  - intros f F. cbn. split; [|split; [by repeat constructor|split; [done|split; [|by repeat constructor]]]].
    + intros id. split; [done|]. split; [by repeat constructor|]. split; [constructor|done].
    + intros [|[[]| | | | |] []]; done.
  - split; eexists _, _; vm_compute; reflexivity.
Qed.
Print Assumptions C65_after_wrap_refuted.
