(** Properties of several threads: C02, C38. *)
From Verif Require Import Threads PropsIds PropsSim.
Open Scope Z_scope.

(** ** Auxiliary facts *)
Lemma given_old x n0 l n id : l !! (n - n0)%nat = Some id -> given x n0 l n = id.
Proof. unfold given. by intros ->. Qed.
Lemma given_app x y n0 l l' n : (n < n0 + length l)%nat -> given x n0 l n = given y n0 (l ++ l') n \/ (n < n0)%nat.
Proof.
  intros H. unfold given. destruct (decide (n < n0)%nat) as [|Hn]; [by right|]. left.
  assert (n - n0 < length l)%nat as Hl by lia. destruct (lookup_lt_is_Some_2 _ _ Hl) as [id E].
  by rewrite (lookup_app_l_Some _ _ _ _ E), E.
Qed.

(** A thread which has ended does so whatever the ids it would have got next. *)
Lemma ended_any G t o m' g' f : ended G t o m' g' ->
  (forall k id, t_ids t !! k = Some id -> f (ngen (t_glob t) + k)%nat = id) ->
  lib_run (with_sup f G) None (t_prog t) (t_mem t) (t_glob t) o m' g'.
Proof.
  intros [H Hn] Hf. refine (run_depends_on_ids G _ f _ _ _ _ _ _ _ H _). intros n [Hl Hu].
  unfold given. assert (n - ngen (t_glob t) < length (t_ids t))%nat as L by lia.
  destruct (lookup_lt_is_Some_2 _ _ L) as [id E]. rewrite E. rewrite <- (Hf _ _ E). f_equal. lia.
Qed.
Lemma run_ngen G caught p m g o m' g' : lib_run G caught p m g o m' g' -> (ngen g <= ngen g')%nat.
Proof.
  intros H. exact (proj1 (proj1 (loc_eval G (g_sup G) (g_sup G)) p caught (m, g) (o, (m', g'))
    ltac:(destruct G; exact H))).
Qed.
(** With one more id, either it was needed or it had ended before. *)
Lemma ended_shorter G p m g l id o m' g' : ended G (Th p m g (l ++ [id])) o m' g' ->
  ngen g' = (ngen g + length (l ++ [id]))%nat \/ ended G (Th p m g l) o m' g'.
Proof.
  intros [H Hn]. simpl in *. destruct (decide (ngen g' = ngen g + length (l ++ [id]))%nat) as [|Hne]; [by left|]. right. split; [|rewrite app_length in *; simpl in *; lia].
  refine (run_depends_on_ids G _ _ _ _ _ _ _ _ _ H _). intros n [Hl Hu]. simpl.
  destruct (given_app (g_sup G) (g_sup G) (ngen g) l [id] n) as [->|]; [rewrite app_length in *; simpl in *; lia|done|lia].
Qed.

Lemma counter_gen k : generate_next_id (counter_after k) = counter_after (S k).
Proof. done. Qed.

(** Invariant: thread programs and start states are unchanged; every id is one of the n generated; a thread never has more ids than it needs. *)
Definition origin (t : thread) : prog * mem * glob := (t_prog t, t_mem t, t_glob t).
Lemma steps_inv G k n ts c ts' : Forall begins ts -> steps G n (counter_after k, ts) (c, ts') ->
  c = counter_after (k + n) /\ origin <$> ts' = origin <$> ts /\
  (exists own : nat -> nat * nat,
     (forall a b, (a < b < n)%nat -> own a <> own b) /\
     (forall a, (a < n)%nat -> exists t, ts' !! fst (own a) = Some t /\ t_ids t !! snd (own a) = Some (nth_id (k + a))) /\
     (forall i t j, ts' !! i = Some t -> (j < length (t_ids t))%nat -> exists a, (a < n)%nat /\ own a = (i, j))).
Proof.
  intros Hb. remember (counter_after k, ts) as w eqn:Ew. remember (c, ts') as w' eqn:Ew'. intros H. revert c ts' Ew'.
  induction H as [w|n w1 w2 w3 H IH Hs]; intros c ts' ->.
  - injection Ew as -> ->. rewrite Nat.add_0_r. split; [done|]. split; [done|]. exists (fun a => (a, 0%nat)). split; [lia|]. split; [lia|].
    intros i t j Ht Hj. pose proof (Forall_lookup_1 _ _ _ _ Hb Ht) as E. unfold begins in E. rewrite E in Hj. simpl in Hj. lia.
  - inversion Hs as [c0 ts0 i t Ht Hne]; subst w2 c ts'. destruct (IH Ew _ _ eq_refl) as (-> & Ho & own & Hd & Hown & Hall).
    rewrite counter_gen. replace (S (k + n)) with (k + S n)%nat by lia. split; [done|]. split.
    { rewrite list_fmap_insert, <- Ho. unfold origin at 1. simpl. apply list_insert_id. by rewrite list_lookup_fmap, Ht. }
    assert (to_int (counter_after (k + S n)) = nth_id (k + n)) as E by (unfold nth_id; do 2 f_equal; lia). rewrite E. clear E.
    exists (fun a => if decide (a = n) then (i, length (t_ids t)) else own a).
    assert (forall a, (a < n)%nat -> own a <> (i, length (t_ids t))) as Hnew.
    { intros a Ha Eo. destruct (Hown a Ha) as (u & Hu & Hid). rewrite Eo in Hu, Hid. simpl in *. rewrite Ht in Hu. injection Hu as <-.
      apply lookup_lt_Some in Hid. lia. }
    split; [|split].
    + intros a b Hab. destruct (decide (a = n)); [lia|]. destruct (decide (b = n)); [apply Hnew; lia|apply Hd; lia].
    + intros a Ha. destruct (decide (a = n)) as [->|].
      * simpl. eexists. split; [apply list_lookup_insert; by eapply lookup_lt_Some|]. simpl. rewrite lookup_app_r by lia. by rewrite Nat.sub_diag.
      * destruct (Hown a) as (u & Hu & Hid); [lia|]. destruct (decide (i = fst (own a))) as [Ei|Ei].
        -- rewrite <- Ei in *. rewrite Ht in Hu. injection Hu as <-. eexists. split; [apply list_lookup_insert; by eapply lookup_lt_Some|]. simpl.
           rewrite lookup_app_l; [done|]. by eapply lookup_lt_Some.
        -- exists u. by rewrite list_lookup_insert_ne.
    + intros i' t' j Ht' Hj. destruct (decide (i = i')) as [<-|Hi].
      * rewrite list_lookup_insert in Ht' by (by eapply lookup_lt_Some). injection Ht' as <-. simpl in Hj. rewrite app_length in Hj. simpl in Hj.
        destruct (decide (j = length (t_ids t))) as [->|]; [exists n; split; [lia|]; by rewrite decide_True|].
        destruct (Hall i t j Ht) as (a & Ha & Eo); [lia|]. exists a. split; [lia|]. rewrite decide_False by lia. done.
      * rewrite list_lookup_insert_ne in Ht' by done. destruct (Hall i' t' j Ht' Hj) as (a & Ha & Eo). exists a. split; [lia|]. by rewrite decide_False by lia.
Qed.

(** ** C02: whatever the number of threads, what they do, the schedule and the counter's position at the start: the n-th id handed out anywhere is the n-th
    of the counter's sequence; so ids handed out at two different places (thread i's j-th, thread i2's j2-th) differ, if less than 2^30 were handed out. *)
Theorem C02_ids_of_threads_distinct :
  forall G k n ts c ts' i t j id i2 t2 j2 id2,
    Forall begins ts -> steps G n (counter_after k, ts) (c, ts') -> Z.of_nat n <= 2^30 ->
    ts' !! i = Some t -> t_ids t !! j = Some id -> ts' !! i2 = Some t2 -> t_ids t2 !! j2 = Some id2 ->
    (i, j) <> (i2, j2) -> id <> id2.
Proof.
  intros G k n ts c ts' i t j id i2 t2 j2 id2 Hb H Hn Ht Hj Ht2 Hj2 Hne E.
  destruct (steps_inv _ _ _ _ _ _ Hb H) as (_ & _ & own & Hd & Hown & Hall).
  destruct (Hall i t j Ht (lookup_lt_Some _ _ _ Hj)) as (a & Ha & Ea). destruct (Hall i2 t2 j2 Ht2 (lookup_lt_Some _ _ _ Hj2)) as (b & Hb2 & Eb).
  destruct (Hown a Ha) as (u & Hu & Hida). destruct (Hown b Hb2) as (v & Hv & Hidb). rewrite Ea in Hu, Hida. rewrite Eb in Hv, Hidb. simpl in *.
  rewrite Ht in Hu. injection Hu as <-. rewrite Ht2 in Hv. injection Hv as <-. rewrite Hj in Hida. rewrite Hj2 in Hidb. injection Hida as ->. injection Hidb as ->.
  destruct (decide (a < b)%nat) as [L|L]; [|destruct (decide (b < a)%nat) as [L'|L']].
  - apply (C02_ids_distinct (k + a) (k + b)); [lia|lia|done].
  - apply (C02_ids_distinct (k + b) (k + a)); [lia|lia|done].
  - assert (a = b) as -> by lia. rewrite Ea in Eb. done.
Qed.
Print Assumptions C02_ids_of_threads_distinct.

(** And every one is a good id. *)
Theorem C02_ids_of_threads_valid :
  forall G k n ts c ts' i t j id,
    Forall begins ts -> steps G n (counter_after k, ts) (c, ts') -> ts' !! i = Some t -> t_ids t !! j = Some id ->
    - 2^31 <= id < 2^31 /\ id mod 4 = 1.
Proof.
  intros G k n ts c ts' i t j id Hb H Ht Hj. destruct (steps_inv _ _ _ _ _ _ Hb H) as (_ & _ & own & _ & Hown & Hall).
  destruct (Hall i t j Ht (lookup_lt_Some _ _ _ Hj)) as (a & Ha & Ea). destruct (Hown a Ha) as (u & Hu & Hid). rewrite Ea in Hu, Hid. simpl in *.
  rewrite Ht in Hu. injection Hu as <-. rewrite Hj in Hid. injection Hid as ->. exact (proj1 (C01_ids_valid (k + a))).
Qed.
Print Assumptions C02_ids_of_threads_valid.

(** ** C38: a thread which has ended under any schedule did exactly what it does when it runs alone, with a supply of ids which hands out the same ones, in the
    same order, and it needed all of them; it started as it was. *)
Theorem C38_threads_do_not_interfere :
  forall G k n ts c ts' i t o m' g',
    Forall begins ts -> steps G n (counter_after k, ts) (c, ts') -> ts' !! i = Some t -> ended G t o m' g' ->
    (exists t0, ts !! i = Some t0 /\ t_prog t = t_prog t0 /\ t_mem t = t_mem t0 /\ t_glob t = t_glob t0) /\
    ngen g' = (ngen (t_glob t) + length (t_ids t))%nat /\
    forall f, (forall j id, t_ids t !! j = Some id -> f (ngen (t_glob t) + j)%nat = id) ->
      lib_run (with_sup f G) None (t_prog t) (t_mem t) (t_glob t) o m' g'.
Proof.
  intros G k n ts c ts' i t o m' g' Hb H Ht He. destruct (steps_inv _ _ _ _ _ _ Hb H) as (_ & Ho & _).
  split.
  { assert ((origin <$> ts') !! i = Some (origin t)) as E by (by rewrite list_lookup_fmap, Ht). rewrite Ho, list_lookup_fmap in E.
    destruct (ts !! i) as [t0|]; [|done]. simpl in E. injection E as E1 E2 E3. exists t0. by rewrite E1, E2, E3. }
  split; [|intros f Hf; exact (ended_any _ _ _ _ _ f He Hf)].
  clear Ho. revert t o m' g' i Ht He. remember (counter_after k, ts) as w eqn:Ew. remember (c, ts') as w' eqn:Ew'. revert c ts' Ew'.
  induction H as [w|n w1 w2 w3 H IH Hs]; intros c ts' -> t o m' g' i Ht He.
  - injection Ew as -> ->. pose proof (Forall_lookup_1 _ _ _ _ Hb Ht) as E. unfold begins in E. destruct He as [He Hn]. rewrite E in *. simpl in *.
    apply run_ngen in He. lia.
  - inversion Hs as [c0 ts0 i0 t0 Ht0 Hne]; subst w2 c ts'. destruct (decide (i0 = i)) as [->|Hi].
    + rewrite list_lookup_insert in Ht by (by eapply lookup_lt_Some). injection Ht as <-. destruct (ended_shorter _ _ _ _ _ _ _ _ _ He) as [E|E]; [done|].
      destruct Hne. exists o, m', g'. by destruct t0.
    + rewrite list_lookup_insert_ne in Ht by done. exact (IH Ew _ _ eq_refl _ _ _ _ _ Ht He).
Qed.
Print Assumptions C38_threads_do_not_interfere.
Print Assumptions run_depends_on_ids.

(** A thread which has ended is left alone by the others. *)
Theorem C38_ended_stays :
  forall G w w' i t o m' g', step G w w' -> snd w !! i = Some t -> ended G t o m' g' -> snd w' !! i = Some t.
Proof.
  intros G w w' i t o m' g' Hs Ht He. inversion Hs as [c ts i0 t0 Ht0 Hne]; subst. simpl in *. destruct (decide (i0 = i)) as [->|].
  - rewrite Ht in Ht0. injection Ht0 as <-. destruct Hne. by exists o, m', g'.
  - by rewrite list_lookup_insert_ne.
Qed.
Print Assumptions C38_ended_stays.

(** Two threads, each of which starts an error, loads an object and handles it, then starts another one; the ids alternate in the order 0, 1, 1, 0. *)
Definition ex38_prog (z : Z) : prog :=
  PBind (PTHA (PNewError [IVal TA (VZ z)] (fun id => PRet (RErr id)))
    (HCons [AE TA] (fun l => PEmit (match l with [VE (VZ v)] => v | _ => 0 end) (PRet (RVal 1))) (HCons [] (fun _ => PRet (RVal 2)) HNil)))
    (fun _ => PNewError [] (fun id => PRet (RErr id))).
Definition ex38_th (z : Z) (l : list Z) : thread := Th (ex38_prog z) mem0 glob0 l.
Definition ex38_done (z : Z) (l : list Z) : bool :=
  match eval (with_sup (given (g_sup GX) 0 l) GX) (pmach GX) None (ex38_prog z) (mem0, glob0) with
  | Ok (_, (_, g')) => (ngen g' <=? length l)%nat | _ => false end.
Lemma ex38_not z l : ex38_done z l = false -> ~ (exists o m' g', ended GX (ex38_th z l) o m' g').
Proof.
  intros H (o & m' & g' & He & Hn). unfold ex38_done in H. simpl in Hn.
  assert (eval (with_sup (given (g_sup GX) 0 l) GX) (pmach GX) None (ex38_prog z) (mem0, glob0) = Ok (o, (m', g'))) as E by exact He.
  rewrite E in H. apply Nat.leb_gt in H. lia.
Qed.
Example ex38 : steps GX 4 (1, [ex38_th 100 []; ex38_th 200 []]) (17, [ex38_th 100 [5; 17]; ex38_th 200 [9; 13]]) /\
  Forall begins [ex38_th 100 []; ex38_th 200 []] /\ counter_after 0 = 1 /\
  (exists o m' g', ended GX (ex38_th 100 [5; 17]) o m' g' /\ o = ORet (RErr 17) /\ tr g' = [EvUser 100]) /\
  (exists o m' g', ended GX (ex38_th 200 [9; 13]) o m' g' /\ o = ORet (RErr 13) /\ tr g' = [EvUser 200]).
Proof.
  assert (forall w1 w2 i t, fst w1 = fst w1 -> snd w1 !! i = Some t -> ~ (exists o m' g', ended GX t o m' g') ->
    w2 = (generate_next_id (fst w1), <[ i := Th (t_prog t) (t_mem t) (t_glob t) (t_ids t ++ [to_int (generate_next_id (fst w1))]) ]> (snd w1)) -> step GX w1 w2) as Hs.
  { intros [c ts] w2 i t _ H1 H2 ->. by constructor. }
  split; [|split; [by repeat constructor|split; [done|]]].
  - eapply (steps_S _ _ _ (13, [ex38_th 100 [5]; ex38_th 200 [9; 13]])); [eapply (steps_S _ _ _ (9, [ex38_th 100 [5]; ex38_th 200 [9]]));
      [eapply (steps_S _ _ _ (5, [ex38_th 100 [5]; ex38_th 200 []])); [eapply (steps_S _ _ _ (1, [ex38_th 100 []; ex38_th 200 []])); [constructor|]|]|]|].
    + eapply (Hs _ _ 0%nat); [done|done|by apply ex38_not|done].
    + eapply (Hs _ _ 1%nat); [done|done|by apply ex38_not|done].
    + eapply (Hs _ _ 1%nat); [done|done|by apply ex38_not|done].
    + eapply (Hs _ _ 0%nat); [done|done|by apply ex38_not|done].
  - split; eexists _, _, _; (split; [split; [vm_compute; reflexivity|vm_compute; lia]|split; reflexivity]).
Qed.
