(** C54, C55, C66: assertions, diagnostics and failing allocations in builds without exceptions. *)
From Verif Require Export MorphN ConfigN PropsOom PropsConfig.
Open Scope Z_scope.

(** *** Assertions *)
Lemma close_asserts G : close (fun e => e = Assert) G (pmach (asserts_on G)) (pmach G) (fun m1 m2 : mem => m1 = m2) (fun _ => True) (fun _ => True).
Proof.
  pose proof (below_asserts G) as B.
  assert (forall x y : res (mem * glob), refp (fun e => e = Assert) eq x y -> refp (fun e => e = Assert) (Qs (pmach (asserts_on G)) (pmach G) (fun m1 m2 : mem => m1 = m2)) x y) as HQ.
  { intros [a|e] [b|e']; simpl; auto. by intros ->. }
  constructor; simpl.
  - intros b id it m ? g _ <-. apply HQ, (b_load _ _ _ B).
  - intros id l m ? g <-. apply HQ, (b_capunload _ _ _ B).
  - intros tup m ? _ <-. pose proof (b_new _ _ _ B tup m) as H. split; [done|exact (f_equal snd H)].
  - intros c m ? <-. apply (b_act _ _ _ B).
  - intros c m ? <-. apply (b_deact _ _ _ B).
  - intros c m ? <-. apply ref_refl.
  - intros c m ? <-. apply (b_destroy _ _ _ B).
  - intros c m ? <-. apply (b_drop _ _ _ B).
  - intros c id m ? g <-. apply HQ, (b_unload _ _ _ B).
  - intros c T id m ? <-. apply (b_get _ _ _ B).
  - intros c T i v m ? <-. apply ref_refl.
  - intros c id m ? <-. apply (b_print _ _ _ B).
  - intros c id m ? <-. apply (b_details _ _ _ B).
  - intros c id b m ? _ _ <-. pose proof (b_extract _ _ _ B c id b m) as H. destruct (mextract (asserts_on G) c id b m) as [[l m1]|e], (mextract G c id b m) as [[l' m2]|e']; simpl in *; auto. by injection H as -> ->.
Qed.
Lemma uses_all G : forall p, uses G (fun _ => True) (fun _ => True) p.
Proof. intros p. apply (creates_uses G _ _ (fun _ => Logic.I)), (creates_all G _ (fun _ => Logic.I)). Qed.

Lemma but_refl G : but_asserts G G.
Proof. exists (g_asserts G). by destruct G. Qed.

(** C54 in builds without exceptions *)
Theorem C54_assertions_only_stop_without_exceptions :
  forall G p m g,
    evalN (asserts_on G) (pmach (asserts_on G)) p (m, g) = Fail Assert \/
    evalN (asserts_on G) (pmach (asserts_on G)) p (m, g) = evalN G (pmach G) p (m, g).
Proof.
  intros G p m g.
  pose proof (proj1 (morph_evalN _ (asserts_on G) G _ _ _ _ _ (ex_intro _ true eq_refl) (ref_assert G) (close_asserts G)) p (uses_all G p) (m, g) (m, g) ltac:(done)) as H.
  destruct (evalN (asserts_on G) (pmach (asserts_on G)) p (m, g)) as [[o [m1 g1]]|e], (evalN G (pmach G) p (m, g)) as [[o' [m2 g2]]|e']; simpl in H; try done.
  - right. destruct H as [H1 [H2 H3]]. simpl in *. by subst.
  - destruct H as [H|H]; [left; by f_equal|done].
  - destruct H as [H|H]; [left; by f_equal|right; exact (eq_sym H)].
Qed.
Print Assumptions C54_assertions_only_stop_without_exceptions.

(** C55 in builds without exceptions *)
Theorem C55_diagnostics_change_only_what_is_shown_without_exceptions :
  forall G p m g, blind False p ->
    evalN G (pmach G) p (m, g) = Fail UAF \/
    evalN G (pmach G) p (m, g) = evalN (diag_off G) (pmach (diag_off G)) p (m, g).
Proof.
  intros G p m g Hp. pose proof (proj1 (ref_evalN _ _ _ (below_diag G)) p (m, g)) as H.
  destruct (proj1 (ref_cases _ _ _) (H (proj1 (blind_mono False (g_diag G = g_diag (diag_off G)) ltac:(done)) p Hp))) as [(e & He & ->)|He]; [by left|by right].
Qed.
Print Assumptions C55_diagnostics_change_only_what_is_shown_without_exceptions.

(** *** Failing allocations *)
Section oom.
Context (G : cfg) (F : fails).
Notation EA := (fun e => e = Assert).
Lemma mload_unserved b b' id it m g : match it with IVal T _ | IDef T _ _ | IAcc T _ _ => tls m !! T = None | IVoid _ => True end -> mload G b id it m g = mload G b' id it m g.
Proof. destruct it; cbn [mload]; unfold load_slot, load_slot_deferred; try done; by intros ->. Qed.
Lemma ref_oloadN b id it m g : refp EA eq (oloadN G F b id it m g) (mload G b id it m g).
Proof.
  destruct it as [T v|T tag gf|T tag f|tag]; cbn [oloadN]; try apply ref_refl; (destruct (tls m !! T) eqn:ET; [apply ref_refl|]);
    rewrite (mload_unserved b false) by done; apply ref_oload.
Qed.
Lemma close_stopN : close EA G (omachN G F) (pmach G) (fun m1 m2 : mem => m1 = m2) (fun _ => True) (fun _ => True).
Proof.
  assert (forall x y : res (mem * glob), refp EA eq x y -> refp EA (Qs (omachN G F) (pmach G) (fun m1 m2 : mem => m1 = m2)) x y) as HQ.
  { intros [a|e] [b|e']; simpl; auto. by intros ->. }
  constructor; simpl.
  - intros b id it m ? g _ <-. apply HQ, ref_oloadN.
  - intros id l m ? g <-. apply HQ, ref_unless.
  - intros tup m ? _ <-. done.
  - intros c m ? <-. apply ref_refl.
  - intros c m ? <-. apply ref_refl.
  - intros c m ? <-. apply ref_refl.
  - intros c m ? <-. apply ref_refl.
  - intros c m ? <-. apply ref_refl.
  - intros c id m ? g <-. apply HQ, ref_unless.
  - intros c T id m ? <-. apply ref_refl.
  - intros c T i v m ? <-. apply ref_refl.
  - intros c id m ? <-. apply ref_refl.
  - intros c id m ? <-. apply ref_refl.
  - intros c id b m ? _ _ <-. destruct (mextract G c id b m) as [[l m1]|e]; simpl; auto.
Qed.
End oom.

(** Without exceptions: every program, with on_error too, ends where memory runs out; if it does not end there, nothing is different. *)
Theorem C66_stops_or_same_without_exceptions :
  forall G F p s, evalN G (omachN G F) p s = Fail Assert \/ evalN G (omachN G F) p s = evalN G (pmach G) p s.
Proof.
  intros G F p [m g].
  pose proof (proj1 (morph_evalN _ G G _ _ _ _ _ (but_refl G) (fun b => ref_refl _ _) (close_stopN G F)) p (uses_all G p) (m, g) (m, g) ltac:(done)) as H.
  destruct (evalN G (omachN G F) p (m, g)) as [[o [m1 g1]]|e], (evalN G (pmach G) p (m, g)) as [[o' [m2 g2]]|e']; simpl in H; try done.
  - right. destruct H as [H1 [H2 H3]]. simpl in *. by subst.
  - destruct H as [H|H]; [left; by f_equal|done].
  - destruct H as [H|H]; [left; by f_equal|right; exact (eq_sym H)].
Qed.
Print Assumptions C66_stops_or_same_without_exceptions.
(** With enough memory nothing is different. *)
Lemma oload_plenty G b id it m g : oload G plenty b id it m g = mload G b id it m g.
Proof.
  assert (forall b id T v c m, (let! x := oda_load G plenty c id T v m in if fst x || b then Ok (snd x) else Fail Assert) = da_load G c id T v m) as Hd.
  { intros b' id' T v c m0. unfold oda_load. simpl. by destruct (da_load G c id' T v m0). }
  assert (forall b id T v m, caught_if b (odyn_load G plenty id T v m) = dyn_load G id T v m) as Hl.
  { intros b' id' T v m0. unfold caught_if, odyn_load, dyn_load. destruct (tlsd m0) as [c|]; [|done]. destruct (deref (dhp m0 !! c)) as [d|]; [|done]. cbn [rbind].
    destruct (negb _); [apply Hd|]. destruct (dslot_load G c id' m0); [|done]. apply Hd. }
  destruct it as [T v|T tag gf|T tag f|tag]; cbn [oload mload]; try done; unfold load_slot, load_slot_deferred, load_slot_accumulate; (destruct (tls m !! T); [done|]); (destruct (g_capture G); [|done]); rewrite ?Hl; try done.
  unfold caught_if, odyn_accumulate, dyn_accumulate. destruct (tlsd m) as [c|]; [|done]. destruct (deref (dhp m !! c)) as [d|]; [|done]. cbn [rbind].
  destruct (if d_key d =? id then _ else _) as [m1|]; [|done]. cbn [rbind]. unfold oda_load. simpl. by destruct (da_load G c id T (f (g_def G T)) m1).
Qed.
Theorem C66_enough_memory_without_exceptions :
  forall G p s, evalN G (omachN G plenty) p s = evalN G (pmach G) p s.
Proof.
  intros G p [m g].
  assert (forall {A} (f : A -> mem) m (r : res A), unless_fails plenty f m r = r) as Hu.
  { intros A f m0 [a|e]; [|done]. unfold unless_fails. cbn [rbind]. replace (existsb _ _) with false; [done|]. symmetry. apply not_true_is_false. intros H. apply existsb_exists in H as (? & _ & ?). done. }
  assert (forall x y : res (mem * glob), refp (fun _ => False) eq x y -> refp (fun _ => False) (Qs (omachN G plenty) (pmach G) (fun m1 m2 : mem => m1 = m2)) x y) as HQ.
  { intros [a|e] [b|e']; simpl; auto. by intros ->. }
  assert (close (fun _ => False) G (omachN G plenty) (pmach G) (fun m1 m2 : mem => m1 = m2) (fun _ => True) (fun _ => True)) as C.
  { constructor; simpl.
    - intros b id it m0 ? g0 _ <-. apply HQ. replace (oloadN G plenty b id it m0 g0) with (mload G b id it m0 g0); [apply ref_refl|]. symmetry.
      destruct it as [T v|T tag gf|T tag f|tag]; cbn [oloadN]; try done; (destruct (tls m0 !! T) eqn:ET; [done|]); rewrite oload_plenty; by apply mload_unserved.
    - intros id l m0 ? g0 <-. rewrite Hu. apply HQ, ref_refl.
    - intros tup m0 ? _ <-. done.
    - intros c m0 ? <-. apply ref_refl.
    - intros c m0 ? <-. apply ref_refl.
    - intros c m0 ? <-. apply ref_refl.
    - intros c m0 ? <-. apply ref_refl.
    - intros c m0 ? <-. apply ref_refl.
    - intros c id m0 ? g0 <-. rewrite Hu. apply HQ, ref_refl.
    - intros c T id m0 ? <-. apply ref_refl.
    - intros c T i v m0 ? <-. apply ref_refl.
    - intros c id m0 ? <-. apply ref_refl.
    - intros c id m0 ? <-. apply ref_refl.
    - intros c id b m0 ? _ _ <-. destruct (mextract G c id b m0) as [[l m1]|e]; simpl; auto. }
  pose proof (proj1 (morph_evalN _ G G _ _ _ _ _ (but_refl G) (fun b => ref_refl _ _) C) p (uses_all G p) (m, g) (m, g) ltac:(done)) as H.
  destruct (evalN G (omachN G plenty) p (m, g)) as [[o [m1 g1]]|e], (evalN G (pmach G) p (m, g)) as [[o' [m2 g2]]|e']; simpl in H; try done.
  - destruct H as [H1 [H2 H3]]. simpl in *. by subst.
  - by destruct H.
  - destruct H as [[]|H]. exact (eq_sym H).
Qed.
Print Assumptions C66_enough_memory_without_exceptions.

(** A program for which the library allocates no memory does not depend on how much memory there is: it never ends for want of it. *)
Lemma oloadN_calm G F b id it m g : calm G m -> oloadN G F b id it m g = mload G b id it m g.
Proof.
  intros Hc. destruct it as [T v|T tag gf|T tag f|tag]; cbn [oloadN]; try done; (destruct (tls m !! T) eqn:ET; [done|]); rewrite oload_calm by done; by apply mload_unserved.
Qed.
Lemma close_calmN G F (b : bool) : (b = false -> g_capture G = false) -> (forall n, g_sup G n <> 0) ->
  close (fun _ => False) G (omachN G F) (pmach G) (fun m1 m2 : mem => m1 = m2 /\ (calm G m1 /\ (b = true -> nobody_collects m1))) (okb b) (fun _ => True).
Proof.
  intros Hb Hs. pose proof (close_calm G F b Hb Hs) as B. constructor.
  - intros b' id it m1 m2 g Ho HQ. pose proof (cl_load _ _ _ _ _ _ _ B b' id it m1 m2 g Ho HQ) as H. simpl in *. destruct HQ as [-> [Hc _]].
    rewrite oload_calm in H by done. rewrite oloadN_calm by done. exact H.
  - exact (cl_capunload _ _ _ _ _ _ _ B).
  - exact (cl_new _ _ _ _ _ _ _ B).
  - exact (cl_act _ _ _ _ _ _ _ B).
  - exact (cl_deact _ _ _ _ _ _ _ B).
  - exact (cl_isact _ _ _ _ _ _ _ B).
  - exact (cl_destroy _ _ _ _ _ _ _ B).
  - exact (cl_drop _ _ _ _ _ _ _ B).
  - exact (cl_unload _ _ _ _ _ _ _ B).
  - exact (cl_get _ _ _ _ _ _ _ B).
  - exact (cl_set _ _ _ _ _ _ _ B).
  - exact (cl_print _ _ _ _ _ _ _ B).
  - exact (cl_details _ _ _ _ _ _ _ B).
  - intros c id b' m1 m2 Hg Ho HQ. exfalso. destruct b; [|by rewrite (Hb eq_refl) in Hg]. destruct (Ho eq_refl). constructor.
Qed.
Theorem C66_no_memory_needed_without_exceptions :
  forall G F p m g, (forall n, g_sup G n <> 0) ->
    (g_capture G = false \/ frugal (g_diag G) p /\ nobody_collects m) ->
    evalN G (omachN G F) p (m, g) = evalN G (pmach G) p (m, g).
Proof.
  intros G F p m g Hs Hc.
  assert (exists b, (b = false -> g_capture G = false) /\ creates G (okb b) p /\ calm G m /\ (b = true -> nobody_collects m)) as (b & Hb & Hp & Hm).
  { destruct Hc as [Hg|[Hp Hn]].
    - exists false. split; [done|]. split; [|split; [by left|done]]. apply (creates_all G (okb false)). by intros tup.
    - exists true. split; [done|]. split; [by apply frugal_creates|]. split; [|done]. eapply (still_calm G true); [done|]. by split. }
  pose proof (proj1 (morph_evalN _ G G _ _ _ _ _ (but_refl G) (fun b => ref_refl _ _) (close_calmN G F b Hb Hs)) p (proj1 (creates_uses G _ _ (fun _ => Logic.I)) p Hp) (m, g) (m, g)
    ltac:(by repeat split; apply Hm)) as H.
  destruct (evalN G (omachN G F) p (m, g)) as [[o [m1 g1]]|e], (evalN G (pmach G) p (m, g)) as [[o' [m2 g2]]|e']; simpl in H; try done.
  - destruct H as [H1 [[H2 _] H3]]. simpl in *. by subst.
  - by destruct H.
  - destruct H as [[]|H]. exact (eq_sym H).
Qed.
Print Assumptions C66_no_memory_needed_without_exceptions.

(** ** Non-trivial cases *)
(** The program of ex66_drops, which has an on_error: it goes on only if memory lasts for all three allocations. *)
Example ex66_stops_without_exceptions :
  map (fun F => value_of (evalN GX (omachN GX F) ex66_q (mem0, glob0))) [first_fails 0; first_fails 1; first_fails 2; plenty] = [Some (-99); Some (-99); Some 10; Some 10].
Proof. vm_compute. reflexivity. Qed.
(** Assertions: the programs of ex54_stops and ex54_same *)
Example ex54_without_exceptions :
  evalN (asserts_on (noasserts GX)) (pmach (asserts_on (noasserts GX))) ex54_bad (mem0, glob0) = Fail Assert /\
  match evalN (noasserts GX) (pmach (noasserts GX)) ex54_bad (mem0, glob0) with Ok (o, _) => Some o | _ => None end = Some (ORet (RVal 5)) /\
  match evalN (asserts_on (noasserts GX)) (pmach (asserts_on (noasserts GX))) ex66_q (mem0, glob0) with Ok (o, _) => Some o | _ => None end = Some (ORet (RVal 10)).
Proof. split_and!; vm_compute; reflexivity. Qed.
(** The program of ex55_blind, with and without diagnostics *)
Example ex55_without_exceptions : blind False ex55 /\
  match evalN GX (pmach GX) ex55 (mem0, glob0), evalN (diag_off GX) (pmach (diag_off GX)) ex55 (mem0, glob0) with
  | Ok (o1, _), Ok (o2, _) => o1 = ORet (RVal 75) /\ o2 = ORet (RVal 75)
  | _, _ => False
  end.
Proof. split; [exact ex55_blind|]. vm_compute. done. Qed.
(** A scope that handles an error with on_error, without memory at all: with diagnostic_info it needs none, with diagnostic_details it ends. *)
Definition ex66_n (a : harg) : prog :=
  PTHA (POnError [IVal TB (VZ 4); IVal TC (VZ 5)] (PNewError [IVal TA (VZ 3)] (fun id => PRet (RErr id))))
       (HCons [AE TA; AE TB; a] (fun l => match l with VE (VZ x) :: VE (VZ y) :: _ => PRet (RVal (x + y)) | _ => PRet (RVal 0) end)
       (HCons [] (fun _ => PRet (RVal (-1))) HNil)).
Example ex66_no_memory_needed_without_exceptions : frugal (g_diag GX) (ex66_n ADiag) /\ nobody_collects mem0 /\
  map (fun p => value_of (evalN GX (omachN GX (Fails (fun _ => true) (fun _ => true))) p (mem0, glob0))) [ex66_n ADiag; ex66_n ADetails] = [Some 7; Some (-99)].
Proof.
  split; [|split; [by split|vm_compute; reflexivity]]. unfold ex66_n, HCons. cbn [frugal frugalH takes_details]. rewrite !elem_of_cons, !elem_of_nil.
  split; [naive_solver|]. split; [done|]. split; [|by split]. intros l. by repeat case_match.
Qed.

(** *** Capturing *)

(** C56 in builds without exceptions: the library runs the program there, and the stack machine does not report misuse. *)
Definition runsN (G : cfg) (p : prog) (m : mem) (g : glob) (o : out) (m' : mem) (g' : glob) : Prop :=
  evalN G (pmach G) p (m, g) = Ok (o, (m', g')) /\
  exists s s', R m s /\ R m' s' /\ spec_run G None p s g o s' g'.
Lemma runsN_runs G p m g o m' g' : plain p -> runsN G p m g o m' g' <-> runs G None p m g o m' g'.
Proof.
  intros Hq. pose proof (proj1 (C43_programs_that_cannot_throw G p m g Hq)) as E.
  split; intros [K1 K2]; (split; [|exact K2]); [exact (eq_trans E K1)|exact (eq_trans (eq_sym E) K1)].
Qed.
Theorem C56_capture_only_adds_without_exceptions :
  forall G p m g, plain p -> captureless False False G p -> collects_nothing m ->
    (forall o m' g', runsN G p m g o m' g' -> exists m2, runsN (cap_off G) p m g o m2 g' /\ like m' m2) /\
    (forall o m' g', runsN (cap_off G) p m g o m' g' -> exists m2, runsN G p m g o m2 g' /\ like m' m2).
Proof.
  intros G p m g Hq Hp Hm. destruct (C56_capture_only_adds G None p m g Hp Hm) as [H1 H2].
  split; intros o m' g' H.
  - apply (runsN_runs _ _ _ _ _ _ _ Hq) in H. destruct (H1 _ _ _ H) as (m2 & ? & ?). exists m2. split; [by apply runsN_runs|done].
  - apply (runsN_runs _ _ _ _ _ _ _ Hq) in H. destruct (H2 _ _ _ H) as (m2 & ? & ?). exists m2. split; [by apply runsN_runs|done].
Qed.
Print Assumptions C56_capture_only_adds_without_exceptions.
Example ex56_plain : plain ex56.
Proof. cbn. repeat split; intros; try done; try set_solver. repeat case_match; done. Qed.
Example ex56_without_exceptions : exists m g m2, runsN GX ex56 mem0 glob0 (ORet (RVal 75)) m g /\ runsN (cap_off GX) ex56 mem0 glob0 (ORet (RVal 75)) m2 g.
Proof.
  destruct (runs_val GX ex56 75) as (m & g & H); [vm_compute; done|].
  pose proof (proj2 (runsN_runs _ _ _ _ _ _ _ ex56_plain) H) as HN.
  destruct (proj1 (C56_capture_only_adds_without_exceptions _ _ _ glob0 ex56_plain ex56_captureless ex56_start) _ _ _ HN) as (m2 & H2 & _). exists m, g, m2. exact (conj HN H2).
Qed.
