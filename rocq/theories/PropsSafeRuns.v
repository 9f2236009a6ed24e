(** C15, continued: every program that keeps the rules is one the other theorems speak about; builds without exceptions. *)
From Verif Require Export PropsSafe PropsNoExcept.
Open Scope Z_scope.

(** [runs] is what the theorems on scopes, handlers, captures etc. assume of the program. *)
Theorem C15_safe_programs_run :
  forall G t p g, good_sup G -> safe G env0 t p -> exists o m' g', runs G None p mem0 g o m' g' /\ vout t o.
Proof.
  intros G t p g Hs Hp.
  assert (Inv env0 smem0) as H0.
  { split; [exists mem0; exact R0|..]; simpl.
    - intros c Hc. by apply elem_of_nil in Hc.
    - intros c tup Hc. by apply elem_of_nil in Hc.
    - intros c tup Hc. by apply elem_of_nil in Hc.
    - intros c Hc. by apply elem_of_nil in Hc.
    - intros T Hc. by apply elem_of_nil in Hc.
    - intros _ c a Hc. by apply elem_of_nil in Hc. }
  destruct (proj1 (safe_runs G Hs) p env0 t None smem0 g Hp H0) as (o & s' & g' & Ev & Ho); [by split|].
  destruct (C48_pointer_free_semantics G None p mem0 smem0 g o s' g' R0 Ev) as (m' & Ev' & HR').
  exists o, m', g'. split; [|by apply Ho]. split; [done|]. exists smem0, s'. exact (conj R0 (conj HR' Ev)).
Qed.
Print Assumptions C15_safe_programs_run.

(** Without exceptions: a program which keeps the rules and does not use try_catch either does not compile (it uses what exists only with
    exceptions), or runs without assertion failure and without an access to an object which does not exist. *)
Theorem C15_without_exceptions :
  forall G t p g, good_sup G -> safe G env0 t p -> no_tc p ->
    evalN G (pmach G) p (mem0, g) = Fail IllTyped \/ exists o m' g', evalN G (pmach G) p (mem0, g) = Ok (o, (m', g')).
Proof.
  intros G t p g Hs Hp Hn. destruct (evalN G (pmach G) p (mem0, g)) as [[o [m' g']]|f] eqn:E; [right; by exists o, m', g'|].
  destruct f; try (by left); exfalso;
    destruct (C15_no_assertion_no_dangling_access_partial G t p g Hs Hp) as (o & m' & g' & E' & _);
    (assert (quiet (evalN G (pmach G) p (mem0, g))) as Hq by (by rewrite E));
    pose proof (C43_same_behaviour_partial G p mem0 g Hn Hq) as X; discriminate (eq_trans (eq_sym E') (eq_trans X E)).
Qed.
Print Assumptions C15_without_exceptions.
Theorem C15_without_exceptions_plain :
  forall G t p g, good_sup G -> safe G env0 t p -> plain p ->
    exists r m' g', evalN G (pmach G) p (mem0, g) = Ok (ORet r, (m', g')) /\ vout t (ORet r).
Proof.
  intros G t p g Hs Hp Hn. destruct (C15_no_assertion_no_dangling_access_partial G t p g Hs Hp) as (o & m' & g' & E' & Ho).
  destruct (C43_programs_that_cannot_throw G p mem0 g Hn) as [E Ht]. destruct o as [r|x]; [|by destruct (Ht x m' g')]. exists r, m', g'. split; [|done]. exact (eq_trans (eq_sym E) E').
Qed.
Print Assumptions C15_without_exceptions_plain.

Example ex15_noex : safe GX env0 TyVal ex43 /\ plain ex43 /\ no_tc ex43.
Proof.
  split; [|exact (conj (proj1 ex43_plain) (proj1 (proj2 ex43_plain)))]. unfold safe, ex43. cbn [gsafe gsafeH].
  split; [|split; [split; [|split; [|done]]|]].
  - exists TyLeaf. split; [|by split]. exists TyLeaf. split; [|intros r Hr; exact Hr].
    split; [done|]. split; [done|]. split; [done|]. split; [by repeat constructor|]. intros i Hi. done.
  - intros l _. destruct l as [|[v| | | | |] l]; [done| |done..]. by destruct v.
  - done.
  - right. left. simpl. constructor.
Qed.
