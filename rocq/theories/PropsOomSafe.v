(** C66 and C15: programs that keep the rules, when memory runs out. *)
From Verif Require Export PropsOom PropsSafe.
Open Scope Z_scope.

(** A program which keeps the rules ([safe], Safe.v) and does not use on_error: whichever allocations fail, it is stopped or runs to its end; no assertion of the
    library fails that holds when there is enough memory, no object that does not exist is accessed. *)
Theorem C66_safe_programs :
  forall G F t p g, good_sup G -> safe G env0 t p -> no_on_error G p ->
    eval G (omach G F) None p (mem0, g) = Fail Assert \/
    exists o m' g', eval G (omach G F) None p (mem0, g) = Ok (o, (m', g')) /\ eval G (pmach G) None p (mem0, g) = Ok (o, (m', g')) /\ vout t o.
Proof.
  intros G F t p g Hg Hp Hn. destruct (C15_no_assertion_no_dangling_access_partial G t p g Hg Hp) as (o & m' & g' & E & Ho).
  destruct (C66_stops_or_same G F None p (mem0, g) Hn) as [H|H]; [by left|right]. exists o, m', g'. split; [exact (eq_trans H E)|done].
Qed.
Print Assumptions C66_safe_programs.
(** Frugal programs (C64) which keep the rules need no memory from the library: they run to their end, also with on_error. *)
Theorem C66_safe_frugal_programs :
  forall G F t p g, good_sup G -> safe G env0 t p -> g_capture G = false \/ frugal (g_diag G) p ->
    exists o m' g', eval G (omach G F) None p (mem0, g) = Ok (o, (m', g')) /\ vout t o.
Proof.
  intros G F t p g Hg Hp Hf. destruct (C15_no_assertion_no_dangling_access_partial G t p g Hg Hp) as (o & m' & g' & E & Ho).
  exists o, m', g'. split; [|done]. refine (eq_trans (C66_no_memory_needed G F None p mem0 g _ _) E).
  - intros n. apply good_nz, Hg.
  - destruct Hf as [?|?]; [by left|right]. split; [done|]. by split.
Qed.
Print Assumptions C66_safe_frugal_programs.

(** No memory at all. A failed task is captured: the program is stopped. Two scopes, on_error, and handlers that take no diagnostic_details: it runs. *)
Definition none : fails := Fails (fun _ => true) (fun _ => true).
Definition ex66_cap : prog := PBind (PCapture false (PNewError [IVal TA (VZ 1)] (fun id => PRet (RErr id)))) (fun _ => PRet (RVal 0)).
Definition ex66_frugal : prog :=
  PTHA (POnError [IVal TB (VZ 2)] (PTHS (PNewError [IVal TA (VZ 1)] (fun id => PRet (RErr id))) (HCons [AE TC] (fun _ => PRet (RVal 5)) HNil)))
    (HCons [AE TA; AE TB] (fun l => match l with [VE (VZ a); VE (VZ b)] => PRet (RVal (10 * a + b)) | _ => PRet (RVal 6) end) (HCons [] (fun _ => PRet (RVal 7)) HNil)).
Example ex66_safe : safe GX env0 TyVal ex66_cap /\ no_on_error GX ex66_cap /\ eval GX (omach GX none) None ex66_cap (mem0, glob0) = Fail Assert.
Proof.
  split; [|split; [|vm_compute; reflexivity]].
  - unfold safe, ex66_cap. cbn [gsafe]. exists TyLeaf. split; [|done]. split; [done|]. split; [done|]. split; [done|]. split; [by repeat constructor|done].
  - unfold no_on_error, ex66_cap. cbn [uses]. done.
Qed.
Example ex66_safe_frugal : safe GX env0 TyVal ex66_frugal /\ frugal (g_diag GX) ex66_frugal /\
  match eval GX (omach GX none) None ex66_frugal (mem0, glob0) with Ok (o, _) => o = ORet (RVal 12) | _ => False end.
Proof.
  split; [|split; [|vm_compute; reflexivity]].
  - unfold safe, ex66_frugal. cbn [gsafe gsafeH]. split; [|split; [split; [|done]|]].
    + exists TyLeaf. split; [by repeat constructor|]. split; [split; [by repeat constructor|done]|]. split; [|done]. intros l _. done.
    + intros l _. destruct l as [|[v| | | | |] l]; [done| |done..]. destruct v; try done. destruct l as [|[v| | | | |] [|]]; try done; by destruct v.
    + right. left. simpl. constructor.
  - unfold ex66_frugal. cbn [frugal frugalH takes_details]. repeat split; try (intros _ [H|H]; [|try destruct H as [H|H]]; try done; by repeat (apply elem_of_cons in H as [?|H]; [done|]); by apply elem_of_nil in H).
    intros l. destruct l as [|[v| | | | |] l]; [done| |done..]. destruct v; try done. destruct l as [|[v| | | | |] [|]]; try done; by destruct v.
Qed.
