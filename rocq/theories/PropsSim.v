(** C48: every program does what the pointer-free stack machine says. *)
From Verif Require Export Sim.
Open Scope Z_scope.

(** [R m s]: memory [m] of the library represents the stack of scopes [s].
    From related states, a run of the stack machine that ends (with any outcome) is matched by the library: same value or
    exception, same current error, same number of ids used, same events, and related states again. The library may be
    built with or without assertions. *)
Theorem C48_pointer_free_semantics :
  forall G caught p m s g o s' g',
    R m s ->
    eval (asserts_on G) (smach (asserts_on G)) caught p (s, g) = Ok (o, (s', g')) ->
    exists m', eval G (pmach G) caught p (m, g) = Ok (o, (m', g')) /\ R m' s'.
Proof.
  intros G caught p m s g o s' g' HR H.
  destruct (proj1 (sim_eval G) p caught (m, g) (s, g)) as [H1 _]; [by split|].
  destruct (H1 _ H) as ([o1 [m' g1]] & H2 & H3 & H4 & H5). simpl in *. subst. eauto.
Qed.
Print Assumptions C48_pointer_free_semantics.

(** A thread starts without scopes. *)
Theorem C48_initial_state : R mem0 smem0.
Proof. exact R0. Qed.
Print Assumptions C48_initial_state.

Definition GX : cfg := Cfg true true true (fun _ => true) (fun _ => false) (fun _ => true) (fun _ => VZ 0) (fun n => 4 * Z.of_nat n + 5).

(** User-defined error types for the examples. *)
Definition TA : ety := 10%nat.
Definition TB : ety := 11%nat.
Definition TC : ety := 12%nat.

(** Two nested scopes; the inner one does not handle the error, which carries two objects, one of which is handled
    by the inner scope only as a pointer. *)
Definition ex48 : prog :=
  PTHA (PTHS (PNewError [IVal TA (VZ 70); IVal TB (VZ 80)] (fun id => PRet (RErr id)))
             (HCons [AE TC; APtr TB] (fun _ => PRet (RVal 1)) HNil))
       (HCons [AE TA; AE TB] (fun l => match l with [VE (VZ a); VE (VZ b)] => PRet (RVal (a + b)) | _ => PRet (RVal 0) end)
       (HCons [] (fun _ => PRet (RVal (-1))) HNil)).
Example ex48_runs :
  match eval (asserts_on GX) (smach (asserts_on GX)) None ex48 (smem0, glob0) with
  | Ok (ORet (RVal z), (_, g)) => Some (z, cur g) | _ => None end = Some (150, 5).
Proof. vm_compute. reflexivity. Qed.
