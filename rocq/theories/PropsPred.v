(** C35: predicates mean what they say. *)
From Verif Require Export Pred PropsHandle PropsSim.
Open Scope Z_scope.

(** ** Specification *)
(** The object equals a listed value, or a listed function accepts it. *)
Definition accepted (eqop : val -> val -> bool) (e : val) (a : alt) : Prop :=
  match a with AltV v => eqop e v = true | AltF f => f e = true end.
Fixpoint true_of (p : lpred) (e : val) : Prop :=
  match p with
  | PMatch _ eqop v1 vs => exists a, a ∈ v1 :: vs /\ accepted eqop e a
  | PMatchValue _ value eqop v1 vs => exists a, a ∈ v1 :: vs /\ accepted eqop (value e) a
  | PMatchMember _ mem eqop v1 vs => exists a, a ∈ v1 :: vs /\ accepted eqop (mem e) a
  | PIfNot p' => ~ true_of p' e
  end.

(** The type of objects a predicate is about *)
Fixpoint about (p : lpred) : ety :=
  match p with PMatch T _ _ _ | PMatchValue T _ _ _ _ | PMatchMember T _ _ _ _ => T | PIfNot p' => about p' end.
Lemma error_type_about p : error_type p = about p.
Proof. by induction p. Qed.

Lemma cmp_spec eqop e v1 vs : cmp_value_pack eqop e v1 vs = true <-> exists a, a ∈ v1 :: vs /\ accepted eqop e a.
Proof.
  assert (forall a, cmp_one eqop e a = true <-> accepted eqop e a) as H1 by (by intros []).
  revert v1. induction vs as [|a vs IH]; intros v1; simpl.
  - rewrite H1. split; [intros; exists v1; split; [constructor|done]|]. by intros (a & ->%elem_of_list_singleton & ?).
  - rewrite orb_true_iff, IH, H1. setoid_rewrite (elem_of_cons (a :: vs)). naive_solver.
Qed.

(** ** Theorems *)
Theorem C35_predicates :
  forall p e, evaluate p e = true <-> true_of p e.
Proof.
  induction p as [T eqop v1 vs|T value eqop v1 vs|T mem eqop v1 vs|p IH]; intros e; simpl.
  1-3: apply cmp_spec.
  rewrite <- IH. destruct (evaluate p e); naive_solver.
Qed.
Print Assumptions C35_predicates.

(** A handler argument that is a predicate is supplied exactly if the object is available for the error and the predicate is true of it;
    the handler sees that object. For if_not the object must be available as well. *)
Theorem C35_predicate_argument :
  forall G m s c ei p, R m s -> is_Some (ctxs m !! c) -> ei_id ei <> 0 ->
    exists o, arg_get G (pmach G) (pred_arg p) c ei m = Ok o /\
      (forall v, o = Some (VE v) <-> obj G m c ei (about p) = Some v /\ true_of p v) /\
      (o = None <-> forall v, obj G m c ei (about p) = Some v -> ~ true_of p v).
Proof.
  intros G m s c ei p HR [k Hk] Hid. rewrite <- error_type_about. simpl. rewrite (peek_spec _ _ _ _ _ _ _ HR Hk Hid). simpl. eexists. split; [done|].
  destruct (obj G m c ei (error_type p)) as [v|] eqn:E; [|naive_solver].
  pose proof (C35_predicates p v) as Hp. destruct (evaluate p v); split; naive_solver.
Qed.
Print Assumptions C35_predicate_argument.

(** catch_<Ex...> *)
Theorem C35_catch :
  forall cls x, catch_eval cls x = true <-> cls = [] \/ exists cl, cl ∈ cls /\ cl ∈ x_cls x.
Proof.
  intros [|cl cls] x; [naive_solver|]. simpl. transitivity (exists cl', cl' ∈ cl :: cls /\ cl' ∈ x_cls x); [|naive_solver].
  revert cl. induction cls as [|cl2 cls IH]; intros cl; simpl.
  - unfold dyn_cast. rewrite bool_decide_eq_true. split; [intros; exists cl; split; [constructor|done]|]. by intros (? & ->%elem_of_list_singleton & ?).
  - rewrite orb_true_iff, IH. unfold dyn_cast. rewrite bool_decide_eq_true. setoid_rewrite (elem_of_cons (cl2 :: cls)). naive_solver.
Qed.
Print Assumptions C35_catch.

(** The argument is supplied exactly if an exception derived from std::exception was caught that can be cast to a listed type. *)
Theorem C35_catch_argument :
  forall G m c ei cls,
    exists o, arg_get G (pmach G) (ACatch cls) c ei m = Ok o /\
      (forall x, o = Some (VCatch x) <-> ei_ex ei = Some x /\ (cls = [] \/ exists cl, cl ∈ cls /\ cl ∈ x_cls x)).
Proof.
  intros G m c ei cls. simpl. eexists. split; [done|]. intros x. destruct (ei_ex ei) as [y|]; [|naive_solver].
  rewrite <- C35_catch. assert (existsb (fun cl => bool_decide (cl ∈ x_cls y)) cls = match cls with [] => false | _ => catch_eval cls y end) as E.
  { destruct cls as [|cl cls]; [done|]. simpl. revert cl. induction cls as [|a cls IH]; intros cl; simpl; [apply orb_false_r|]. f_equal. apply IH. }
  destruct cls as [|cl cls]; [naive_solver|]. rewrite E. destruct (catch_eval (cl :: cls) y) eqn:Ec; [naive_solver|].
  split; [done|]. intros [? H]. simplify_eq. congruence.
Qed.
Print Assumptions C35_catch_argument.

(** category<Enum> looks at the category only. *)
Theorem C35_category :
  forall ec e, category ec e = true <-> exists v, e = VEC ec v.
Proof.
  intros ec [z|c v|l|x]; simpl; try naive_solver. rewrite Nat.eqb_eq. naive_solver.
Qed.
Print Assumptions C35_category.

(** match<std::error_code, codes...>: codes are equal if both value and category are. *)
Theorem C35_codes :
  forall T a l e, evaluate (PMatch T ec_eq (AltV a) (map AltV l)) e = true <-> exists c v, e = VEC c v /\ VEC c v ∈ a :: l.
Proof.
  intros T a l e. rewrite C35_predicates. simpl. change (AltV a :: map AltV l) with (map AltV (a :: l)).
  assert (forall b, ec_eq e b = true <-> exists c v, e = VEC c v /\ b = VEC c v) as H.
  { intros b. destruct e, b; simpl; try naive_solver. rewrite andb_true_iff, Nat.eqb_eq, Z.eqb_eq. naive_solver. }
  split.
  - intros (x & Hin & Hx). apply elem_of_list_fmap in Hin as (b & -> & Hin). apply H in Hx as (c & v & -> & ->). eauto.
  - intros (c & v & -> & Hin). exists (AltV (VEC c v)). split; [by apply (elem_of_list_fmap_1 AltV)|]. apply H. eauto.
Qed.
Print Assumptions C35_codes.

(** match<std::error_code, VEC 7 3, category<9>>, its negation and the negation of that, on three codes. *)
Definition pex : lpred := PMatch T_EC ec_eq (AltV (VEC 7 3)) [AltF (category 9)].
Example ex35 :
  map (evaluate pex) [VEC 7 3; VEC 7 4; VEC 9 4] = [true; false; true] /\
  map (evaluate (PIfNot pex)) [VEC 7 3; VEC 7 4; VEC 9 4] = [false; true; false] /\
  map (evaluate (PIfNot (PIfNot pex))) [VEC 7 3; VEC 7 4; VEC 9 4] = [true; false; true].
Proof. by vm_compute. Qed.

(** In a running program: of three handlers, the one with the negated predicate is called; without the object none with a predicate is. *)
Definition pex_prog (its : list item) : prog :=
  PTHA (PNewError its (fun id => PRet (RErr id)))
    (HCons [pred_arg pex] (fun _ => PRet (RVal 1)) (HCons [pred_arg (PIfNot pex)] (fun _ => PRet (RVal 2)) (HCons [] (fun _ => PRet (RVal 3)) HNil))).
Example ex35_run :
  map (fun its => match eval GX (pmach GX) None (pex_prog its) (mem0, glob0) with Ok (ORet (RVal z), _) => z | _ => -1 end)
    [[IVal T_EC (VEC 9 9)]; [IVal T_EC (VEC 7 4)]; []] = [1; 2; 3].
Proof. by vm_compute. Qed.
