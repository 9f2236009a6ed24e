(** C57: functions and objects passed to load and on_error. C58: the parameters of handlers. *)
From Verif Require Export Traits PropsTry2.
Open Scope Z_scope.

(** ** C57: specification *)
(** An object of type t, or the function t, can be called with arguments for the parameters l, and no other way; it returns r. *)
Inductive callable : cty -> cty -> list cty -> Prop :=
| callable_fn noex r l : callable (CFn (FQ false false RQNone noex false) r l) r l
| callable_ptr noex r l : callable (CPtr (CFn (FQ false false RQNone noex false) r l)) r l
| callable_class n c v rq noex r l : callable (CClass n (FQ c v rq noex false) r l) r l.
(** The types template arguments are deduced as for "Item &&": lvalues, rvalues of object types; both possibly const. *)
Definition is_fn (t : cty) : Prop := match t with CFn _ _ _ => True | _ => False end.
Inductive arg_type (t : cty) : cty -> Prop :=
| arg_lvalue : arg_type t (CRef t)
| arg_clvalue : ~ is_fn t -> arg_type t (CRef (CConst t))
| arg_rvalue : ~ is_fn t -> arg_type t t
| arg_crvalue : ~ is_fn t -> arg_type t (CConst t).

(** The functions which the library takes for objects: noexcept functions passed by their name or as an lvalue which points to one; const rvalues pointing
    to a function. *)
Inductive hidden : cty -> Prop :=
| hidden_fn q r l : q_noex q = true -> hidden (CRef (CFn q r l))
| hidden_ptr q r l : q_noex q = true -> hidden (CRef (CPtr (CFn q r l)))
| hidden_cptr q r l : q_noex q = true -> hidden (CRef (CConst (CPtr (CFn q r l))))
| hidden_rptr q r l : hidden (CConst (CPtr (CFn q r l))).
(** Those which do not compile: operator() volatile or with a ref-qualifier *)
Inductive rejected : cty -> Prop :=
| rejected_class n q r l t : arg_type (CClass n q r l) t -> q_vol q = true \/ q_ref q <> RQNone -> rejected t.

(** An error type: a class without operator(), other than error_id *)
Definition error_class (eid : nat) (t : cty) : Prop := exists n, t = CObj n /\ n <> eid.
(** Returned by value or by reference *)
Definition gives (r E : cty) : Prop := r = E \/ r = CConst E \/ r = CRef E \/ r = CRef (CConst E) \/ r = CRRef E.

(** A temporary pointer to a noexcept function; a const pointer to a function (lvalue). on_error can not do with these. *)
Definition temp_noex (t : cty) : Prop := exists q r l, t = CPtr (CFn q r l) /\ q_noex q = true.
Definition const_ptr (t : cty) : Prop := exists q r l, t = CRef (CConst (CPtr (CFn q r l))).

Lemma rejected_inv t : rejected t -> exists n q r l, arg_type (CClass n q r l) t /\ (q_vol q = true \/ q_ref q <> RQNone).
Proof. intros []. eauto 10. Qed.
Ltac rej := let H := fresh in intros H; apply rejected_inv in H as (? & ? & ? & ? & H & ?); inversion H; subst; simpl in *; naive_solver.
Ltac hid := let H := fresh in intros H; inversion H; subst; simpl in *; congruence.

Lemma traits_cases f r l t : callable f r l -> arg_type f t ->
  function_traits t = NotFn /\ hidden t /\ ~ rejected t \/ function_traits t = IllFormed /\ rejected t /\ ~ hidden t \/
  function_traits t = Fn r l /\ ~ hidden t /\ ~ rejected t.
Proof.
  intros Hc Ha. destruct Hc as [noex r l|noex r l|n c v rq noex r l].
  - inversion Ha; subst; try (by exfalso; auto using I); try (simpl in *; tauto). destruct noex.
    + left. split; [reflexivity|]. split; [by constructor|rej].
    + right; right. split; [reflexivity|]. split; [hid|rej].
  - inversion Ha; subst.
    + destruct noex; [left|right; right]; (split; [reflexivity|]); (split; [first [by constructor|hid]|rej]).
    + destruct noex; [left|right; right]; (split; [reflexivity|]); (split; [first [by constructor|hid]|rej]).
    + right; right. split; [by destruct noex|]. split; [hid|rej].
    + left. split; [by destruct noex|]. split; [constructor|rej].
  - assert ((v = true \/ rq <> RQNone) \/ v = false /\ rq = RQNone) as [Hq|[-> ->]] by (destruct v, rq; naive_solver).
    + right; left. split; [|split; [econstructor; [exact Ha|exact Hq]|inversion Ha; subst; hid]].
      inversion Ha; subst; destruct c, v, rq, noex; try reflexivity; exfalso; naive_solver.
    + right; right. split; [|split; [inversion Ha; subst; hid|]].
      * inversion Ha; subst; by destruct c, noex.
      * inversion Ha; subst; rej.
Qed.

Lemma on_error_called eid t r : function_traits t = Fn r [] -> r <> CVoid ->
  on_error_item eid t = match function_traits (CRef (remove_reference t)) with Fn r _ => slot_called eid r | _ => Ill end.
Proof. intros E H. unfold on_error_item. rewrite E. by destruct r. Qed.
Lemma on_error_accumulates eid t r a : function_traits t = Fn r [CRef a] ->
  on_error_item eid t = match function_traits (match remove_reference t with CFn q r l => CRef (CFn q r l) | t => t end) with Fn _ [a] => slot_accumulates a | _ => Ill end.
Proof. intros E. unfold on_error_item. rewrite E. by destruct r. Qed.
Lemma on_error_many eid t r l : function_traits t = Fn r l -> (2 <= length l)%nat -> on_error_item eid t = Ill.
Proof. intros E H. unfold on_error_item. rewrite E. destruct r, l as [|[] [|]]; simpl in *; by try lia. Qed.

Lemma lvalue_again f r l t : callable f r l -> arg_type f t -> function_traits t = Fn r l -> ~ temp_noex t -> function_traits (CRef (remove_reference t)) = Fn r l.
Proof.
  intros Hc Ha E Ht. destruct Hc as [noex r l|noex r l|n c v rq noex r l]; inversion Ha; subst; try exact E.
  - destruct noex; [|exact E]. exfalso. apply Ht. by eexists _, _, _.
  - by destruct noex.
Qed.
Lemma rvalue_again f r l t : callable f r l -> arg_type f t -> function_traits t = Fn r l -> ~ const_ptr t ->
  function_traits (match remove_reference t with CFn q r l => CRef (CFn q r l) | t => t end) = Fn r l.
Proof.
  intros Hc Ha E Ht. destruct Hc as [noex r l|noex r l|n c v rq noex r l]; inversion Ha; subst; try exact E.
  - by destruct noex.
  - exfalso. apply Ht. by eexists _, _, _.
Qed.

(** Functions are called, with the object they take; and it is known exactly which are not recognised as functions. (That the call itself compiles is not part
    of this: a const object whose operator() is not const can not be called.) *)
Theorem C57_functions_partial :
  forall eid f r l t, callable f r l -> arg_type f t ->
    (~ hidden t -> ~ rejected t ->
       function_traits t = Fn r l /\
       (forall E, error_class eid E -> gives r E -> l = [] ->
          load_item eid t = Called E /\ (~ temp_noex t -> on_error_item eid t = Called E) /\ (temp_noex t -> on_error_item eid t = Ill)) /\
       (l = [] -> r = CVoid -> load_item eid t = Ill /\ on_error_item eid t = CalledVoid) /\
       (forall E, error_class eid E -> l = [CRef E] ->
          load_item eid t = Accumulates E /\ (~ const_ptr t -> on_error_item eid t = Accumulates E) /\ (const_ptr t -> on_error_item eid t = Ill)) /\
       ((2 <= length l)%nat -> load_item eid t = Ill /\ on_error_item eid t = Ill)) /\
    (hidden t <-> function_traits t = NotFn) /\
    (rejected t <-> function_traits t = IllFormed) /\
    (rejected t -> load_item eid t = Ill /\ on_error_item eid t = Ill).
Proof.
  intros eid f r l t Hc Ha. pose proof (traits_cases _ _ _ _ Hc Ha) as Hall. split.
  { intros H1 H2. destruct Hall as [(_ & Hh & _)|[(_ & Hh & _)|(E & _ & _)]]; [done|done|]. split; [done|]. unfold load_item. split; [|split; [|split]].
    - intros T (n & -> & Hn) Hg ->. rewrite E. assert (slot_called eid r = Called (CObj n)) as Hs.
      { unfold slot_called. destruct Hg as [->|[->|[->|[->| ->]]]]; simpl; by rewrite (proj2 (Nat.eqb_neq _ _) Hn). }
      split; [done|]. split.
      + intros Ht. rewrite (on_error_called _ _ _ E); [by rewrite (lvalue_again _ _ _ _ Hc Ha E Ht)|]. intros ->. naive_solver.
      + intros (q & r' & l' & -> & Hq). rewrite (on_error_called _ _ _ E); [|intros ->; naive_solver]. destruct q as [[] [] [] [] []]; try discriminate; reflexivity.
    - intros -> ->. unfold on_error_item. by rewrite E.
    - intros T (n & -> & Hn) ->. rewrite E. assert (slot_accumulates (CRef (CObj n)) = Accumulates (CObj n)) as Hs by done.
      split; [done|]. split.
      + intros Ht. by rewrite (on_error_accumulates _ _ _ _ E), (rvalue_again _ _ _ _ Hc Ha E Ht).
      + intros (q & r' & l' & ->). by rewrite (on_error_accumulates _ _ _ _ E).
    - intros Hl. rewrite E. split; [destruct l as [|? [|]]; simpl in Hl; by try lia|by apply (on_error_many _ _ _ _ E)]. }
  split; [|split]; [split|split|].
  - intros H. destruct Hall as [(E & _ & _)|[(_ & _ & Hh)|(_ & Hh & _)]]; done.
  - intros H. destruct Hall as [(_ & Hh & _)|[(E & _)|(E & _)]]; congruence.
  - intros H. destruct Hall as [(_ & _ & Hh)|[(E & _)|(_ & _ & Hh)]]; done.
  - intros H. destruct Hall as [(E & _)|[(_ & Hh & _)|(E & _)]]; congruence.
  - intros H. destruct Hall as [(_ & _ & Hh)|[(E & _)|(_ & _ & Hh)]]; [done| |done]. unfold load_item, on_error_item. by rewrite E.
Qed.
Print Assumptions C57_functions_partial.

(** Objects are stored, whichever way they are passed. *)
Theorem C57_objects_stored :
  forall eid E t, error_class eid E -> arg_type E t -> load_item eid t = Stored E /\ on_error_item eid t = Stored E.
Proof.
  intros eid E t (n & -> & Hn) Ha.
  inversion Ha; subst; unfold load_item, on_error_item; simpl; unfold slot_stored; simpl; by rewrite (proj2 (Nat.eqb_neq _ _) Hn).
Qed.
Print Assumptions C57_objects_stored.

(** "functions of no arguments are called": a noexcept function passed by its name is not called but stored, as a pointer. *)
Theorem C57_functions_refuted :
  exists eid f E t, callable f E [] /\ error_class eid E /\ arg_type f t /\ load_item eid t = Stored (CPtr f).
Proof.
  exists 0%nat, (CFn (FQ false false RQNone true false) (CObj 1) []), (CObj 1), (CRef (CFn (FQ false false RQNone true false) (CObj 1) [])).
  split; [constructor|]. split; [by exists 1%nat|]. split; [constructor|reflexivity].
Qed.
Print Assumptions C57_functions_refuted.
(** "Error objects of pointer types are not allowed" (error.hpp:432): if they are lvalues they are stored. *)
Theorem C57_pointers_refuted :
  exists eid E t, arg_type (CPtr E) t /\ (forall r l, ~ callable (CPtr E) r l) /\ load_item eid t = Stored (CPtr E) /\ load_item eid (CPtr E) = Ill.
Proof.
  exists 0%nat, (CConst (CObj 1)), (CRef (CPtr (CConst (CObj 1)))). split; [constructor|]. split; [|done]. intros r l H. inversion H.
Qed.
Print Assumptions C57_pointers_refuted.

(** "in the special case of a void function ... it is invoked" (doc/leaf.adoc:3998): passing one to load does not compile (it does with on_error). *)
Theorem C57_void_refuted : exists eid f t, callable f CVoid [] /\ arg_type f t /\ ~ hidden t /\ load_item eid t = Ill /\ on_error_item eid t = CalledVoid.
Proof.
  exists 0%nat, (CClass 7 (FQ true false RQNone false false) CVoid []), (CClass 7 (FQ true false RQNone false false) CVoid []).
  split; [constructor|]. split; [constructor; by intros []|]. split; [hid|done].
Qed.
Print Assumptions C57_void_refuted.

(** Pointers to members: the object is the first parameter. An lvalue which points to a noexcept member function does not compile, one which points to
    any other does. *)
Theorem C57_members :
  forall c cst noex r l,
    function_traits (CMem c (CFn (FQ cst false RQNone noex false) r l)) = Fn r (CRef (if cst then CConst c else c) :: l) /\
    function_traits (CRef (CMem c (CFn (FQ cst false RQNone noex false) r l))) = (if noex then IllFormed else Fn r (CRef (if cst then CConst c else c) :: l)) /\
    forall t, (forall q r' l', t <> CFn q r' l') -> function_traits (CMem c t) = Fn t [CRef c] /\ function_traits (CRef (CMem c t)) = Fn t [CRef c].
Proof.
  intros c cst noex r l. split; [by destruct cst, noex|]. split; [by destruct cst, noex|]. intros t Ht. destruct t; try done. by destruct (Ht q t l0).
Qed.
Print Assumptions C57_members.
Example ex57_members :
  function_traits (CMem (CObj 1) (CFn (FQ true false RQNone true false) (CObj 2) [CObj 3])) = Fn (CObj 2) [CRef (CConst (CObj 1)); CObj 3] /\
  function_traits (CMem (CObj 1) (CObj 4)) = Fn (CObj 4) [CRef (CObj 1)].
Proof. done. Qed.

(** A lambda [](E & e) mutable {...} and one which returns E, as lvalue and rvalue; a noexcept function by its address. *)
Definition lam (c noex : bool) (r : cty) (l : list cty) : cty := CClass 7 (FQ c false RQNone noex false) r l.
Example ex57 :
  load_item 0 (lam false false CVoid [CRef (CObj 2)]) = Accumulates (CObj 2) /\
  on_error_item 0 (CRef (lam true true (CConst (CObj 2)) [])) = Called (CObj 2) /\
  load_item 0 (CPtr (CFn (FQ false false RQNone true false) (CObj 2) [])) = Called (CObj 2) /\
  on_error_item 0 (CPtr (CFn (FQ false false RQNone true false) (CObj 2) [])) = Ill /\
  load_item 0 (CRef (CClass 7 (FQ true false RQL false false) (CObj 2) [])) = Ill /\
  on_error_item 0 (lam true false CVoid []) = CalledVoid.
Proof. by vm_compute. Qed.
Example ex57_met : exists f t, callable f (CObj 2) [] /\ arg_type f t /\ ~ hidden t /\ ~ rejected t /\ ~ temp_noex t.
Proof.
  exists (lam true true (CObj 2) []), (CRef (lam true true (CObj 2) [])). split; [constructor|]. split; [constructor|].
  split; [hid|]. split; [rej|]. intros (? & ? & ? & ? & _). done.
Qed.

(** ** C58: specification *)
Section spec58.
Context (role_of : nat -> role).
(** Any class or type, with or without operator() *)
Definition cls (n : nat) (t : cty) : Prop := t = CObj n \/ exists q r l, t = CClass n q r l.
(** What the documentation says parameters mean. *)
Inductive means : cty -> harg -> Prop :=
| means_value n t : role_of n = RoErr -> cls n t -> means t (AE n)
| means_cref n t : role_of n = RoErr -> cls n t -> means (CRef (CConst t)) (AE n)
| means_ref n t : role_of n = RoErr -> cls n t -> means (CRef t) (AE n)
| means_ptr n t : role_of n = RoErr -> cls n t -> means (CPtr t) (APtr n)
| means_cptr n t : role_of n = RoErr -> cls n t -> means (CPtr (CConst t)) (APtr n)
| means_pred n e f t : role_of n = RoPred e f -> role_of e = RoErr -> cls n t -> means t (APred e f)
| means_catch n l t : role_of n = RoCatch l -> cls n t -> means t (ACatch l)
| means_boost n i t : role_of n = RoBoost i -> cls n t -> means t (ABoost i (fun _ => true))
| means_info n t : role_of n = RoInfo -> cls n t -> means (CRef (CConst t)) AInfo
| means_diag n t : role_of n = RoDiag -> cls n t -> means (CRef (CConst t)) ADiag
| means_details n t : role_of n = RoDetails -> cls n t -> means (CRef (CConst t)) ADetails.
(** References to the library's own classes (not const) and pointers to const ones: taken for objects somebody might load. *)
Definition own (r : role) : Prop := match r with RoInfo | RoDiag | RoDetails => True | _ => False end.
Inductive mistaken : cty -> harg -> Prop :=
| mistaken_ref n t : own (role_of n) -> cls n t -> mistaken (CRef t) (AE n)
| mistaken_cptr n t : own (role_of n) -> cls n t -> mistaken (CPtr (CConst t)) (APtr n).
End spec58.

Lemma class_of_cls t n : class_of t = Some n <-> cls n t.
Proof.
  split.
  - destruct t; simpl; try done; intros [= ->]; [by left|right; eauto].
  - intros [->|(? & ? & ? & ->)]; done.
Qed.

(** Parameters which are documented mean what is documented; all others do not compile, except for [mistaken] ones. *)
Theorem C58_parameters_partial :
  forall role_of t a, arg_of role_of t = Some a <-> means role_of t a \/ mistaken role_of t a.
Proof.
  intros role_of t a. split.
  - intros H. unfold arg_of in H. destruct t as [|n|n q r l| |t|t| |t|]; simpl in H; try discriminate.
    + destruct (role_of n) eqn:Hr; try discriminate; simplify_eq; try (left; econstructor; [done|by left]).
      destruct (role_of e) eqn:He; try discriminate. simplify_eq. left. eapply means_pred; [done|done|by left].
    + destruct (role_of n) eqn:Hr; try discriminate; simplify_eq; try (left; econstructor; [done|right; eauto]).
      destruct (role_of e) eqn:He; try discriminate. simplify_eq. left. eapply means_pred; [done|done|right; eauto].
    + destruct (class_of (remove_const t)) as [n|] eqn:Hc; [|discriminate]. apply class_of_cls in Hc.
      assert (t = remove_const t \/ t = CConst (remove_const t)) as Ht by (destruct t; auto). set (u := remove_const t) in *. clearbody u.
      destruct (role_of n) eqn:Hr; try discriminate; simplify_eq.
      * left. destruct Ht as [->| ->]; [eapply means_ptr|eapply means_cptr]; done.
      * destruct Ht as [->| ->]; [by destruct Hc as [->|(? & ? & ? & ->)]|]. simplify_eq. right. eapply mistaken_cptr; [by rewrite Hr|done].
      * destruct Ht as [->| ->]; [by destruct Hc as [->|(? & ? & ? & ->)]|]. simplify_eq. right. eapply mistaken_cptr; [by rewrite Hr|done].
      * destruct Ht as [->| ->]; [by destruct Hc as [->|(? & ? & ? & ->)]|]. simplify_eq. right. eapply mistaken_cptr; [by rewrite Hr|done].
    + destruct t as [|n|n q r l| |u| | | |]; simpl in H; try discriminate.
      * destruct (role_of n) eqn:Hr; try discriminate; simplify_eq; [left; econstructor; [done|by left]|..]; right; apply mistaken_ref; try (by left); by rewrite Hr.
      * destruct (role_of n) eqn:Hr; try discriminate; simplify_eq; [left; econstructor; [done|right; eauto]|..]; right; apply mistaken_ref; try (right; eauto); by rewrite Hr.
      * destruct (class_of u) as [n|] eqn:Hc; [|discriminate]. apply class_of_cls in Hc.
        destruct (role_of n) eqn:Hr; try discriminate; simplify_eq; left; econstructor; done.
  - intros [H|H].
    + destruct H as [n t Hr Hc|n t Hr Hc|n t Hr Hc|n t Hr Hc|n t Hr Hc|n e f t Hr He Hc|n l t Hr Hc|n i t Hr Hc|n t Hr Hc|n t Hr Hc|n t Hr Hc];
        destruct Hc as [->|(? & ? & ? & ->)]; simpl; rewrite Hr; try done; by rewrite He.
    + destruct H as [n t Ho Hc|n t Ho Hc]; destruct Hc as [->|(? & ? & ? & ->)]; simpl; by destruct (role_of n).
Qed.
Print Assumptions C58_parameters_partial.

(** A parameter error_info & (not const) is let through: it waits for an object of type error_info. So is error_info const *: it counts as always available, and
    is null. *)
Theorem C58_parameters_refuted :
  exists role_of t t' a a', (forall a, ~ means role_of t a) /\ (forall a, ~ means role_of t' a) /\ arg_of role_of t = Some a /\ arg_of role_of t' = Some a' /\
    always_available role_of t = false /\ always_available role_of t' = true.
Proof.
  exists (fun _ => RoInfo), (CRef (CObj 1)), (CPtr (CConst (CObj 1))), (AE 1%nat), (APtr 1%nat).
  split; [intros a' H; inversion H; subst; discriminate|]. split; [|done].
  intros a' H. inversion H; subst; try discriminate.
Qed.
Print Assumptions C58_parameters_refuted.

(** The static assertion on the last handler of try_handle_all (handle_errors.hpp:420): it holds exactly if the arguments of the handler can be supplied
    whatever the error. With C12: try_handle_all handles all errors. *)
Theorem C58_matches_any_error :
  forall role_of G l al, args_of role_of l = Some al ->
    (handler_matches_any_error role_of l = true <-> takes_anything al) /\
    (handler_matches_any_error role_of l = true <-> forall m c ei, mapM (supply G m c ei) al <> None).
Proof.
  intros role_of G l al Hal.
  assert (handler_matches_any_error role_of l = true <-> takes_anything al) as H.
  { revert al Hal. induction l as [|t l IH]; simpl; intros al Hal; [simplify_eq; split; [constructor|done]|].
    destruct (arg_of role_of t) as [a|] eqn:Ha; [|done]. destruct (args_of role_of l) as [al'|] eqn:El; [|done]. simplify_eq. unfold always_available.
    rewrite Ha, andb_true_iff, (IH _ eq_refl). unfold takes_anything. rewrite Forall_cons. by destruct a; split; intros [? ?]. }
  split; [exact H|]. rewrite H. split.
  - intros Ht m c ei. by apply takes_anything_supply.
  - clear H Hal l. intros Hs. specialize (Hs mem0 0%nat (EInfo 1 None None)). induction al as [|a al IH]; [constructor|].
    simpl in Hs. constructor; [|apply IH; intros E; apply Hs; rewrite E; by destruct (supply G mem0 0%nat (EInfo 1 None None) a)].
    destruct a; try done; exfalso; by apply Hs.
Qed.
Print Assumptions C58_matches_any_error.

(** Classes 1, 2: error types; 3: match<class 1, ...>; 4: catch_<>; 5: error_info; 6: diagnostic_info. *)
Definition roles (n : nat) : role :=
  match n with 3%nat => RoPred 1 (fun v => bool_decide (v = VZ 4)) | 4%nat => RoCatch [] | 5%nat => RoInfo | 6%nat => RoDiag | _ => RoErr end.
Example ex58 :
  handler_args roles (lam true false CVoid [CRef (CConst (CObj 1)); CPtr (CConst (CObj 2)); CObj 4; CRef (CConst (CObj 5))]) = Some [AE 1%nat; APtr 2%nat; ACatch []; AInfo] /\
  handler_args roles (CRef (lam true true CVoid [CPtr (CObj 2); CRef (CConst (CObj 6))])) = Some [APtr 2%nat; ADiag] /\
  handler_matches_any_error roles [CPtr (CObj 2); CRef (CConst (CObj 6))] = true /\
  handler_args roles (lam true false CVoid [CRef (CObj 3)]) = None /\ handler_args roles (lam true false CVoid [CObj 5]) = None.
Proof. by vm_compute. Qed.
Example ex58_pred : exists f, handler_args roles (lam true false CVoid [CObj 3]) = Some [APred 1%nat f] /\ f (VZ 4) = true /\ f (VZ 5) = false.
Proof. eexists. split; [reflexivity|]. by vm_compute. Qed.

(** ** The library's tests *)
(** function_traits_test.cpp: &f1; std::function and lambdas, also noexcept; int *)
Definition l_test : list cty := [CObj 1; CObj 2; CRef (CConst (CObj 1)); CRRef (CObj 2)].
Example function_traits_test :
  map function_traits [CPtr (CFn q_plain (CObj 3) l_test); lam true false (CObj 3) l_test; lam true true (CObj 3) l_test] = replicate 3 (Fn (CObj 3) l_test) /\
  function_traits (CObj 1) = NotFn.
Proof. by vm_compute. Qed.
(** _compile-fail-arg_{match,catch}_{1,2}.cpp, _compile-fail-arg_boost_error_info_{1,2}.cpp, _compile-fail-arg_rvalue_ref.cpp, _compile-fail-new_error.cpp *)
Example compile_fail :
  let ro n := match n with 3%nat => RoPred 1 (fun v => bool_decide (v = VZ 4)) | 4%nat => RoCatch [1%nat] | 5%nat => RoBoost (fun _ => None) | _ => RoErr end in
  (forall t, In t [CRef (CConst (CObj 3)); CRef (CObj 3); CRef (CConst (CObj 4)); CRef (CObj 4); CRef (CConst (CObj 5)); CRef (CObj 5); CRRef (CObj 1)] ->
     handler_args ro (lam true false (CObj 1) [t]) = None) /\
  load_item 0 (CPtr (CObj 1)) = Ill.
Proof. split; [|done]. intros t H. repeat (destruct H as [<-|H]; [done|]). done. Qed.
