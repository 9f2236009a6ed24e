(** The three error handling functions in a common form. *)
From Verif Require Export PropsHandle.
Open Scope Z_scope.

Inductive kind := KAll | KSome | KCatch.
Definition PScope (k : kind) (p : prog) (hs : handlers) : prog :=
  match k with KAll => PTHA p hs | KSome => PTHS p hs | KCatch => PTC p hs end.

Section scope.
Context (G : cfg) (M : machine).

Definition enter (tup : list sty) (s : st M) : res (cid * st M) :=
  let '(c, m1) := m_new M tup (fst s) in
  let! s1 := on_mem M (m_act M c) (m1, snd s) in Ok (c, s1).

(** What the try block's outcome is once captured objects have been unloaded. *)
Definition settle (k : kind) (os : out * st M) : res (out * st M) :=
  match k with
  | KCatch => Ok os
  | _ => match os with (ORet r, s) => unload_ret M r s | (OThrow x, s) => Ok (OThrow x, s) end
  end.

(** The outcome is not an error. *)
Definition success (k : kind) (o : out) : bool :=
  match o with ORet r => match k with KCatch => true | _ => is_val r end | OThrow _ => false end.

(** The context is deactivated and the error identified. *)
Definition detect (c : cid) (caught : option exn) (os : out * st M) : res (einfo * option exn * st M) :=
  match os with
  | (ORet r, s) =>
      let! is2 := err_id_of G M r s in
      let! s3 := on_mem M (m_deact M c) (snd is2) in
      let! loc := m_get M c T_LOC (fst is2) (fst s3) in
      Ok (EInfo (fst is2) None loc, caught, s3)
  | (OThrow x, s) => let! eis := exn_info M c x s in Ok (fst eis, Some x, snd eis)
  end.

(** What happens if no handler matches. *)
Definition unhandled (k : kind) (c : cid) (id : Z) (o : out) (s : st M) : res (out * st M) :=
  match o with
  | ORet r => match k with KSome => Ok (ORet r, s) | _ => Fail IllTyped end
  | OThrow x => unload_rethrow M c id x s
  end.

Definition finish (k : kind) (c : cid) (os : out * st M) : res (out * st M) :=
  match k with
  | KAll => tha_end M c (fst os) (snd os)
  | KSome => ths_end G M c (fst os) (snd os)
  | KCatch => leave M c (fst os) (snd os)
  end.

Definition scope_end (k : kind) (caught : option exn) (hs : handlers) (c : cid) (os : out * st M) : res (out * st M) :=
  let! os2 := settle k os in
  if success k (fst os2) then deact_leave M c (fst os2) (snd os2)
  else
    let! d := detect c caught os2 in
    let '(ei, caught', s3) := d in
    let! os4 := evalH G M caught' hs c ei (unhandled k c (ei_id ei) (fst os2)) s3 in
    finish k c os4.

Definition scope_run (k : kind) (caught : option exn) (p : prog) (hs : handlers) (s : st M) : res (out * st M) :=
  let! cs1 := enter (deduce G hs) s in
  let! os := eval G M caught p (snd cs1) in
  scope_end k caught hs (fst cs1) os.

Context (Hnil : forall id m g, m_capunload M id [] m g = Ok (m, set_cur id g))
  (Hcur : forall id l m g m' g', m_capunload M id l m g = Ok (m', g') -> set_cur id g' = g').

Lemma rbind_assoc {A B C} (x : res A) (f : A -> res B) (g : B -> res C) :
  rbind (rbind x f) g = rbind x (fun a => rbind (f a) g).
Proof. by destruct x. Qed.

Lemma evalH_ext caught hs c ei : forall d d' s, (forall s, d s = d' s) -> evalH G M caught hs c ei d s = evalH G M caught hs c ei d' s.
Proof.
  induction hs as [|args w b hs IH|hs1 IH1 hs2 IH2]; intros d d' s H; cbn [evalH]; auto.
  - destruct (args_get _ _ _ _ _ _) as [[l|]|]; simpl; auto.
Qed.
Lemma rbind_ext {A B} (x : res A) (f g : A -> res B) : (forall a, x = Ok a -> f a = g a) -> rbind x f = rbind x g.
Proof. destruct x; simpl; auto. Qed.

Lemma unload_twice r (s : st M) r1 s1 : unload_ret M r s = Ok (ORet r1, s1) -> unload_ret M r1 s1 = Ok (ORet r1, s1).
Proof.
  destruct r as [z|id|id l ex|cat v]; simpl; intros H; simplify_eq; simpl; auto.
  destruct (m_capunload M (mk id) l (fst s) (snd s)) as [[s2 g2]|e] eqn:E; simplify_eq/=. destruct ex; simplify_eq. simpl.
  rewrite Hnil. simpl. by rewrite (Hcur _ _ _ _ _ _ E).
Qed.

Theorem eval_scope k caught p hs s : eval G M caught (PScope k p hs) s = scope_run k caught p hs s.
Proof.
  unfold scope_run, enter, PScope. destruct k; cbn [eval].
  - destruct (m_new M (deduce G hs) (fst s)) as [c m1]. rewrite rbind_assoc. apply rbind_ext. intros s1 _. simpl.
    apply rbind_ext. intros [o0 s0] _. unfold scope_end. simpl. apply rbind_ext. intros [o2 s2] E. destruct o2 as [r|x]; simpl.
    + destruct (is_val r) eqn:Ev; [done|]. assert (unload_ret M r s2 = Ok (ORet r, s2)) as Eu.
      { destruct o0 as [r0|x0]; simpl in E; [|by simplify_eq]. by eapply unload_twice. }
      unfold res_info. rewrite Eu. simpl. destruct (err_id_of G M r s2) as [[i s3]|]; simpl; [|done].
      destruct (on_mem M (m_deact M c) s3) as [s4|]; simpl; [|done]. by destruct (m_get M c T_LOC i (fst s4)).
    + by destruct (exn_info M c x s2) as [[ei s3]|].
  - destruct (m_new M (deduce G hs) (fst s)) as [c m1]. rewrite rbind_assoc. apply rbind_ext. intros s1 _. simpl.
    apply rbind_ext. intros [o0 s0] _. unfold scope_end. simpl. apply rbind_ext. intros [o2 s2] E. destruct o2 as [r|x]; simpl.
    + destruct (is_val r) eqn:Ev; [done|]. assert (unload_ret M r s2 = Ok (ORet r, s2)) as Eu.
      { destruct o0 as [r0|x0]; simpl in E; [|by simplify_eq]. by eapply unload_twice. }
      unfold res_info. rewrite Eu. simpl. destruct (err_id_of G M r s2) as [[i s3]|]; simpl; [|done].
      destruct (on_mem M (m_deact M c) s3) as [s4|]; simpl; [|done]. by destruct (m_get M c T_LOC i (fst s4)).
    + by destruct (exn_info M c x s2) as [[ei s3]|].
  - destruct (m_new M (deduce G hs) (fst s)) as [c m1]. rewrite rbind_assoc. apply rbind_ext. intros s1 _. simpl.
    apply rbind_ext. intros [[r|x] s2] _; [done|]. unfold scope_end. simpl.
    by destruct (exn_info M c x s2) as [[ei s3]|].
Qed.
End scope.

Lemma eval_scope_p G k caught p hs s : eval G (pmach G) caught (PScope k p hs) s = scope_run G (pmach G) k caught p hs s.
Proof.
  apply eval_scope; simpl; [done|]. intros id l m g m' g' H. unfold mcap_unload in H. destruct (cap_unload_nodes G id l m); simplify_eq/=. done.
Qed.
Lemma eval_scope_s G k caught p hs s : eval G (smach G) caught (PScope k p hs) s = scope_run G (smach G) k caught p hs s.
Proof.
  apply eval_scope; simpl; [done|]. intros id l m g m' g' H. unfold scap_unload in H. destruct (sreceive_all G id l m); simplify_eq/=. done.
Qed.
