(** result<T> objects as memory: a union and a discriminant, result.hpp. *)
From Verif Require Export Ids.
From stdpp Require Export gmap.
Open Scope Z_scope.

(** The union stored_ / cap_, result.hpp:187-193: which member is alive. Members are numbered as they are constructed.
    A stored value that was moved from is still alive: None. cap_ holds captured objects, then possibly an exception; its nodes are modelled in CapList.v. *)
Inductive umem :=
| MNone
| MVal (i : nat) (z : option Z)
| MCap (i : nat) (objs : list Z) (ex : option Z).
Record robj := RObj { r_u : umem; r_what : Z }.
(** Objects; members constructed so far; members alive; members destroyed. *)
Record rstate := RState { o_objs : gmap nat robj; o_made : nat; o_live : gset nat; o_freed : nat }.
Definition rinit : rstate := RState ∅ 0 ∅ 0.

Inductive robs := ONone | OVal (z : option Z) | OPtr (z : option (option Z)) | OId (id : Z) | OHas (b : bool) | OUnl (id : Z) (objs : list Z).
Inductive rexn := TBad (id : Z) | TEx (z : Z).
(** [RBad]: a member is read or destroyed that is not alive. [RThrow]: the objects unloaded before throwing *)
Inductive rres := RDone (o : robs) (s : rstate) | RThrow (e : rexn) (objs : list Z) (s : rstate) | RAssert | RBad.

Definition set_obj (r : nat) (x : robj) (s : rstate) : rstate := RState (<[r := x]> (o_objs s)) (o_made s) (o_live s) (o_freed s).
(** placement new of a member *)
Definition construct (s : rstate) : nat * rstate := (o_made s, RState (o_objs s) (S (o_made s)) ({[o_made s]} ∪ o_live s) (o_freed s)).
(** destructor call of member i *)
Definition kill (i : nat) (s : rstate) : option rstate :=
  if decide (i ∈ o_live s) then Some (RState (o_objs s) (o_made s) (o_live s ∖ {[i]}) (S (o_freed s))) else None.

(** destroy(), result.hpp:240-258. None: not alive *)
Definition destroy (x : robj) (s : rstate) : option rstate :=
  match disc_kind (r_what x), r_u x with
  | err_id_zero, _ | err_id, _ => Some s
  | err_id_capture_list, MCap i _ _ => kill i s
  | k_val, MVal i _ => kill i s
  | _, _ => None
  end.
(** move_from, result.hpp:260-281: the new member and discriminant of *this, the rest of x *)
Definition move_from (x : robj) (s : rstate) : option (robj * robj * rstate) :=
  match disc_kind (r_what x), r_u x with
  | err_id_zero, _ | err_id, _ => Some (RObj MNone (r_what x), x, s)
  | err_id_capture_list, MCap i objs ex =>
      if decide (i ∈ o_live s) then let '(j, s1) := construct s in Some (RObj (MCap j objs ex) (r_what x), RObj (MCap i [] None) (r_what x), s1) else None
  | k_val, MVal i z =>
      if decide (i ∈ o_live s) then let '(j, s1) := construct s in Some (RObj (MVal j z) (r_what x), RObj (MVal i None) (r_what x), s1) else None
  | _, _ => None
  end.

Inductive rop :=
| RNewVal (r : nat) (z : Z)                                  (* result.hpp:370-393: value constructors *)
| RNewErr (r : nat) (id : Z)                                 (* 395-398: result(error_id) *)
| RNewCap (r : nat) (id : Z) (objs : list Z) (ex : option Z) (* 302-306: result(int, capture_list &&) *)
| RMove (r' r : nat)                                         (* 359-368: result(result &&), result(result<U> &&) *)
| RAssign (r' r : nat)                                       (* 327-332, 451-462: operator= *)
| RConvert (r' r : nat)                                      (* 210-229: error_result::operator result<U> *)
| RErrorId (r : nat)                                         (* 231-237: error_result::operator error_id *)
| RHas (r : nat)                                             (* 464-477 *)
| RValue (r : nat) (take : bool)                             (* 495-517: value(); take: the caller moves the value out *)
| RArrow (r : nat)                                           (* 521-529: operator-> *)
| RStar (r : nat)                                            (* 549-575: operator* *)
| RUnload (r : nat)                                          (* 590-596 *)
| RDestroy (r : nat).                                        (* 444-447 *)

Definition rstep (op : rop) (s : rstate) : rres :=
  match op with
  | RNewVal r z => let '(i, s1) := construct s in RDone ONone (set_obj r (RObj (MVal i (Some z)) disc_val) s1)
  | RNewErr r id => if id_assert id then RDone ONone (set_obj r (RObj MNone (disc_of_id id)) s) else RAssert
  | RNewCap r id objs ex =>
      if Z.land id 3 =? 1 then let '(i, s1) := construct s in RDone ONone (set_obj r (RObj (MCap i objs ex) (disc_of_cap id)) s1) else RAssert
  | RMove r' r =>
      match o_objs s !! r with
      | Some x => match move_from x s with
                  | Some (y, x', s1) => RDone ONone (set_obj r' y (set_obj r x' s1))
                  | None => RBad end
      | None => RBad end
  | RAssign r' r =>
      match o_objs s !! r' with
      | Some y =>
          match destroy y s with
          | Some s1 =>
              let s2 := set_obj r' (RObj MNone (r_what y)) s1 in
              match o_objs s2 !! r with
              | Some x => match move_from x s2 with
                          | Some (y', x', s3) => RDone ONone (set_obj r' y' (set_obj r x' s3))
                          | None => RBad end
              | None => RBad end
          | None => RBad end
      | None => RBad end
  | RConvert r' r =>
      match o_objs s !! r with
      | Some x =>
          match disc_kind (r_what x) with
          | k_val => RDone ONone (set_obj r' (RObj MNone (disc_of_id 0)) s)
          | err_id_capture_list =>
              match r_u x with
              | MCap i objs ex =>
                  if decide (i ∈ o_live s) then
                    let id := disc_get_error_id (r_what x) in
                    if Z.land id 3 =? 1 then
                      let '(j, s1) := construct s in
                      RDone ONone (set_obj r' (RObj (MCap j objs ex) (disc_of_cap id)) (set_obj r (RObj (MCap i [] None) (r_what x)) s1))
                    else RAssert
                  else RBad
              | _ => RBad
              end
          | _ => let id := disc_get_error_id (r_what x) in
                 if id_assert id then RDone ONone (set_obj r' (RObj MNone (disc_of_id id)) s) else RAssert
          end
      | None => RBad end
  | RErrorId r =>
      match o_objs s !! r with
      | Some x => RDone (OId match disc_kind (r_what x) with k_val => 0 | _ => disc_get_error_id (r_what x) end) s
      | None => RBad end
  | RHas r =>
      match o_objs s !! r with
      | Some x => RDone (OHas match disc_kind (r_what x) with k_val => true | _ => false end) s
      | None => RBad end
  | RValue r take =>
      match o_objs s !! r with
      | Some x =>
          match disc_kind (r_what x) with
          | k_val =>
              match r_u x with
              | MVal i z => if decide (i ∈ o_live s) then RDone (OVal z) (if take then set_obj r (RObj (MVal i None) (r_what x)) s else s) else RBad
              | _ => RBad end
          | err_id_capture_list => (* enforce_value_state, 309-325 *)
              match r_u x with
              | MCap i objs ex =>
                  if decide (i ∈ o_live s) then
                    RThrow (match ex with Some z => TEx z | None => TBad (disc_get_error_id (r_what x)) end) objs (set_obj r (RObj (MCap i [] None) (r_what x)) s)
                  else RBad
              | _ => RBad end
          | _ => RThrow (TBad (disc_get_error_id (r_what x))) [] s
          end
      | None => RBad end
  | RArrow r =>
      match o_objs s !! r with
      | Some x =>
          match disc_kind (r_what x) with
          | k_val => match r_u x with MVal i z => if decide (i ∈ o_live s) then RDone (OPtr (Some z)) s else RBad | _ => RBad end
          | _ => RDone (OPtr None) s end
      | None => RBad end
  | RStar r =>
      match o_objs s !! r with
      | Some x =>
          match disc_kind (r_what x) with
          | k_val => match r_u x with MVal i z => if decide (i ∈ o_live s) then RDone (OVal z) s else RBad | _ => RBad end
          | _ => RAssert end
      | None => RBad end
  | RUnload r =>
      match o_objs s !! r with
      | Some x =>
          match disc_kind (r_what x) with
          | err_id_capture_list =>
              match r_u x with
              | MCap i objs ex =>
                  if decide (i ∈ o_live s) then
                    let s1 := set_obj r (RObj (MCap i [] None) (r_what x)) s in
                    match ex with Some z => RThrow (TEx z) objs s1 | None => RDone (OUnl (disc_get_error_id (r_what x)) objs) s1 end
                  else RBad
              | _ => RBad end
          | _ => RDone ONone s end
      | None => RBad end
  | RDestroy r =>
      match o_objs s !! r with
      | Some x => match destroy x s with Some s1 => RDone ONone (RState (delete r (o_objs s1)) (o_made s1) (o_live s1) (o_freed s1)) | None => RBad end
      | None => RBad end
  end.

(** A sequence of operations: what each one gave; the program goes on after an exception. *)
Fixpoint rrun (ops : list rop) (s : rstate) : option (list (robs + rexn * list Z) * rstate) :=
  match ops with
  | [] => Some ([], s)
  | op :: ops' =>
      match rstep op s with
      | RDone o s' => match rrun ops' s' with Some (os, s'') => Some (inl o :: os, s'') | None => None end
      | RThrow e objs s' => match rrun ops' s' with Some (os, s'') => Some (inr (e, objs) :: os, s'') | None => None end
      | _ => None
      end
  end.
