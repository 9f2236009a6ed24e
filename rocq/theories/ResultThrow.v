(** result<T> objects whose values have constructors that throw, result.hpp. Extends ResultObj.v, where the constructors of T do not throw. *)
From Verif Require Export ResultObj.
Open Scope Z_scope.

(** The constructors of result<T> that initialize a value, result.hpp:370-427. *)
Inductive vctor :=
| VDefault   (* 370-374: result() *)
| VMoved     (* 376-380: result( value_no_ref && ) *)
| VCopied    (* 382-386: result( value_no_ref const & ) *)
| VSeveral   (* 388-393: result( A && ... ), two arguments or more *)
| VOther.    (* 408-413, or 421-426: result( A && ), an argument of another type, e.g. result<std::string>("literal") *)
(** Which are noexcept. [wa]: the workaround for clang, result.hpp:400 and 415-428, is compiled. *)
Definition vnoexcept (wa : bool) (c : vctor) : bool :=
  match c with VDefault | VCopied => false | VMoved | VSeveral => true | VOther => negb wa end.

(** Constructors of T give a value or an exception. *)
Inductive top :=
| TOp (op : rop)
| TValue (c : vctor) (r : nat) (z : Z + Z)
| TMoveConv (r' r : nat) (f : option Z -> Z + Z)    (* 364-368: result( result<U> && ); f converts the value *)
| TAssignConv (r' r : nat) (f : option Z -> Z + Z). (* 457-462: operator=( result<U> && ) *)
Inductive tres := TRes (x : rres) | TUser (e : Z) (s : rstate) | TTerminate.

(** move_from from a result of another type, result.hpp:260-281. Some None: the constructor of stored_, line 278, throws. *)
Definition move_conv (f : option Z -> Z + Z) (x : robj) (s : rstate) : option (option (robj * robj * rstate)) :=
  match disc_kind (r_what x), r_u x with
  | k_val, MVal i z =>
      if decide (i ∈ o_live s) then
        match f z with
        | inl v => let '(j, s1) := construct s in Some (Some (RObj (MVal j (Some v)) (r_what x), RObj (MVal i None) (r_what x), s1))
        | inr _ => Some None
        end
      else None
  | _, _ => Some <$> move_from x s
  end.

Definition tstep (wa : bool) (op : top) (s : rstate) : tres :=
  match op with
  | TOp op => TRes (rstep op s)
  | TValue c r (inl z) => TRes (rstep (RNewVal r z) s)
  | TValue c r (inr e) => if vnoexcept wa c then TTerminate else TUser e s (* no member was constructed, and ~result does not run *)
  | TMoveConv r' r f =>
      match o_objs s !! r with
      | Some x => match move_conv f x s with
                  | Some (Some (y, x', s1)) => TRes (RDone ONone (set_obj r' y (set_obj r x' s1)))
                  | Some None => TTerminate
                  | None => TRes RBad end
      | None => TRes RBad end
  | TAssignConv r' r f => (* move_assign, 327-332 *)
      match o_objs s !! r' with
      | Some y =>
          match destroy y s with
          | Some s1 =>
              let s2 := set_obj r' (RObj MNone (r_what y)) s1 in
              match o_objs s2 !! r with
              | Some x => match move_conv f x s2 with
                          | Some (Some (y', x', s3)) => TRes (RDone ONone (set_obj r' y' (set_obj r x' s3)))
                          | Some None => TTerminate
                          | None => TRes RBad end
              | None => TRes RBad end
          | None => TRes RBad end
      | None => TRes RBad end
  end.

(** What the program sees of an operation: as in ResultObj.v, or the exception of a constructor of T. *)
Inductive tob := BObs (o : robs + rexn * list Z) | BUser (e : Z).
(** A sequence of operations; the program goes on after an exception. The state at the end; None: std::terminate was called. *)
Fixpoint trun (wa : bool) (ops : list top) (s : rstate) : option (list tob * option rstate) :=
  match ops with
  | [] => Some ([], Some s)
  | op :: ops' =>
      let go b s' := match trun wa ops' s' with Some (os, e) => Some (b :: os, e) | None => None end in
      match tstep wa op s with
      | TRes (RDone o s') => go (BObs (inl o)) s'
      | TRes (RThrow e objs s') => go (BObs (inr (e, objs))) s'
      | TUser e s' => go (BUser e) s'
      | TTerminate => Some ([], None)
      | TRes _ => None
      end
  end.
