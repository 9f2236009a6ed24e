(** on_error and error_monitor in code which destructors call while an exception is in flight, with and without std::uncaught_exceptions
    (BOOST_LEAF_STD_UNCAUGHT_EXCEPTIONS, config.hpp:205-212). Only the current error id and the exceptions in flight are modelled here,
    not error objects; Interp.v has these, for code which no destructor runs. *)
From stdpp Require Export base list.
From Coq Require Export ZArith.
Open Scope Z_scope.

Inductive uprog :=
| UNop
| USeq (p q : uprog)                (* p; q *)
| UNew                              (* new_error() *)
| USetCur (id : Z)                  (* anything else that changes the current id, e.g. ~exception (exception.hpp:148-152) *)
| UThrow                            (* throw *)
| UTry (p h : uprog)                (* try { p } catch(...) { h } *)
| UGuard (d p : uprog)              (* { object with a destructor that does d; p } *)
| UOnError (n : nat) (p : uprog)    (* { auto _ = on_error(...); p }, n: which on_error this is *)
| UMonitor (p : uprog)              (* { error_monitor m; p } *)
| UCheck (i : nat)                  (* m.check_id(), m being the i-th monitor in scope, the innermost is the 0-th *)
| UAssigned (i : nat).              (* m.get_id() *)

(** How code ends; UTerm: std::terminate, an exception leaves a destructor; UIll: no such variable *)
Inductive uout := UOk | UThrew | UTerm | UIll.
(** What is seen: on_error n's items are triggered with an id; what check_id and get_id return *)
Inductive uev := EvTrigger (n : nat) (id : Z) | EvCheck (id : Z) | EvAssigned (id : Z).

(** current_id(), the number of ids generated, std::uncaught_exceptions(), the events, the last one first *)
Record ust := USt { u_cur : Z; u_gen : nat; u_unc : nat; u_log : list uev }.

Section run.
Context (std17 : bool) (sup : nat -> Z).

Definition ulog (e : uev) (s : ust) : ust := USt (u_cur s) (u_gen s) (u_unc s) (e :: u_log s).
Definition uset_unc (n : nat) (s : ust) : ust := USt (u_cur s) (u_gen s) n (u_log s).
(** new_id, error.hpp:556-561 *)
Definition unew (s : ust) : Z * ust := (sup (u_gen s), USt (sup (u_gen s)) (S (u_gen s)) (u_unc s) (u_log s)).
(** error_monitor: err_id_ and uncaught_exceptions_, on_error.hpp:15-28 (without std17 the second is not there, and not used) *)
Definition umon (s : ust) : Z * nat := (u_cur s, u_unc s).
(** check_id, on_error.hpp:30-47 *)
Definition ucheck (m : Z * nat) (s : ust) : Z * ust :=
  if negb (u_cur s =? fst m) then (u_cur s, s)
  else if (if std17 then snd m <? u_unc s else 0 <? u_unc s)%nat then unew s
  else (0, s).
(** get_id, on_error.hpp:49-56 *)
Definition uget (m : Z * nat) (s : ust) : Z * ust := if negb (u_cur s =? fst m) then (u_cur s, s) else unew s.

Fixpoint urun (env : list (Z * nat)) (p : uprog) (s : ust) : uout * ust :=
  match p with
  | UNop => (UOk, s)
  | USeq p q => let '(o, s1) := urun env p s in match o with UOk => urun env q s1 | _ => (o, s1) end
  | UNew => (UOk, snd (unew s))
  | USetCur id => (UOk, USt id (u_gen s) (u_unc s) (u_log s))
  | UThrow => (UThrew, uset_unc (S (u_unc s)) s)
  | UTry p h => (* the exception is no longer uncaught when the handler is entered *)
      let '(o, s1) := urun env p s in match o with UThrew => urun env h (uset_unc (Nat.pred (u_unc s1)) s1) | _ => (o, s1) end
  | UGuard d p =>
      let '(o, s1) := urun env p s in
      match o with
      | UOk | UThrew => let '(o2, s2) := urun env d s1 in
                        match o2 with UOk => (o, s2) | UThrew => (UTerm, s2) | _ => (o2, s2) end
      | _ => (o, s1)
      end
  | UOnError n p => (* preloaded, on_error.hpp:166-198 *)
      let m := umon s in
      let '(o, s1) := urun env p s in
      match o with
      | UOk | UThrew => let '(id, s2) := ucheck m s1 in (o, if id =? 0 then s2 else ulog (EvTrigger n id) s2)
      | _ => (o, s1)
      end
  | UMonitor p => urun (umon s :: env) p s
  | UCheck i => match env !! i with Some m => let '(id, s1) := ucheck m s in (UOk, ulog (EvCheck id) s1) | None => (UIll, s) end
  | UAssigned i => match env !! i with Some m => let '(id, s1) := uget m s in (UOk, ulog (EvAssigned id) s1) | None => (UIll, s) end
  end.
End run.
