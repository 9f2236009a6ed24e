(** The objects returned by on_error, which can be moved: preloaded<Item...>, on_error.hpp:166-198, and error_monitor, 13-67. *)
From stdpp Require Export base gmap list.
From Coq Require Export ZArith.
Open Scope Z_scope.

(** A preloaded object: p_ (what the items do; items stay the same when moved from, as for lambdas with trivial captures), moved_,
    id_ (err_id_ and uncaught_exceptions_). [b_serial]: which call of on_error it comes from; for the statements only. *)
Record pobj := PObj { b_serial : nat; b_moved : bool; b_err : Z; b_unc : nat }.
(** The thread: the objects, detail::current_id(), std::uncaught_exceptions(); the ids supplied by new_id, how many were generated;
    how often on_error was called; which items were triggered with which id, last first. *)
Record pstate := PState { p_objs : gmap nat pobj; p_cur : Z; p_unc : nat; p_gen : nat; p_calls : nat; p_log : list (nat * Z) }.

Inductive pop :=
| OCreate (o : nat)       (* on_error(items...) *)
| OMove (o' o : nat)      (* preloaded(preloaded &&) *)
| ODestroy (o : nat)      (* ~preloaded *)
| OSetCur (id : Z)        (* anything that changes the current id *)
| OSetUnc (n : nat).      (* exceptions are thrown and handled *)

Section ids.
Context (sup : nat -> Z).
Definition with_obj (m : gmap nat pobj) (s : pstate) : pstate := PState m (p_cur s) (p_unc s) (p_gen s) (p_calls s) (p_log s).

(** check_id, on_error.hpp:30-47: with new_id, error.hpp:556-561, which changes the current id *)
Definition check_id (x : pobj) (s : pstate) : Z * pstate :=
  if negb (p_cur s =? b_err x) then (p_cur s, s)
  else if (b_unc x <? p_unc s)%nat then (sup (p_gen s), PState (p_objs s) (sup (p_gen s)) (p_unc s) (S (p_gen s)) (p_calls s) (p_log s))
  else (0, s).

(** None: no such object *)
Definition pstep (op : pop) (s : pstate) : option pstate :=
  match op with
  | OCreate o => (* 177-181, 22-28 *)
      Some (PState (<[o := PObj (p_calls s) false (p_cur s) (p_unc s)]> (p_objs s)) (p_cur s) (p_unc s) (p_gen s) (S (p_calls s)) (p_log s))
  | OMove o' o => (* 183-189 *)
      match p_objs s !! o with
      | Some x => Some (with_obj (<[o := PObj (b_serial x) true (b_err x) (b_unc x)]> (<[o' := PObj (b_serial x) false (b_err x) (b_unc x)]> (p_objs s))) s)
      | None => None
      end
  | ODestroy o => (* 191-197 *)
      match p_objs s !! o with
      | Some x =>
          let s1 := with_obj (delete o (p_objs s)) s in
          if b_moved x then Some s1
          else let '(id, s2) := check_id x s1 in
               Some (if id =? 0 then s2 else PState (p_objs s2) (p_cur s2) (p_unc s2) (p_gen s2) (p_calls s2) ((b_serial x, id) :: p_log s2))
      | None => None
      end
  | OSetCur id => Some (PState (p_objs s) id (p_unc s) (p_gen s) (p_calls s) (p_log s))
  | OSetUnc n => Some (PState (p_objs s) (p_cur s) n (p_gen s) (p_calls s) (p_log s))
  end.
Fixpoint prun (ops : list pop) (s : pstate) : option pstate :=
  match ops with [] => Some s | op :: ops' => match pstep op s with Some s' => prun ops' s' | None => None end end.
End ids.
Definition pinit (cur : Z) (unc gen : nat) : pstate := PState ∅ cur unc gen 0 [].
