(** Several threads. The storage of error objects is reached through thread_local pointers only (config/tls_cpp11.hpp:26-68), the current id is
    thread_local (error.hpp:548-561), contexts live in automatic storage. What threads share is id_factory::counter, error.hpp:536-547, an
    std::atomic (config/tls_cpp11.hpp:20, config/tls_array.hpp:58): generating an id is one atomic step. Everything a thread does between two such steps is local, so the state of a thread is
    determined by where it started and the ids it got; a step of the whole system gives the next id to a thread which waits for one.
    Not modelled: user code which passes references to error objects from a thread to another. *)
From Verif Require Export Local Ids.
Open Scope Z_scope.

Record thread := Th { t_prog : prog; t_mem : mem; t_glob : glob; t_ids : list Z }.

(** Threads run the same library: G, except for the ids. The supply of a thread with ids l: those, then anything (x). *)
Definition given (x : nat -> Z) (n0 : nat) (l : list Z) (n : nat) : Z := match l !! (n - n0)%nat with Some id => id | None => x n end.

(** How a thread has ended: with what it did, using its ids only. *)
Definition ended (G : cfg) (t : thread) (o : out) (m' : mem) (g' : glob) : Prop :=
  lib_run (with_sup (given (g_sup G) (ngen (t_glob t)) (t_ids t)) G) None (t_prog t) (t_mem t) (t_glob t) o m' g' /\
  (ngen g' <= ngen (t_glob t) + length (t_ids t))%nat.

(** The whole system: the counter, and the threads. *)
Definition world : Type := Z * list thread.

(** Thread i, not having ended, generates an id: error.hpp:538-543, 556-561 *)
Inductive step (G : cfg) : world -> world -> Prop :=
| Step c ts i t : ts !! i = Some t -> ~ (exists o m' g', ended G t o m' g') ->
    step G (c, ts) (generate_next_id c, <[ i := Th (t_prog t) (t_mem t) (t_glob t) (t_ids t ++ [to_int (generate_next_id c)]) ]> ts).

(** Any schedule: n ids generated. *)
Inductive steps (G : cfg) : nat -> world -> world -> Prop :=
| steps_O w : steps G 0 w w
| steps_S n w1 w2 w3 : steps G n w1 w2 -> step G w2 w3 -> steps G (S n) w1 w3.

(** A thread at its start. *)
Definition begins (t : thread) : Prop := t_ids t = [].
