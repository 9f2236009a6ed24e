(** The other implementations of thread local storage: config/tls_cpp11.hpp, config/tls_globals.hpp, config/tls_freertos.hpp (which one is used: config/tls.hpp:8-10, 24-30). *)
From Verif Require Export TlsArray.
Open Scope Z_scope.

(** ** tls_cpp11.hpp: a thread_local variable per type, zero at the start of a thread. Nothing has to be initialised. *)
Notation cstate := (gmap (thr * tytag) Z) (only parsing).
(** ptr<T>::p, read_ptr, write_ptr, tls_cpp11.hpp:25-44; tagged_uint<Tag>::x, read_uint, write_uint, 48-67: an unsigned int of 32 bits *)
Definition cstep (s : cstate) (ev : tevent) : list Z * cstate :=
  match ev with
  | EvInit _ => ([], s)
  | EvRead th T | EvReadU th T => ([default 0 (s !! (th, T))], s)
  | EvWrite th T p => ([], <[(th, T) := p]> s)
  | EvWriteU th T x => ([], <[(th, T) := x mod 2 ^ 32]> s)
  end.
Fixpoint crun (s : cstate) (evs : list tevent) : list Z :=
  match evs with [] => [] | ev :: evs' => let '(vs, s') := cstep s ev in vs ++ crun s' evs' end.

(** ** tls_globals.hpp: a static variable per type *)
Notation gstate := (gmap tytag Z) (only parsing).
(** ptr<T>::p, read_ptr, write_ptr, tls_globals.hpp:24-43; tagged_uint<Tag>::x, read_uint, write_uint, 47-66 *)
Definition gstep (s : gstate) (ev : tevent) : list Z * gstate :=
  match ev with
  | EvInit _ => ([], s)
  | EvRead _ T | EvReadU _ T => ([default 0 (s !! T)], s)
  | EvWrite _ T p => ([], <[T := p]> s)
  | EvWriteU _ T x => ([], <[T := x mod 2 ^ 32]> s)
  end.
Fixpoint grun (s : gstate) (evs : list tevent) : list Z :=
  match evs with [] => [] | ev :: evs' => let '(vs, s') := gstep s ev in vs ++ grun s' evs' end.

(** ** tls_freertos.hpp *)
(** The storage of FreeRTOS: per task an array of configNUM_THREAD_LOCAL_STORAGE_POINTERS pointers, null at first. FreeRTOS itself is not part of the
    repository; from its documentation: an index outside the array is ignored, respectively read as null. *)
Notation ftab := (gmap thr (list Z)) (only parsing).
Definition task_tab (num : nat) (t : ftab) (th : thr) : list Z := default (replicate num 0) (t !! th).
Definition pvTaskGetThreadLocalStoragePointer (num : nat) (t : ftab) (th : thr) (i : Z) : Z :=
  if i <? 0 then 0 else default 0 (task_tab num t th !! Z.to_nat i).
Definition vTaskSetThreadLocalStoragePointer (num : nat) (t : ftab) (th : thr) (i : Z) (p : Z) : ftab :=
  if i <? 0 then t else <[th := <[Z.to_nat i := p]> (task_tab num t th)]> t.

(** tls_array.hpp with the read_void_ptr and write_void_ptr of tls_freertos.hpp:34-42 (the task 0 is the calling one); t_arr is not used. *)
Definition fstate : Type := tstate * ftab.
(** read_ptr, tls_array.hpp:108-116 *)
Definition fread (C : tcfg) (num : nat) (s : fstate) (th : thr) (T : tytag) : Z :=
  let i := default (c_start C) (t_idx (fst s) !! T) in
  if i =? c_start C then 0 else pvTaskGetThreadLocalStoragePointer num (snd s) th (i - 1).
(** write_ptr, tls_array.hpp:118-125 *)
Definition fwrite (C : tcfg) (num : nat) (s : fstate) (th : thr) (T : tytag) (p : Z) : toutcome fstate :=
  let i := default 0 (t_alloc (fst s) !! T) - 1 in
  let t := vTaskSetThreadLocalStoragePointer num (snd s) th i p in
  if c_assert C && negb (pvTaskGetThreadLocalStoragePointer num t th i =? p) then TAssert else TOk (fst s, t).
Definition fstep (C : tcfg) (num : nat) (s : fstate) (ev : tevent) : toutcome (list Z * fstate) :=
  match ev with
  | EvInit T => match init_alloc C (fst s) T with TOk s' => TOk ([], (s', snd s)) | TAssert => TAssert | TRange => TRange end
  | EvRead th T => TOk ([fread C num s th T], s)
  | EvWrite th T p => match fwrite C num s th T p with TOk s' => TOk ([], s') | TAssert => TAssert | TRange => TRange end
  | EvReadU th T => TOk ([fread C num s th T mod 2 ^ 32], s)
  | EvWriteU th T x => match fwrite C num s th T (x mod 2 ^ c_bits C) with TOk s' => TOk ([], s') | TAssert => TAssert | TRange => TRange end
  end.
Fixpoint frun (C : tcfg) (num : nat) (s : fstate) (evs : list tevent) : toutcome (list Z * fstate) :=
  match evs with
  | [] => TOk ([], s)
  | ev :: evs' =>
      match fstep C num s ev with
      | TOk (vs, s') => match frun C num s' evs' with TOk (vs', s'') => TOk (vs ++ vs', s'') | e => e end
      | TAssert => TAssert
      | TRange => TRange
      end
  end.
