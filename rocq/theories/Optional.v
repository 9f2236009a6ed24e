(** Keyed storage cells with object lifetimes, detail/optional.hpp. *)
From stdpp Require Export base gmap list.
From Coq Require Export ZArith.
Open Scope Z_scope.

(** A cell: key_, and what is in the union: [None] raw storage, [Some v] a living T. *)
Record ocell := OCell { o_key : Z; o_obj : option Z }.
(** The optional objects that exist; how many T were constructed and destroyed in cells; how many constructions were
    attempted (copying and default construction may throw: [throws n] tells whether the n-th attempt does). *)
Record ostate := OState { o_cells : gmap nat ocell; o_made : nat; o_gone : nat; o_tries : nat }.
Definition oinit : ostate := OState ∅ 0 0 0.

(** What an operation ends with: normally, by an exception, by std::terminate (an exception leaves a noexcept function),
    by a failing assertion, or by an access the language does not allow: to an object which does not live, or
    construction where one lives (which would leak it), or to a cell that does not exist. *)
Inductive ores := ODone (s : ostate) | OThrown (s : ostate) | OTerminate | OAssert | OBad.

Section ops.
Context (throws : nat -> bool) (dflt : Z).

Definition set_cell (c : nat) (x : ocell) (s : ostate) : ostate := OState (<[c := x]> (o_cells s)) (o_made s) (o_gone s) (o_tries s).

(** new(&value_) T(v) in cell c; [can] : this constructor may throw *)
Definition construct (can : bool) (c : nat) (v : Z) (s : ostate) : ores :=
  match o_cells s !! c with
  | Some (OCell k None) =>
      let s' := OState (o_cells s) (o_made s) (o_gone s) (S (o_tries s)) in
      if can && throws (o_tries s) then OThrown s'
      else ODone (OState (<[c := OCell k (Some v)]> (o_cells s)) (S (o_made s)) (o_gone s) (S (o_tries s)))
  | _ => OBad
  end.
(** value_.~T() *)
Definition destruct_ (c : nat) (s : ostate) : ores :=
  match o_cells s !! c with
  | Some (OCell k (Some _)) => ODone (OState (<[c := OCell k None]> (o_cells s)) (o_made s) (S (o_gone s)) (o_tries s))
  | _ => OBad
  end.
(** the object in cell c, to be read *)
Definition rd (c : nat) (s : ostate) : option Z := match o_cells s !! c with Some (OCell _ o) => o | None => None end.
Definition key (c : nat) (s : ostate) : option Z := match o_cells s !! c with Some x => Some (o_key x) | None => None end.
Definition set_key (c : nat) (k : Z) (s : ostate) : ores :=
  match o_cells s !! c with Some x => ODone (set_cell c (OCell k (o_obj x)) s) | None => OBad end.

Definition seq (r : ores) (f : ostate -> ores) : ores := match r with ODone s => f s | e => e end.
(** std::terminate if an exception leaves a noexcept function *)
Definition nothrow (r : ores) : ores := match r with OThrown _ => OTerminate | e => e end.

(** reset, optional.hpp:100-107 *)
Definition reset (c : nat) (s : ostate) : ores :=
  match key c s with
  | None => OBad
  | Some k => if k =? 0 then ODone s else seq (destruct_ c s) (set_key c 0)
  end.
(** load, optional.hpp:109-134; [can]: by copying or default construction (which may throw) / by moving (noexcept, 127);
    [v]: the value to be stored, None: there is no such object *)
Definition load_ (can : bool) (c : nat) (k : Z) (v : option Z) (s : ostate) : ores :=
  if k =? 0 then OAssert
  else seq (reset c s) (fun s => match v with None => OBad | Some v => seq (construct can c v s) (set_key c k) end).

(** The same with the value read from another cell, at the time of construction *)
Definition load_from (can : bool) (c : nat) (k : Z) (x : nat) (s : ostate) : ores :=
  if k =? 0 then OAssert
  else seq (reset c s) (fun s => match rd x s with None => OBad | Some v => seq (construct can c v s) (set_key c k) end).

(** A new optional object in place c. *)
Definition fresh (c : nat) (k : Z) (s : ostate) : ores :=
  match o_cells s !! c with Some _ => OBad | None => ODone (set_cell c (OCell k None) s) end.
(** A constructor that ends by an exception: there is no object, its destructor does not run. *)
Definition ctor (c : nat) (r : ores) : ores :=
  match r with
  | OThrown s => match o_cells s !! c with
                 | Some (OCell _ None) => OThrown (OState (delete c (o_cells s)) (o_made s) (o_gone s) (o_tries s))
                 | _ => OBad
                 end
  | e => e
  end.

Inductive oop :=
| ONew (c : nat)                        (* optional(), 27-30 *)
| ONewCopy (c x : nat)                  (* optional(optional const &), 32-37 *)
| ONewMove (c x : nat)                  (* optional(optional &&), 39-47 *)
| ONewVal (c : nat) (k : Z) (v : Z)     (* optional(int, T const &), 49-54 *)
| ONewValMove (c : nat) (k : Z) (v : Z) (* optional(int, T &&), 56-61 *)
| OAssign (c x : nat)                   (* operator=(optional const &), 63-72 *)
| OAssignMove (c x : nat)               (* operator=(optional &&), 74-83 *)
| ODestroy (c : nat)                    (* ~optional, 85-88 *)
| OReset (c : nat)                      (* reset, 100-107 *)
| OLoad (c : nat) (k : Z)               (* load(int), 109-116 *)
| OLoadVal (c : nat) (k : Z) (v : Z)    (* load(int, T const &), 118-125 *)
| OLoadMove (c : nat) (k : Z) (v : Z)   (* load(int, T &&), 127-134 *)
| OMoveOut (c : nat) (k : Z)            (* value(int) &&, 179-186 *)
| ORead (c : nat) (k : Z)               (* value(int) &, has_value(int): 146-170 *)
| OGetDefault (c : nat) (k : Z).        (* value_or_default(int), 188-194 *)

Definition ostep (op : oop) (s : ostate) : ores :=
  match op with
  | ONew c => fresh c 0 s
  | ONewCopy c x =>
      match key x s with
      | None => OBad
      | Some k => ctor c (seq (fresh c k s) (fun s =>
                    if k =? 0 then ODone s else match rd x s with None => OBad | Some v => construct true c v s end))
      end
  | ONewMove c x =>
      match key x s with
      | None => OBad
      | Some k => nothrow (seq (fresh c k s) (fun s =>
                    if k =? 0 then ODone s
                    else match rd x s with None => OBad | Some v => seq (construct false c v s) (reset x) end))
      end
  | ONewVal c k v => if k =? 0 then OAssert else ctor c (seq (fresh c k s) (construct true c v))
  | ONewValMove c k v => if k =? 0 then OAssert else nothrow (seq (fresh c k s) (construct false c v))
  | OAssign c x =>
      seq (reset c s) (fun s =>
        match key x s with
        | None => OBad
        | Some k => if k =? 0 then ODone s else seq (load_from true c k x s) (set_key c k)
        end)
  | OAssignMove c x =>
      nothrow (seq (reset c s) (fun s =>
        match key x s with
        | None => OBad
        | Some k => if k =? 0 then ODone s else seq (load_from false c k x s) (reset x)
        end))
  | ODestroy c =>
      seq (reset c s) (fun s =>
        match o_cells s !! c with
        | Some (OCell _ None) => ODone (OState (delete c (o_cells s)) (o_made s) (o_gone s) (o_tries s))
        | _ => OBad (* the storage of a living T goes away *)
        end)
  | OReset c => reset c s
  | OLoad c k => load_ true c k (Some dflt) s
  | OLoadVal c k v => load_ true c k (Some v) s
  | OLoadMove c k v => nothrow (load_ false c k (Some v) s)
  | OMoveOut c k =>
      if k =? 0 then OAssert
      else match key c s with
           | None => OBad
           | Some k' => if negb (k' =? k) then OAssert else match rd c s with None => OBad | Some _ => nothrow (reset c s) end
           end
  | ORead c k =>
      if k =? 0 then OAssert
      else match key c s with
           | None => OBad
           | Some k' => if negb (k' =? k) then ODone s else match rd c s with None => OBad | Some _ => ODone s end
           end
  | OGetDefault c k =>
      if k =? 0 then OAssert
      else match key c s with
           | None => OBad
           | Some k' => if k' =? k then match rd c s with None => OBad | Some _ => ODone s end
                        else nothrow (load_ true c k (Some dflt) s)
           end
  end.

(** A sequence of operations; the program goes on after an exception. *)
Fixpoint orun (ops : list oop) (s : ostate) : ores :=
  match ops with
  | [] => ODone s
  | op :: ops' => match ostep op s with ODone s' | OThrown s' => orun ops' s' | e => e end
  end.
End ops.
