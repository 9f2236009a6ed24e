(** operator<< of windows::e_LastError and e_errno, common.hpp:49-60, 68-106. *)
From Coq Require Export Ascii String.
From Coq Require Import Numbers.DecimalString Numbers.DecimalZ.
From stdpp Require Export base list.
From Coq Require Export ZArith.
Open Scope Z_scope.

Notation chars := (list ascii).
Definition cLF : ascii := "010"%char.
Definition cCR : ascii := "013"%char.
Definition cQ : ascii := "034"%char.
Definition lit (s : string) : chars := list_ascii_of_string s.
(** an int or unsigned as printed by operator<< *)
Definition dec (z : Z) : chars := lit (NilZero.string_of_int (Z.to_int z)).

(** What happens: output, or an access outside the buffer. *)
Inductive lres := Printed (s : chars) | OutOfBounds.

(** p[i] of the buffer which FormatMessageA allocated for the message: its characters, then a NUL *)
Definition rd (msg : chars) (i : Z) : option ascii := if i <? 0 then None else (msg ++ [zero]) !! Z.to_nat i.
(** if( z[-1] == c ) *--z = 0; z: offset of the NUL; common.hpp:95-98. None: out of bounds *)
Definition chop (msg : chars) (c : ascii) (z : Z) : option Z :=
  match rd msg (z - 1) with Some a => Some (if Ascii.eqb a c then z - 1 else z) | None => None end.

(** operator<<, common.hpp:74-104. [msg]: what FormatMessageA gives for this value; None: it returns 0. Without NUL characters *)
Definition show_last_error (value : Z) (msg : option chars) : lres :=
  match msg with
  | None => Printed []
  | Some msg =>
      match chop msg cLF (Z.of_nat (length msg)) with
      | Some z => match chop msg cCR z with
                  | Some z => Printed (dec value ++ lit ", " ++ [cQ] ++ take (Z.to_nat z) msg ++ [cQ])
                  | None => OutOfBounds
                  end
      | None => OutOfBounds
      end
  end.

(** e_errno, common.hpp:55-59 *)
Definition show_errno (value : Z) (strerror : Z -> chars) : chars := dec value ++ lit ", " ++ [cQ] ++ strerror value ++ [cQ].
