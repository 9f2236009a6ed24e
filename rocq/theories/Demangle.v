(** Extraction of a type's name from the compiler generated signature, detail/demangle.hpp. *)
From Coq Require Export Ascii String.
From stdpp Require Export base list.
From Coq Require Export ZArith.
Open Scope Z_scope.

Notation chars := (list ascii).
Notation length := List.length.
Definition lit (s : string) : chars := list_ascii_of_string s.

(** A string literal is an array of its characters and a terminating NUL: sizeof is length + 1. *)
Definition sizeof (s : chars) : Z := Z.of_nat (length s) + 1.
Definition nul : ascii := Ascii.zero.
(** s[i]; None: outside the array *)
Definition at_ (s : chars) (i : Z) : option ascii := if i <? 0 then None else (s ++ [nul]) !! Z.to_nat i.

(** str[i] == pat[j] *)
Definition eq_at (str : chars) (i : Z) (pat : chars) (j : Z) : option bool :=
  match at_ str i, at_ pat j with Some a, Some b => Some (Ascii.eqb a b) | _, _ => None end.
Definition oand (a : option bool) (b : option bool) : option bool :=
  match a with Some true => b | x => x end.

(** cpp11_prefix, demangle.hpp:53-76; I is S2 - 2 at the start *)
Fixpoint cpp11_prefix (I : nat) (str prefix : chars) : option bool :=
  match I with
  | O => eq_at str 0 prefix 0
  | S I' => oand (eq_at str (Z.of_nat I) prefix (Z.of_nat I)) (cpp11_prefix I' str prefix)
  end.
(** check_prefix, demangle.hpp:77-81; instantiating it with an empty literal would be an error *)
Definition check_prefix (str prefix : chars) : option Z :=
  if sizeof str >=? sizeof prefix then
    match cpp11_prefix (Z.to_nat (sizeof prefix - 2)) str prefix with
    | Some b => Some (if b then sizeof prefix - 1 else 0) | None => None end
  else Some 0.

(** cpp11_suffix, demangle.hpp:85-109; I2 is S2 - 2, I1 is S1 - 2 at the start *)
Fixpoint cpp11_suffix (I2 : nat) (I1 : Z) (str suffix : chars) : option bool :=
  match I2 with
  | O => eq_at str I1 suffix 0
  | S I2' => oand (eq_at str I1 suffix (Z.of_nat I2)) (cpp11_suffix I2' (I1 - 1) str suffix)
  end.
(** check_suffix, demangle.hpp:110-114 *)
Definition check_suffix (str suffix : chars) : option Z :=
  if sizeof str >=? sizeof suffix then
    match cpp11_suffix (Z.to_nat (sizeof suffix - 2)) (sizeof str - 2) str suffix with
    | Some b => Some (if b then sizeof str - sizeof suffix else 0) | None => None end
  else Some 0.

(** The recognised formats, demangle.hpp:148-169 *)
Definition clang_style := lit "r boost::leaf::n::p() [T = ".
Definition old_clang_style := lit "boost::leaf::n::r boost::leaf::n::p() [T = ".
Definition gcc_style := lit "boost::leaf::n::r boost::leaf::n::p() [with T = ".
Definition group1 : list chars := [clang_style; old_clang_style; gcc_style].
Definition msvc (conv tag : string) : chars := lit "struct boost::leaf::n::r __" ++ lit conv ++ lit " boost::leaf::n::p<" ++ lit tag.
Definition group2 : list chars :=
  [msvc "cdecl" "struct "; msvc "stdcall" "struct "; msvc "fastcall" "struct ";
   msvc "cdecl" "class "; msvc "stdcall" "class "; msvc "fastcall" "class ";
   msvc "cdecl" "enum "; msvc "stdcall" "enum "; msvc "fastcall" "enum "].
Definition group3 : list chars := [msvc "cdecl" ""; msvc "stdcall" ""; msvc "fastcall" ""].
(** demangle.hpp:173-176 *)
Definition suffix1 := lit "]".
Definition suffix2 := lit ">(void)".

Fixpoint omap_all {A B} (f : A -> option B) (l : list A) : option (list B) :=
  match l with [] => Some [] | x :: l' => match f x, omap_all f l' with Some y, Some ys => Some (y :: ys) | _, _ => None end end.
Definition sum (l : list Z) : Z := foldr Z.add 0 l.
Definition nonzero (z : Z) : bool := negb (z =? 0).
Definition count_nz (l : list Z) : Z := sum (map (fun z => if nonzero z then 1 else 0) l).

(** n::p, demangle.hpp:134-198: None: a read outside an array, or the static assertion (179-188) fails;
    otherwise the range (start, length) of the signature that is printed *)
Definition parse_range (sig : chars) : option (Z * Z) :=
  match omap_all (check_prefix sig) group1, omap_all (check_prefix sig) group2, omap_all (check_prefix sig) group3,
        check_suffix sig suffix1, check_suffix sig suffix2 with
  | Some p1, Some p2, Some p3, Some s01, Some s02 =>
      if (nonzero s01 && (count_nz p1 =? 1)) || (nonzero s02 && (count_nz p2 =? 1)) || (nonzero s02 && (count_nz p3 =? 1)) then
        let a := if nonzero s01 then sum p1 else 0 in
        let b := if nonzero s02 then sum p2 else 0 in
        let c := if nonzero s02 then sum p3 else 0 in
        if nonzero a then Some (a, s01 - a)
        else if nonzero b then Some (b, s02 - b)
        else Some (c, s02 - c)
      else None
  | _, _, _, _, _ => None
  end.
(** os.write(pn.name, pn.len), demangle.hpp:128-131; None also if the range is not within the signature *)
Definition parse (sig : chars) : option chars :=
  match parse_range sig with
  | Some (p, n) => if (p <? 0) || (n <? 0) || (Z.of_nat (length sig) <? p + n) then None
                   else Some (take (Z.to_nat n) (drop (Z.to_nat p) sig))
  | None => None
  end.
