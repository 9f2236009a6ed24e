(** The configuration of a build: config.hpp and config/tls.hpp, as text for the preprocessor. *)
From Coq Require Import ZArith List Bool.
Import ListNotations.
Open Scope Z_scope.

(** Macros these files test or define. HAS_CXX_EXCEPTIONS stands for the operator __has_feature(cxx_exceptions). *)
Inductive macro :=
| TLS_FREERTOS | EMBEDDED | CFG_DIAGNOSTICS | CFG_STD_SYSTEM_ERROR | CFG_STD_STRING | CFG_CAPTURE | CFG_WIN32 | CFG_GNUC_STMTEXPR   (* BOOST_LEAF_... *)
| NO_EXCEPTIONS | STD_UNCAUGHT_EXCEPTIONS | NO_THREADS | USE_TLS_ARRAY | CFG_TLS_INDEX_TYPE | CFG_TLS_ARRAY_SIZE | CFG_TLS_ARRAY_START_INDEX   (* BOOST_LEAF_... *)
| GNUC | CLANG | IBMXL | CODEGEARC | IBMCPP | COMPILER_VER | MVS | MSC_VER | EXCEPTIONS | CPPUNWIND | CPP_LIB_UNCAUGHT_EXCEPTIONS | HAS_CXX_EXCEPTIONS.   (* the compiler's *)
Definition macro_eq_dec (m n : macro) : {m = n} + {m <> n}.
Proof. decide equality. Defined.

(** What a macro is replaced by: nothing; something which counts as an integer in #if (an identifier that is not a macro counts as 0); something else *)
Inductive mval := Empty | Num (z : Z) | Tokens.
Definition env := macro -> option mval.
Definition define (m : macro) (v : mval) (e : env) : env := fun x => if macro_eq_dec x m then Some v else e x.

(** Conditions of #if; #ifdef X is #if defined(X) *)
Inductive pexp := Defined (m : macro) | Val (m : macro) | Not (a : pexp) | And (a b : pexp) | Or (a b : pexp) | Ne (a : pexp) (z : Z) | Ge (a : pexp) (z : Z).
Definition b2z (b : bool) : Z := if b then 1 else 0.
Definition nz (z : Z) : bool := negb (z =? 0).
(** Their values: a macro that is not defined counts as 0, one defined as nothing (or as something else) makes the condition ill-formed wherever it occurs. *)
Fixpoint pval (e : env) (a : pexp) : option Z :=
  match a with
  | Defined m => Some match e m with Some _ => 1 | None => 0 end
  | Val m => match e m with Some (Num z) => Some z | Some _ => None | None => Some 0 end
  | Not a => match pval e a with Some x => Some (b2z (negb (nz x))) | None => None end
  | And a b => match pval e a, pval e b with Some x, Some y => Some (b2z (nz x && nz y)) | _, _ => None end
  | Or a b => match pval e a, pval e b with Some x, Some y => Some (b2z (nz x || nz y)) | _, _ => None end
  | Ne a z => match pval e a with Some x => Some (b2z (negb (x =? z))) | None => None end
  | Ge a z => match pval e a with Some x => Some (b2z (z <=? x)) | None => None end
  end.

(** Directives; each is followed by the rest of its group. The headers of config/ which implement thread local storage *)
Inductive header := H_freertos | H_array | H_globals | H_cpp11.
Inductive dirs :=
| Done
| Def (m : macro) (v : mval) (k : dirs)
| If (c : pexp) (t f : dirs) (k : dirs)
| Error                            (* #error: the build stops *)
| Warn (m : macro) (k : dirs)      (* #warning, about m *)
| Inc (h : header) (k : dirs).
Record pst := Pst { p_env : env; p_inc : list header; p_warn : list macro }.
(** None: the build is rejected *)
Fixpoint pre (d : dirs) (s : pst) : option pst :=
  match d with
  | Done => Some s
  | Def m v k => pre k (Pst (define m v (p_env s)) (p_inc s) (p_warn s))
  | If c t f k =>
      match pval (p_env s) c with
      | Some x => match (if nz x then pre t s else pre f s) with Some s' => pre k s' | None => None end
      | None => None
      end
  | Error => None
  | Warn m k => pre k (Pst (p_env s) (p_inc s) (p_warn s ++ [m]))
  | Inc h k => pre k (Pst (p_env s) (p_inc s ++ [h]) (p_warn s))
  end.

(** #ifndef m / #define m v / #endif *)
Definition dflt (m : macro) (v : mval) (k : dirs) : dirs := If (Not (Defined m)) (Def m v Done) Done k.
(** #if m != 0 && m != 1 / #error / #endif *)
Definition check01 (m : macro) (k : dirs) : dirs := If (And (Ne (Val m) 0) (Ne (Val m) 1)) Error Done k.

(** config/tls_freertos.hpp:17-23 (the static_assert on the size is left out); config/tls_array.hpp:34-40 *)
Definition tls_freertos_hpp (k : dirs) : dirs := Inc H_freertos (dflt USE_TLS_ARRAY Empty (dflt CFG_TLS_ARRAY_SIZE Tokens k)).
Definition tls_array_hpp (k : dirs) : dirs := Inc H_array (dflt CFG_TLS_INDEX_TYPE Tokens (dflt CFG_TLS_ARRAY_START_INDEX (Num 0) k)).
(** config/tls.hpp:8-30 *)
Definition tls_hpp : dirs :=
  If (Defined TLS_FREERTOS) (tls_freertos_hpp Done) Done
  (If (Not (Defined USE_TLS_ARRAY))
     (If (Defined CFG_TLS_INDEX_TYPE) (Warn CFG_TLS_INDEX_TYPE Done) Done
     (If (Defined CFG_TLS_ARRAY_SIZE) (Warn CFG_TLS_ARRAY_SIZE Done) Done
     (If (Defined CFG_TLS_ARRAY_START_INDEX) (Warn CFG_TLS_ARRAY_START_INDEX Done) Done Done)))
     Done
  (If (Defined USE_TLS_ARRAY) (tls_array_hpp Done)
     (If (Defined NO_THREADS) (Inc H_globals Done) (Inc H_cpp11 Done) Done)
   Done)).

(** config.hpp:8-27 *)
Definition config_embedded (k : dirs) : dirs :=
  If (Defined TLS_FREERTOS) (dflt EMBEDDED Empty Done) Done
  (If (Defined EMBEDDED)
     (dflt CFG_DIAGNOSTICS (Num 0) (dflt CFG_STD_SYSTEM_ERROR (Num 0) (dflt CFG_STD_STRING (Num 0) (dflt CFG_CAPTURE (Num 0) Done))))
     Done k).
(** config.hpp:38-64 *)
Definition config_defaults (k : dirs) : dirs :=
  dflt CFG_DIAGNOSTICS (Num 1) (dflt CFG_STD_SYSTEM_ERROR (Num 1) (dflt CFG_STD_STRING (Num 1) (dflt CFG_CAPTURE (Num 1) (dflt CFG_WIN32 (Num 0)
  (If (Not (Defined CFG_GNUC_STMTEXPR)) (If (Defined GNUC) (Def CFG_GNUC_STMTEXPR (Num 1) Done) (Def CFG_GNUC_STMTEXPR (Num 0) Done) Done) Done k))))).
(** config.hpp:74-104 *)
Definition config_checks (k : dirs) : dirs :=
  check01 CFG_DIAGNOSTICS (check01 CFG_STD_SYSTEM_ERROR (check01 CFG_STD_STRING (check01 CFG_CAPTURE (check01 CFG_WIN32 (check01 CFG_GNUC_STMTEXPR
  (If (And (Val CFG_DIAGNOSTICS) (Not (Val CFG_STD_STRING))) Error Done
  (If (And (Val CFG_STD_SYSTEM_ERROR) (Not (Val CFG_STD_STRING))) Error Done k))))))).
(** config.hpp:118-157 *)
Definition config_exceptions (k : dirs) : dirs :=
  If (Not (Defined NO_EXCEPTIONS))
    (If (And (Defined CLANG) (Not (Defined IBMXL))) (If (Not (Val HAS_CXX_EXCEPTIONS)) (Def NO_EXCEPTIONS Empty Done) Done Done)
    (If (And (Defined GNUC) (Not (Defined IBMXL))) (If (Not (Defined EXCEPTIONS)) (Def NO_EXCEPTIONS Empty Done) Done Done)
    (If (Defined CODEGEARC) (If (And (Not (Defined CPPUNWIND)) (Not (Defined EXCEPTIONS))) (Def NO_EXCEPTIONS Empty Done) Done Done)
    (If (And (And (Defined IBMCPP) (Defined COMPILER_VER)) (Defined MVS)) (If (And (Not (Defined CPPUNWIND)) (Not (Defined EXCEPTIONS))) (Def NO_EXCEPTIONS Empty Done) Done Done)
    (If (Defined IBMXL) (If (Not (Val HAS_CXX_EXCEPTIONS)) (Def NO_EXCEPTIONS Empty Done) Done Done)
    (If (Defined MSC_VER) (If (Not (Val CPPUNWIND)) (Def NO_EXCEPTIONS Empty Done) Done Done) Done
    Done) Done) Done) Done) Done) Done)
    Done k.
(** config.hpp:205-212 *)
Definition config_uncaught (k : dirs) : dirs :=
  If (Not (Defined NO_EXCEPTIONS))
    (If (Or (And (Defined CPP_LIB_UNCAUGHT_EXCEPTIONS) (Ge (Val CPP_LIB_UNCAUGHT_EXCEPTIONS) 201411)) (And (Defined MSC_VER) (Ge (Val MSC_VER) 1900)))
       (Def STD_UNCAUGHT_EXCEPTIONS (Num 1) Done) (Def STD_UNCAUGHT_EXCEPTIONS (Num 0) Done) Done)
    Done k.
(** config.hpp. Left out: what does not change the behaviour of programs (inlining, visibility, attributes, constexpr, ref-qualifiers, the text of
    delimiters, __PRETTY_FUNCTION__) and BOOST_LEAF_ASSERT, which is [assert] unless defined. *)
Definition config_hpp : dirs := config_embedded (config_defaults (config_checks (config_exceptions (config_uncaught tls_hpp)))).

(** A build: the macros defined by the user and by the compiler *)
Definition build (e : env) : option pst := pre config_hpp (Pst e [] []).
