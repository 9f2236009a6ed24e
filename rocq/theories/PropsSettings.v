(** C70: which settings a build has. *)
From Verif Require Export Settings.
From Coq Require Import ZArith List Bool Lia.
Import ListNotations.
Open Scope Z_scope.

(** ** Specification, after doc/leaf.adoc:5536-5608 *)
Definition defd (e : env) (m : macro) : bool := match e m with Some _ => true | None => false end.
Definition or_else (e : env) (m : macro) (v : mval) : mval := match e m with Some v' => v' | None => v end.
Definition is_some {A} (x : option A) : Prop := exists a, x = Some a.
Definition embedded (e : env) : bool := defd e TLS_FREERTOS || defd e EMBEDDED.
Definition settings : list macro := [CFG_DIAGNOSTICS; CFG_STD_SYSTEM_ERROR; CFG_STD_STRING; CFG_CAPTURE; CFG_WIN32; CFG_GNUC_STMTEXPR].
(** The user's choice, otherwise the documented default *)
Definition setting (e : env) (m : macro) : mval :=
  or_else e m (Num match m with
                   | CFG_WIN32 => 0
                   | CFG_GNUC_STMTEXPR => if defd e GNUC then 1 else 0
                   | _ => if embedded e then 0 else 1 end).
Definition on_off (v : mval) : Prop := v = Num 0 \/ v = Num 1.
Definition acceptable (e : env) : Prop :=
  (forall m, In m settings -> on_off (setting e m)) /\
  (setting e CFG_STD_STRING = Num 0 -> setting e CFG_DIAGNOSTICS = Num 0 /\ setting e CFG_STD_SYSTEM_ERROR = Num 0).
(** What the compiler defines is numbers, where it is used as a number. *)
Definition sane (e : env) : Prop :=
  forall m, In m [HAS_CXX_EXCEPTIONS; CPPUNWIND; CPP_LIB_UNCAUGHT_EXCEPTIONS; MSC_VER] -> e m = None \/ exists z, e m = Some (Num z).
Definition number (e : env) (m : macro) : Z := match e m with Some (Num z) => z | _ => 0 end.
(** Exceptions are switched off by the user or in the compiler. *)
Definition compiler_has_exceptions (e : env) : bool :=
  if defd e CLANG && negb (defd e IBMXL) then negb (number e HAS_CXX_EXCEPTIONS =? 0)
  else if defd e GNUC && negb (defd e IBMXL) then defd e EXCEPTIONS
  else if defd e CODEGEARC || (defd e IBMCPP && defd e COMPILER_VER && defd e MVS) then defd e CPPUNWIND || defd e EXCEPTIONS
  else if defd e IBMXL then negb (number e HAS_CXX_EXCEPTIONS =? 0)
  else if defd e MSC_VER then negb (number e CPPUNWIND =? 0)
  else true.
Definition no_exceptions (e : env) : bool := defd e NO_EXCEPTIONS || negb (compiler_has_exceptions e).
Definition counts_uncaught (e : env) : bool :=
  (defd e CPP_LIB_UNCAUGHT_EXCEPTIONS && (201411 <=? number e CPP_LIB_UNCAUGHT_EXCEPTIONS)) || (defd e MSC_VER && (1900 <=? number e MSC_VER)).
Definition array (e : env) : bool := defd e TLS_FREERTOS || defd e USE_TLS_ARRAY.

(** ** Proof *)
Lemma define_eq m v e x : define m v e x = if macro_eq_dec x m then Some v else e x.
Proof. reflexivity. Qed.
Definition wd (m : macro) (v : mval) (e : env) : env := match e m with Some _ => e | None => define m v e end.
Lemma wd_eq m v e x : wd m v e x = if macro_eq_dec x m then Some (or_else e m v) else e x.
Proof. unfold wd, or_else. destruct (e m) eqn:E; [|apply define_eq]. destruct (macro_eq_dec x m) as [->|]; auto. Qed.
Lemma pre_dflt m v k e i w : pre (dflt m v k) (Pst e i w) = pre k (Pst (wd m v e) i w).
Proof. unfold dflt, wd. cbn [pre pval p_env p_inc p_warn]. destruct (e m); reflexivity. Qed.

Definition settle (e : env) (m : macro) : option mval :=
  match m with
  | EMBEDDED => if defd e TLS_FREERTOS then Some (or_else e EMBEDDED Empty) else e EMBEDDED
  | CFG_DIAGNOSTICS | CFG_STD_SYSTEM_ERROR | CFG_STD_STRING | CFG_CAPTURE | CFG_WIN32 | CFG_GNUC_STMTEXPR => Some (setting e m)
  | _ => e m
  end.
Ltac look e := repeat match goal with |- context [match e ?m with _ => _ end] => destruct (e m) eqn:? end.
Lemma pre_settle k e i w : exists e', pre (config_embedded (config_defaults k)) (Pst e i w) = pre k (Pst e' i w) /\ forall m, e' m = settle e m.
Proof.
  set (st := fun e1 : env => match e1 CFG_GNUC_STMTEXPR with Some _ => e1 | None => define CFG_GNUC_STMTEXPR (Num (if defd e1 GNUC then 1 else 0)) e1 end).
  assert (forall e1, pre (config_defaults k) (Pst e1 i w) =
    pre k (Pst (st (wd CFG_WIN32 (Num 0) (wd CFG_CAPTURE (Num 1) (wd CFG_STD_STRING (Num 1) (wd CFG_STD_SYSTEM_ERROR (Num 1) (wd CFG_DIAGNOSTICS (Num 1) e1)))))) i w)) as D.
  { intros e1. unfold config_defaults. rewrite !pre_dflt. cbn [pre pval p_env p_inc p_warn]. unfold st, defd.
    set (e2 := wd CFG_WIN32 _ _). destruct (e2 CFG_GNUC_STMTEXPR); [reflexivity|]. cbn [b2z nz negb Z.eqb]. destruct (e2 GNUC); reflexivity. }
  assert (forall e1 x, st e1 x = if macro_eq_dec x CFG_GNUC_STMTEXPR then Some (or_else e1 CFG_GNUC_STMTEXPR (Num (if defd e1 GNUC then 1 else 0))) else e1 x) as S.
  { intros e1 x. unfold st, or_else. destruct (e1 CFG_GNUC_STMTEXPR) eqn:E; [|apply define_eq]. destruct (macro_eq_dec x CFG_GNUC_STMTEXPR) as [->|]; auto. }
  set (e0 := match e TLS_FREERTOS with Some _ => wd EMBEDDED Empty e | None => e end).
  set (e1 := match e0 EMBEDDED with Some _ => wd CFG_CAPTURE (Num 0) (wd CFG_STD_STRING (Num 0) (wd CFG_STD_SYSTEM_ERROR (Num 0) (wd CFG_DIAGNOSTICS (Num 0) e0))) | None => e0 end).
  assert (pre (config_embedded (config_defaults k)) (Pst e i w) = pre (config_defaults k) (Pst e1 i w)) as E.
  { unfold config_embedded. cbn [pre]. cbn [pval p_env p_inc p_warn]. unfold e1, e0.
    destruct (e TLS_FREERTOS); cbn [nz negb Z.eqb]; rewrite ?pre_dflt; cbn [pre p_env];
    [set (e2 := wd EMBEDDED Empty e)|set (e2 := e)]; destruct (e2 EMBEDDED); cbn [nz negb Z.eqb]; rewrite ?pre_dflt; cbn [pre]; reflexivity. }
  eexists. split; [rewrite E; apply D|].
  intros m. rewrite S. unfold e1, e0, settle, setting, embedded, defd.
  destruct m; cbn [macro_eq_dec macro_rec macro_rect sumbool_rec sumbool_rect];
    repeat (rewrite wd_eq || unfold or_else); cbn; 
    destruct (e TLS_FREERTOS) eqn:F; rewrite ?wd_eq; cbn; destruct (e EMBEDDED) eqn:B; unfold or_else; rewrite ?B; cbn;
    repeat (rewrite wd_eq; unfold or_else; cbn); rewrite ?F, ?B; cbn; look e; try congruence; reflexivity.
Qed.

Definition flag01 (v : mval) : bool := match v with Num z => (z =? 0) || (z =? 1) | _ => false end.
Definition is0 (v : mval) : bool := match v with Num z => z =? 0 | _ => false end.
Lemma pre_check01 m k e i w v : e m = Some v -> pre (check01 m k) (Pst e i w) = if flag01 v then pre k (Pst e i w) else None.
Proof.
  intros E. unfold check01. cbn [pre pval p_env]. rewrite E. destruct v as [|z|]; [reflexivity| |reflexivity]. unfold flag01.
  destruct (z =? 0), (z =? 1); reflexivity.
Qed.
Lemma pre_needs m n k e i w v u : e m = Some v -> e n = Some u -> flag01 v = true -> flag01 u = true ->
  pre (If (And (Val m) (Not (Val n))) Error Done k) (Pst e i w) = if negb (is0 v) && is0 u then None else pre k (Pst e i w).
Proof.
  intros E E' H H'. cbn [pre pval p_env]. rewrite E, E'. destruct v as [|z|]; try discriminate. destruct u as [|y|]; try discriminate. unfold is0, nz.
  destruct (z =? 0), (y =? 0); reflexivity.
Qed.
Definition accept (e : env) : bool :=
  forallb (fun m => flag01 (setting e m)) settings &&
  negb (negb (is0 (setting e CFG_DIAGNOSTICS)) && is0 (setting e CFG_STD_STRING)) && negb (negb (is0 (setting e CFG_STD_SYSTEM_ERROR)) && is0 (setting e CFG_STD_STRING)).
Lemma pre_checks k e e' i w : (forall m, e' m = settle e m) -> pre (config_checks k) (Pst e' i w) = if accept e then pre k (Pst e' i w) else None.
Proof.
  intros H. unfold config_checks, accept, settings. cbn [forallb].
  rewrite (pre_check01 _ _ _ _ _ _ (H CFG_DIAGNOSTICS)). destruct (flag01 (setting e CFG_DIAGNOSTICS)) eqn:F1; [|reflexivity].
  rewrite (pre_check01 _ _ _ _ _ _ (H CFG_STD_SYSTEM_ERROR)). destruct (flag01 (setting e CFG_STD_SYSTEM_ERROR)) eqn:F2; [|reflexivity].
  rewrite (pre_check01 _ _ _ _ _ _ (H CFG_STD_STRING)). destruct (flag01 (setting e CFG_STD_STRING)) eqn:F3; [|reflexivity].
  rewrite (pre_check01 _ _ _ _ _ _ (H CFG_CAPTURE)). destruct (flag01 (setting e CFG_CAPTURE)) eqn:F4; [|reflexivity].
  rewrite (pre_check01 _ _ _ _ _ _ (H CFG_WIN32)). destruct (flag01 (setting e CFG_WIN32)) eqn:F5; [|reflexivity].
  rewrite (pre_check01 _ _ _ _ _ _ (H CFG_GNUC_STMTEXPR)). destruct (flag01 (setting e CFG_GNUC_STMTEXPR)) eqn:F6; [|reflexivity].
  rewrite (pre_needs _ _ _ _ _ _ _ _ (H CFG_DIAGNOSTICS) (H CFG_STD_STRING) F1 F3). cbn [andb]. destruct (negb _ && _); [reflexivity|]. cbn [andb negb].
  rewrite (pre_needs _ _ _ _ _ _ _ _ (H CFG_STD_SYSTEM_ERROR) (H CFG_STD_STRING) F2 F3). destruct (negb _ && _); reflexivity.
Qed.
Lemma accept_spec e : accept e = true <-> acceptable e.
Proof.
  assert (forall v, flag01 v = true <-> on_off v) as F.
  { intros [|z|]; unfold on_off; cbn; (split; [|intros [|]]; try discriminate); [|injection H as ->; reflexivity|injection H as ->; reflexivity].
    intros H. apply orb_true_iff in H. rewrite !Z.eqb_eq in H. destruct H as [-> | ->]; auto. }
  assert (forall v, is0 v = true <-> v = Num 0) as Z0.
  { intros [|z|]; cbn; try (split; discriminate). rewrite Z.eqb_eq. split; [intros ->; reflexivity|intros H; injection H; auto]. }
  unfold accept, acceptable. rewrite !andb_true_iff, forallb_forall.
  assert (forall v u, negb (negb (is0 v) && is0 u) = true <-> (u = Num 0 -> v = Num 0)) as N.
  { intros v u. destruct (is0 v) eqn:E1, (is0 u) eqn:E2; cbn; rewrite <- !Z0, ?E1, ?E2; intuition discriminate. }
  rewrite !N. split.
  - intros [[H H1] H2]. split; [intros m Hm; apply F, H, Hm|auto].
  - intros [H H1]. split; [split|]; [intros m Hm; apply F, H, Hm| |]; intros E; apply H1; exact E.
Qed.

Ltac pstep := cbn [pre pval p_env p_inc p_warn nz negb b2z andb orb Z.eqb].
Lemma pre_exceptions k e i w : sane e -> exists e', pre (config_exceptions k) (Pst e i w) = pre k (Pst e' i w) /\
  forall m, e' m = match m with NO_EXCEPTIONS => if no_exceptions e then Some (or_else e NO_EXCEPTIONS Empty) else None | _ => e m end.
Proof.
  intros Hs. exists (if no_exceptions e then wd NO_EXCEPTIONS Empty e else e). split.
  2:{ intros m. destruct (no_exceptions e) eqn:N; [rewrite wd_eq; destruct m; reflexivity|]. unfold no_exceptions, defd in N. destruct m; try reflexivity. destruct (e NO_EXCEPTIONS); [discriminate|reflexivity]. }
  unfold config_exceptions, no_exceptions, compiler_has_exceptions, number, wd, defd. pstep. destruct (e NO_EXCEPTIONS); [reflexivity|]. pstep.
  pose proof (Hs HAS_CXX_EXCEPTIONS ltac:(cbn; auto)) as H1. pose proof (Hs CPPUNWIND ltac:(cbn; auto)) as H2.
  destruct (e CLANG), (e IBMXL); pstep; try (destruct H1 as [->|[z ->]]; pstep; [reflexivity|unfold nz; destruct (z =? 0); reflexivity]);
  destruct (e GNUC); pstep; try (destruct (e EXCEPTIONS); reflexivity);
  destruct (e CODEGEARC); pstep; try (destruct (e CPPUNWIND), (e EXCEPTIONS); reflexivity);
  destruct (e IBMCPP), (e COMPILER_VER), (e MVS); pstep; try (destruct (e CPPUNWIND), (e EXCEPTIONS); reflexivity);
  try (destruct H1 as [->|[z ->]]; pstep; [reflexivity|unfold nz; destruct (z =? 0); reflexivity]);
  destruct (e MSC_VER); pstep; try reflexivity; (destruct H2 as [->|[z ->]]; pstep; [reflexivity|unfold nz; destruct (z =? 0); reflexivity]).
Qed.
Lemma pre_uncaught k e i w : sane e -> exists e', pre (config_uncaught k) (Pst e i w) = pre k (Pst e' i w) /\
  forall m, e' m = match m with STD_UNCAUGHT_EXCEPTIONS => if defd e NO_EXCEPTIONS then e m else Some (Num (b2z (counts_uncaught e))) | _ => e m end.
Proof.
  intros Hs. exists (if defd e NO_EXCEPTIONS then e else define STD_UNCAUGHT_EXCEPTIONS (Num (b2z (counts_uncaught e))) e). split.
  2:{ intros m. destruct (defd e NO_EXCEPTIONS); [destruct m; reflexivity|]. rewrite define_eq. destruct m; reflexivity. }
  unfold config_uncaught, counts_uncaught, number, defd. pstep. destruct (e NO_EXCEPTIONS); [reflexivity|]. pstep.
  destruct (Hs CPP_LIB_UNCAUGHT_EXCEPTIONS ltac:(cbn; auto)) as [->|[z ->]]; destruct (Hs MSC_VER ltac:(cbn; auto)) as [->|[y ->]]; pstep; try reflexivity;
    try destruct (201411 <=? z); try destruct (1900 <=? y); reflexivity.
Qed.
Definition tls_headers (e : env) : list header :=
  if defd e TLS_FREERTOS then [H_freertos; H_array] else if defd e USE_TLS_ARRAY then [H_array] else if defd e NO_THREADS then [H_globals] else [H_cpp11].
Definition ignored (e : env) : list macro := if array e then [] else List.filter (defd e) [CFG_TLS_INDEX_TYPE; CFG_TLS_ARRAY_SIZE; CFG_TLS_ARRAY_START_INDEX].
Definition tls_env (e : env) (m : macro) : option mval :=
  match m with
  | USE_TLS_ARRAY => if defd e TLS_FREERTOS then Some (or_else e m Empty) else e m
  | CFG_TLS_ARRAY_SIZE => if defd e TLS_FREERTOS then Some (or_else e m Tokens) else e m
  | CFG_TLS_INDEX_TYPE => if array e then Some (or_else e m Tokens) else e m
  | CFG_TLS_ARRAY_START_INDEX => if array e then Some (or_else e m (Num 0)) else e m
  | _ => e m
  end.
Lemma pre_tls e : exists s, pre tls_hpp (Pst e [] []) = Some s /\ (forall m, p_env s m = tls_env e m) /\ p_inc s = tls_headers e /\ p_warn s = ignored e.
Proof.
  unfold tls_hpp, tls_freertos_hpp, tls_array_hpp, tls_headers, ignored, tls_env, array, defd. pstep.
  destruct (e TLS_FREERTOS) eqn:F; pstep; rewrite ?pre_dflt; pstep.
  - set (e1 := wd CFG_TLS_ARRAY_SIZE Tokens (wd USE_TLS_ARRAY Empty e)).
    assert (e1 USE_TLS_ARRAY = Some (or_else e USE_TLS_ARRAY Empty)) as U by (unfold e1; rewrite !wd_eq; reflexivity).
    rewrite U. pstep. rewrite U. pstep. rewrite ?pre_dflt. pstep.
    eexists. split; [reflexivity|]. split; [|split; reflexivity]. intros m'. cbn [p_env app]. rewrite !wd_eq. unfold or_else. rewrite !wd_eq. unfold e1. rewrite !wd_eq. unfold or_else. rewrite !wd_eq. destruct m'; reflexivity.
  - destruct (e USE_TLS_ARRAY) eqn:U; pstep.
    + rewrite ?U. pstep. rewrite ?pre_dflt. pstep. eexists. split; [reflexivity|]. split; [|split; reflexivity]. intros x. cbn [p_env]. rewrite !wd_eq. unfold or_else. rewrite ?wd_eq. destruct x; cbn; rewrite ?U; reflexivity.
    + destruct (e CFG_TLS_INDEX_TYPE) eqn:T1, (e CFG_TLS_ARRAY_SIZE) eqn:T2, (e CFG_TLS_ARRAY_START_INDEX) eqn:T3; pstep; rewrite ?T1, ?T2, ?T3, ?U; pstep; destruct (e NO_THREADS) eqn:NT;
        (eexists; split; [cbn; rewrite ?T1, ?T2, ?T3, ?U, ?NT; cbn; rewrite ?T1, ?T2, ?T3, ?U, ?NT; cbn; reflexivity|]; split; [|split; cbn; rewrite ?T1, ?T2, ?T3; reflexivity]; intros x; destruct x; cbn; auto).
Qed.

(** Everything together *)
Definition final (e : env) (m : macro) : option mval :=
  match m with
  | NO_EXCEPTIONS => if no_exceptions e then Some (or_else e m Empty) else None
  | STD_UNCAUGHT_EXCEPTIONS => if no_exceptions e then e m else Some (Num (b2z (counts_uncaught e)))
  | USE_TLS_ARRAY | CFG_TLS_ARRAY_SIZE | CFG_TLS_INDEX_TYPE | CFG_TLS_ARRAY_START_INDEX => tls_env e m
  | _ => settle e m
  end.
Lemma build_ok e : sane e -> if accept e then exists s, build e = Some s /\ (forall m, p_env s m = final e m) /\ p_inc s = tls_headers e /\ p_warn s = ignored e else build e = None.
Proof.
  intros Hs. unfold build, config_hpp.
  destruct (pre_settle (config_checks (config_exceptions (config_uncaught tls_hpp))) e [] []) as (e1 & -> & H1).
  rewrite (pre_checks _ e) by exact H1. destruct (accept e); [|reflexivity].
  assert (sane e1) as Hs1. { intros m Hm. rewrite H1. cbn in Hm. destruct Hm as [<-|[<-|[<-|[<-|[]]]]]; apply Hs; cbn; auto. }
  destruct (pre_exceptions (config_uncaught tls_hpp) e1 [] [] Hs1) as (e2 & -> & H2).
  assert (sane e2) as Hs2. { intros m Hm. rewrite H2. cbn in Hm. destruct Hm as [<-|[<-|[<-|[<-|[]]]]]; apply Hs1; cbn; auto. }
  destruct (pre_uncaught tls_hpp e2 [] [] Hs2) as (e3 & -> & H3).
  destruct (pre_tls e3) as (s & -> & H4 & H5 & H6). exists s. split; [reflexivity|].
  assert (no_exceptions e1 = no_exceptions e) as N. { unfold no_exceptions, compiler_has_exceptions, number, defd. rewrite !H1. reflexivity. }
  assert (counts_uncaught e2 = counts_uncaught e) as C. { unfold counts_uncaught, number, defd. rewrite !H2, !H1. reflexivity. }
  assert (defd e2 NO_EXCEPTIONS = no_exceptions e) as D. { unfold defd. rewrite H2, N. destruct (no_exceptions e); reflexivity. }
  rewrite C, D in H3. rewrite N in H2.
  assert (forall m, e3 m = match m with
    | NO_EXCEPTIONS => if no_exceptions e then Some (or_else e m Empty) else None
    | STD_UNCAUGHT_EXCEPTIONS => if no_exceptions e then e m else Some (Num (b2z (counts_uncaught e)))
    | _ => settle e m end) as K.
  { intros m. rewrite H3, H2, H1. unfold or_else. rewrite H1. destruct m; reflexivity. }
  split; [|split].
  - intros m. rewrite H4. unfold tls_env, array, or_else, defd. destruct m; rewrite !K; reflexivity.
  - rewrite H5. unfold tls_headers, defd. rewrite !K. reflexivity.
  - rewrite H6. unfold ignored, array, defd. rewrite !K. cbn. unfold defd. rewrite !K. reflexivity.
Qed.

(** ** C70 *)
(** Exactly the acceptable choices are accepted; the build then has them, and the documented defaults for what is not chosen. *)
Theorem C70_settings : forall e, sane e ->
  (acceptable e <-> exists s, build e = Some s) /\
  (forall s, build e = Some s -> forall m, In m settings -> p_env s m = Some (setting e m)).
Proof.
  intros e Hs. pose proof (build_ok e Hs) as B. rewrite <- accept_spec. destruct (accept e).
  - destruct B as (s & E & H & _). split; [split; [exists s; exact E|reflexivity]|]. intros s' E' m Hm. rewrite E in E'. injection E' as <-. rewrite H.
    cbn in Hm. destruct Hm as [<-|[<-|[<-|[<-|[<-|[<-|[]]]]]]]; reflexivity.
  - split; [split; [discriminate|intros [s E]; rewrite E in B; discriminate]|]. intros s E. rewrite E in B. discriminate.
Qed.
Print Assumptions C70_settings.

(** Exceptions are off if the user says so, otherwise as in the compiler; with exceptions, whether std::uncaught_exceptions is used. *)
Theorem C70_exceptions : forall e s, sane e -> build e = Some s ->
  (is_some (p_env s NO_EXCEPTIONS) <-> is_some (e NO_EXCEPTIONS) \/ compiler_has_exceptions e = false) /\
  (p_env s NO_EXCEPTIONS = None -> p_env s STD_UNCAUGHT_EXCEPTIONS = Some (Num (b2z (counts_uncaught e)))).
Proof.
  intros e s Hs E. pose proof (build_ok e Hs) as B. destruct (accept e); [|congruence]. destruct B as (s' & E' & H & _). rewrite E in E'. injection E' as <-.
  rewrite !H. cbn [final]. unfold no_exceptions, defd. unfold is_some, or_else. destruct (e NO_EXCEPTIONS), (compiler_has_exceptions e); cbn; intuition (try discriminate; eauto).
Qed.
Print Assumptions C70_exceptions.

(** Exactly one implementation of thread local storage is used (see C34, C69); settings of the array are reported as ignored exactly if they are given but there is none. *)
Theorem C70_thread_local_storage : forall e s, sane e -> build e = Some s ->
  p_inc s = (if defd e TLS_FREERTOS then [H_freertos; H_array] else if defd e USE_TLS_ARRAY then [H_array] else if defd e NO_THREADS then [H_globals] else [H_cpp11]) /\
  (forall m, In m (p_warn s) <-> In m [CFG_TLS_INDEX_TYPE; CFG_TLS_ARRAY_SIZE; CFG_TLS_ARRAY_START_INDEX] /\ defd e m = true /\ ~ In H_array (p_inc s)).
Proof.
  intros e s Hs E. pose proof (build_ok e Hs) as B. destruct (accept e); [|congruence]. destruct B as (s' & E' & _ & H5 & H6). rewrite E in E'. injection E' as <-.
  split; [exact H5|]. intros m. rewrite H6, H5. unfold ignored, tls_headers, array. destruct (defd e TLS_FREERTOS), (defd e USE_TLS_ARRAY); cbn [orb]; rewrite ?filter_In; cbn [In]; try tauto.
  destruct (defd e NO_THREADS); cbn [In]; intuition discriminate.
Qed.
Print Assumptions C70_thread_local_storage.

(** Writing all the settings of a build out gives the same build. *)
Theorem C70_written_out : forall e s, sane e -> build e = Some s ->
  exists s', build (p_env s) = Some s' /\ (forall m, p_env s' m = p_env s m) /\ p_inc s' = p_inc s /\ p_warn s' = p_warn s.
Proof.
  intros e s Hs E. pose proof (build_ok e Hs) as B. destruct (accept e) eqn:A; [|congruence]. destruct B as (s' & E' & H & H5 & H6). rewrite E in E'. injection E' as <-.
  assert (sane (p_env s)) as Hs'. { intros m Hm. rewrite H. cbn in Hm. destruct Hm as [<-|[<-|[<-|[<-|[]]]]]; apply Hs; cbn; auto. }
  pose proof (build_ok _ Hs') as B.
  assert (forall m, In m settings -> setting (p_env s) m = setting e m) as S.
  { intros m Hm. cbn in Hm. unfold setting at 1, or_else. rewrite H. destruct Hm as [<-|[<-|[<-|[<-|[<-|[<-|[]]]]]]]; reflexivity. }
  assert (accept (p_env s) = true) as A'.
  { apply accept_spec. apply accept_spec in A. destruct A as [A1 A2]. split; [intros m Hm; rewrite S by exact Hm; auto|]. rewrite !S by (cbn; auto 10). exact A2. }
  rewrite A' in B. destruct B as (s2 & E2 & G & G5 & G6). exists s2. split; [exact E2|].
  assert (no_exceptions (p_env s) = no_exceptions e) as N.
  { unfold no_exceptions at 1. unfold compiler_has_exceptions, number, defd. rewrite !H. cbn. fold (defd e NO_EXCEPTIONS). change (compiler_has_exceptions e) with (compiler_has_exceptions e).
    unfold no_exceptions, compiler_has_exceptions, number, defd. destruct (e NO_EXCEPTIONS); cbn; [reflexivity|].
    match goal with |- context [negb ?b] => destruct b end; reflexivity. }
  assert (counts_uncaught (p_env s) = counts_uncaught e) as C. { unfold counts_uncaught, number, defd. rewrite !H. reflexivity. }
  split; [|split].
  - intros m. rewrite G. destruct m; cbn [final settle]; rewrite ?N, ?C, ?(S CFG_DIAGNOSTICS), ?(S CFG_STD_SYSTEM_ERROR), ?(S CFG_STD_STRING), ?(S CFG_CAPTURE), ?(S CFG_WIN32), ?(S CFG_GNUC_STMTEXPR) by (cbn; auto 10);
      unfold tls_env, array, or_else, defd; rewrite !H; cbn [final settle]; unfold tls_env, array, or_else, defd; rewrite ?N;
      try destruct (no_exceptions e); try reflexivity; destruct (e TLS_FREERTOS); try reflexivity; cbn; destruct (e USE_TLS_ARRAY); reflexivity.
  - rewrite G5, H5. unfold tls_headers, defd. rewrite !H. cbn. unfold defd, or_else. destruct (e TLS_FREERTOS); reflexivity.
  - rewrite G6, H6. unfold ignored, array, defd. cbn. unfold defd. rewrite !H. cbn. unfold tls_env, array, defd, or_else. destruct (e TLS_FREERTOS); cbn; [reflexivity|]. destruct (e USE_TLS_ARRAY); reflexivity.
Qed.
Print Assumptions C70_written_out.

(** The documentation of BOOST_LEAF_CFG_STD_STRING says that switching it off "requires BOOST_LEAF_CFG_DIAGNOSTICS=0 as well" (doc/leaf.adoc:5540). That is not
    enough: BOOST_LEAF_CFG_STD_SYSTEM_ERROR, which is 1 unless defined, must be 0, too. *)
Definition macros (l : list (macro * mval)) : env := fold_right (fun mv e => define (fst mv) (snd mv) e) (fun _ => None) l.
Definition gcc : list (macro * mval) := [(GNUC, Num 13); (EXCEPTIONS, Num 1); (CPP_LIB_UNCAUGHT_EXCEPTIONS, Num 201411)].
Theorem C70_string_off_refuted : exists e, sane e /\ e CFG_STD_STRING = Some (Num 0) /\ e CFG_DIAGNOSTICS = Some (Num 0) /\ e CFG_STD_SYSTEM_ERROR = None /\ build e = None.
Proof.
  exists (macros ((CFG_STD_STRING, Num 0) :: (CFG_DIAGNOSTICS, Num 0) :: gcc)). split; [|repeat split; vm_compute; reflexivity].
  intros m Hm. cbn in Hm. destruct Hm as [<-|[<-|[<-|[<-|[]]]]]; vm_compute; eauto.
Qed.
Print Assumptions C70_string_off_refuted.

(** What matters of a build *)
Definition view (o : option pst) : option (list (option mval) * bool * list header * list macro) :=
  match o with Some s => Some (map (p_env s) settings, defd (p_env s) NO_EXCEPTIONS, p_inc s, p_warn s) | None => None end.
Lemma view_some o l b h w : view o = Some (l, b, h, w) -> exists s, o = Some s /\ map (p_env s) settings = l /\ defd (p_env s) NO_EXCEPTIONS = b.
Proof. destruct o as [s|]; [|discriminate]. intros H. exists s. injection H as <- <- _ _. auto. Qed.
(** The parameters of the other models are independent of each other: every combination of capturing, diagnostics and exceptions is a build. *)
Theorem C70_every_combination : forall capture diagnostics exceptions : bool, exists e s, sane e /\ build e = Some s /\
  p_env s CFG_CAPTURE = Some (Num (b2z capture)) /\ p_env s CFG_DIAGNOSTICS = Some (Num (b2z diagnostics)) /\ defd (p_env s) NO_EXCEPTIONS = negb exceptions.
Proof.
  intros c d x. exists (macros ((CFG_CAPTURE, Num (b2z c)) :: (CFG_DIAGNOSTICS, Num (b2z d)) :: if x then gcc else (NO_EXCEPTIONS, Empty) :: gcc)).
  match goal with |- context [build ?e] => destruct (view_some (build e) [Some (Num (b2z d)); Some (Num 1); Some (Num 1); Some (Num (b2z c)); Some (Num 0); Some (Num 1)] (negb x) [H_cpp11] []) as (s & E & H & H') end;
    [destruct c, d, x; vm_compute; reflexivity|].
  exists s. split; [|split; [exact E|injection H; auto]]. intros m Hm. cbn in Hm. destruct Hm as [<-|[<-|[<-|[<-|[]]]]]; destruct x; vm_compute; eauto.
Qed.
Print Assumptions C70_every_combination.

(** Builds: nothing defined by the user; embedded with capturing; FreeRTOS without exceptions; clang with GCC's macros, without exceptions; a size for an array that is not used. *)
Definition N1 := Some (Num 1). Definition N0 := Some (Num 0).
Example ex70 :
  view (build (macros gcc)) = Some ([N1; N1; N1; N1; N0; N1], false, [H_cpp11], []) /\
  view (build (macros ((EMBEDDED, Empty) :: (CFG_CAPTURE, Num 1) :: gcc))) = Some ([N0; N0; N0; N1; N0; N1], false, [H_cpp11], []) /\
  view (build (macros [(TLS_FREERTOS, Empty); (NO_THREADS, Empty); (GNUC, Num 13)])) = Some ([N0; N0; N0; N0; N0; N1], true, [H_freertos; H_array], []) /\
  view (build (macros [(CLANG, Num 1); (GNUC, Num 4); (EXCEPTIONS, Num 1); (HAS_CXX_EXCEPTIONS, Num 0)])) = Some ([N1; N1; N1; N1; N0; N1], true, [H_cpp11], []) /\
  view (build (macros [(MSC_VER, Num 1930); (CPPUNWIND, Num 1); (NO_THREADS, Empty); (CFG_TLS_ARRAY_SIZE, Num 64)])) = Some ([N1; N1; N1; N1; N0; N0], false, [H_globals], [CFG_TLS_ARRAY_SIZE]).
Proof. repeat split; vm_compute; reflexivity. Qed.
(** Rejected: a value other than 0 and 1; defined as nothing; diagnostics in an embedded build without std::string *)
Example ex70_rejected :
  build (macros ((CFG_CAPTURE, Num 2) :: gcc)) = None /\ build (macros ((CFG_WIN32, Empty) :: gcc)) = None /\ build (macros ((EMBEDDED, Empty) :: (CFG_DIAGNOSTICS, Num 1) :: gcc)) = None.
Proof. repeat split; vm_compute; reflexivity. Qed.
Example ex70_sane : sane (macros gcc).
Proof. intros m Hm. cbn in Hm. destruct Hm as [<-|[<-|[<-|[<-|[]]]]]; vm_compute; eauto. Qed.
(** Visual C++ with exceptions switched off, and the first version with std::uncaught_exceptions *)
Definition uncaught (o : option pst) : option (bool * option mval) :=
  match o with Some s => Some (defd (p_env s) NO_EXCEPTIONS, p_env s STD_UNCAUGHT_EXCEPTIONS) | None => None end.
Example ex70_msvc :
  uncaught (build (macros [(MSC_VER, Num 1900); (CPPUNWIND, Num 0)])) = Some (true, None) /\
  uncaught (build (macros [(MSC_VER, Num 1900); (CPPUNWIND, Num 1)])) = Some (false, N1) /\
  uncaught (build (macros [(MSC_VER, Num 1899); (CPPUNWIND, Num 1)])) = Some (false, N0) /\
  uncaught (build (macros [(GNUC, Num 5); (EXCEPTIONS, Num 1)])) = Some (false, N0).
Proof. repeat split; vm_compute; reflexivity. Qed.
