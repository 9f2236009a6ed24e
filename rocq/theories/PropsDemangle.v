(** C36: type names in diagnostics are extracted exactly. *)
From Verif Require Export Demangle.
Open Scope Z_scope.

Definition is_prefix (p s : chars) : Prop := exists t, s = p ++ t.
Definition is_suffix (p s : chars) : Prop := exists t, s = t ++ p.

Lemma at_lookup s i : 0 <= i < Z.of_nat (length s) -> at_ s i = s !! Z.to_nat i.
Proof. intros H. unfold at_. rewrite (proj2 (Z.ltb_ge i 0)) by lia. apply lookup_app_l. lia. Qed.

Lemma prefix_check I str p : (I < length p)%nat -> (length p <= length str)%nat ->
  exists b, cpp11_prefix I str p = Some b /\ (b = true <-> take (S I) str = take (S I) p).
Proof.
  intros HI HL. induction I as [|I IH]; cbn [cpp11_prefix].
  - unfold eq_at. rewrite !at_lookup by lia. change (Z.to_nat 0) with 0%nat. destruct str as [|a str]; simpl in *; [lia|]. destruct p as [|b p]; simpl in *; [lia|].
    exists (Ascii.eqb a b). split; [done|]. rewrite Ascii.eqb_eq. rewrite !take_0. split; congruence.
  - destruct IH as (b & -> & Hb); [lia|]. unfold eq_at. rewrite !at_lookup by lia. rewrite !Nat2Z.id.
    destruct (lookup_lt_is_Some_2 str (S I)) as [x Hx]; [lia|]. destruct (lookup_lt_is_Some_2 p (S I)) as [y Hy]; [lia|]. rewrite Hx, Hy.
    rewrite (take_S_r _ _ _ Hx), (take_S_r _ _ _ Hy).
    destruct (Ascii.eqb x y) eqn:E; simpl.
    + apply Ascii.eqb_eq in E as ->. exists b. split; [done|]. rewrite Hb. split; [by intros ->|]. intros H. by apply app_inj_tail in H as [? _].
    + exists false. split; [done|]. apply Ascii.eqb_neq in E. split; [done|]. intros H. by apply app_inj_tail in H as [_ ?].
Qed.

Lemma check_prefix_spec str p : p <> [] ->
  exists z, check_prefix str p = Some z /\
    ((is_prefix p str /\ z = Z.of_nat (length p)) \/ (~ is_prefix p str /\ z = 0)).
Proof.
  intros Hp. unfold check_prefix, sizeof. assert (length p <> 0%nat) as Hl by (by destruct p).
  destruct (Z.of_nat (length str) + 1 >=? Z.of_nat (length p) + 1) eqn:E.
  - apply Z.geb_le in E. replace (Z.to_nat (Z.of_nat (length p) + 1 - 2)) with (length p - 1)%nat by lia.
    destruct (prefix_check (length p - 1) str p) as (b & -> & Hb); [lia|lia|]. replace (S (length p - 1)) with (length p) in Hb by lia.
    rewrite firstn_all in Hb. destruct b.
    + eexists. split; [done|]. left. split; [|lia]. exists (drop (length p) str). rewrite <- (proj1 Hb eq_refl) at 1. by rewrite take_drop.
    + eexists. split; [done|]. right. split; [|done]. intros [t ->]. rewrite take_app in Hb. by discriminate (proj2 Hb eq_refl).
  - eexists. split; [done|]. right. split; [|done]. intros [t ->]. rewrite app_length in E.
    rewrite Z.geb_leb in E. apply Z.leb_gt in E. lia.
Qed.

Lemma suffix_check I2 str p : (I2 < length p)%nat -> (length p <= length str)%nat ->
  exists b, cpp11_suffix I2 (Z.of_nat (length str) - Z.of_nat (length p) + Z.of_nat I2) str p = Some b /\
    (b = true <-> take (S I2) (drop (length str - length p) str) = take (S I2) p).
Proof.
  intros HI HL. set (d := drop (length str - length p) str). assert (length d = length p) as Hd by (unfold d; rewrite drop_length; lia).
  assert (forall i, (i < length p)%nat -> at_ str (Z.of_nat (length str) - Z.of_nat (length p) + Z.of_nat i) = d !! i) as Hat.
  { intros i Hi. rewrite at_lookup by lia. unfold d. rewrite lookup_drop. f_equal. lia. }
  induction I2 as [|I IH]; cbn [cpp11_suffix].
  - unfold eq_at. rewrite (Hat 0%nat) by lia. rewrite at_lookup by lia. change (Z.to_nat 0) with 0%nat. clearbody d.
    destruct d as [|a d]; simpl in *; [lia|]. destruct p as [|b p]; simpl in *; [lia|].
    exists (Ascii.eqb a b). split; [done|]. rewrite Ascii.eqb_eq. rewrite !take_0. split; congruence.
  - destruct IH as (b & Eb & Hb); [lia|]. 
    replace (Z.of_nat (length str) - Z.of_nat (length p) + Z.of_nat (S I) - 1) with (Z.of_nat (length str) - Z.of_nat (length p) + Z.of_nat I) by lia.
    rewrite Eb. unfold eq_at. rewrite Hat by lia. rewrite at_lookup by lia. rewrite Nat2Z.id.
    destruct (lookup_lt_is_Some_2 d (S I)) as [x Hx]; [lia|]. destruct (lookup_lt_is_Some_2 p (S I)) as [y Hy]; [lia|]. rewrite Hx, Hy.
    rewrite (take_S_r _ _ _ Hx), (take_S_r _ _ _ Hy).
    destruct (Ascii.eqb x y) eqn:E; simpl.
    + apply Ascii.eqb_eq in E as ->. exists b. split; [done|]. rewrite Hb. split; [by intros ->|]. intros H. by apply app_inj_tail in H as [? _].
    + exists false. split; [done|]. apply Ascii.eqb_neq in E. split; [done|]. intros H. by apply app_inj_tail in H as [_ ?].
Qed.

Lemma check_suffix_spec str p : p <> [] ->
  exists z, check_suffix str p = Some z /\
    ((is_suffix p str /\ z = Z.of_nat (length str) - Z.of_nat (length p)) \/ (~ is_suffix p str /\ z = 0)).
Proof.
  intros Hp. unfold check_suffix, sizeof. assert (length p <> 0%nat) as Hl by (by destruct p).
  destruct (Z.of_nat (length str) + 1 >=? Z.of_nat (length p) + 1) eqn:E.
  - apply Z.geb_le in E. replace (Z.to_nat (Z.of_nat (length p) + 1 - 2)) with (length p - 1)%nat by lia.
    replace (Z.of_nat (length str) + 1 - 2) with (Z.of_nat (length str) - Z.of_nat (length p) + Z.of_nat (length p - 1)) by lia.
    destruct (suffix_check (length p - 1) str p) as (b & -> & Hb); [lia|lia|]. replace (S (length p - 1)) with (length p) in Hb by lia.
    rewrite firstn_all in Hb. rewrite take_ge in Hb by (rewrite drop_length; lia). destruct b.
    + eexists. split; [done|]. left. split; [|lia]. exists (take (length str - length p) str). rewrite <- (proj1 Hb eq_refl) at 2. by rewrite take_drop.
    + eexists. split; [done|]. right. split; [|done]. intros [t ->]. rewrite app_length in Hb.
      replace (length t + length p - length p)%nat with (length t) in Hb by lia. rewrite drop_app in Hb. by discriminate (proj2 Hb eq_refl).
  - eexists. split; [done|]. right. split; [|done]. intros [t ->]. rewrite app_length in E. rewrite Z.geb_leb in E. apply Z.leb_gt in E. lia.
Qed.

(** Whether p is a prefix of q ++ t is decided within q and p if they differ there. *)
Fixpoint differ (p q : chars) : bool :=
  match p, q with a :: p', b :: q' => negb (Ascii.eqb a b) || differ p' q' | _, _ => false end.
Lemma differ_spec p q t : differ p q = true -> ~ is_prefix p (q ++ t).
Proof.
  revert q. induction p as [|a p IH]; intros [|b q] H [u Hu]; simpl in *; try done. injection Hu as -> Hu.
  rewrite Ascii.eqb_refl in H. simpl in H. eapply IH; [exact H|]. by exists u.
Qed.
Lemma last_differ (p s t : chars) (a b : ascii) : a <> b -> ~ is_suffix (p ++ [a]) (s ++ t ++ [b]).
Proof. intros Hne [u Hu]. rewrite !app_assoc in Hu. apply app_inj_tail in Hu as [_ ?]. congruence. Qed.

Lemma parse_intro sig p n : parse_range sig = Some (p, n) -> 0 <= p -> 0 <= n -> p + n <= Z.of_nat (length sig) ->
  parse sig = Some (take (Z.to_nat n) (drop (Z.to_nat p) sig)).
Proof.
  intros E H1 H2 H3. unfold parse. rewrite E. rewrite (proj2 (Z.ltb_ge p 0)), (proj2 (Z.ltb_ge n 0)) by done. simpl.
  by rewrite (proj2 (Z.ltb_ge _ _)).
Qed.
Lemma between (pre t suf : chars) : take (length t) (drop (length pre) (pre ++ t ++ suf)) = t.
Proof. by rewrite drop_app, take_app. Qed.

(** All prefixes other than those that are recognised on purpose are told apart within their text. *)
Definition zeros (sig : chars) (l : list chars) : Prop := Forall (fun p => p <> [] /\ ~ is_prefix p sig) l.
Lemma zeros_checks sig l : zeros sig l -> omap_all (check_prefix sig) l = Some (replicate (length l) 0).
Proof.
  induction 1 as [|p l [Hp Hn] _ IH]; simpl; [done|]. destruct (check_prefix_spec sig p Hp) as (z & -> & [[H _]|[_ ->]]); [done|]. by rewrite IH.
Qed.
Definition one_of (sig : chars) (l : list chars) (n : nat) : Prop :=
  exists l1 p l2, l = l1 ++ p :: l2 /\ length p = n /\ p <> [] /\ is_prefix p sig /\ zeros sig l1 /\ zeros sig l2.
Lemma sum_zeros k : sum (replicate k 0) = 0.
Proof. induction k; simpl; auto. Qed.
Lemma count_zeros k : count_nz (replicate k 0) = 0.
Proof. induction k; simpl; auto. Qed.
Lemma one_of_checks sig l n : one_of sig l n ->
  exists zs, omap_all (check_prefix sig) l = Some zs /\ sum zs = Z.of_nat n /\ count_nz zs = 1.
Proof.
  intros (l1 & p & l2 & -> & <- & Hp & Hpre & H1 & H2). exists (replicate (length l1) 0 ++ Z.of_nat (length p) :: replicate (length l2) 0).
  assert (length p <> 0%nat) as Hl by (by destruct p). split; [|split].
  - induction H1 as [|q l1 [Hq Hn] _ IH]; simpl.
    + destruct (check_prefix_spec sig p Hp) as (z & -> & [[_ ->]|[H _]]); [|done]. by rewrite (zeros_checks _ _ H2).
    + destruct (check_prefix_spec sig q Hq) as (z & -> & [[H _]|[_ ->]]); [done|]. by rewrite IH.
  - unfold sum. rewrite foldr_app. simpl. change (foldr Z.add 0 (replicate (length l2) 0)) with (sum (replicate (length l2) 0)). rewrite sum_zeros.
    rewrite Z.add_0_r. induction (length l1); simpl; auto.
  - unfold count_nz. rewrite map_app. simpl. unfold nonzero at 2. rewrite (proj2 (Z.eqb_neq _ _)) by lia. simpl. unfold sum. rewrite foldr_app. simpl.
    change (foldr Z.add 0 (map _ (replicate (length l2) 0))) with (count_nz (replicate (length l2) 0)). rewrite count_zeros.
    induction (length l1); simpl; auto.
Qed.

(** ** C36 *)

Lemma name_extracted_gcc_clang :
  forall style name, style ∈ [clang_style; old_clang_style; gcc_style] ->
    parse (style ++ name ++ lit "]") = Some name.
Proof.
  intros style name Hin. set (sig := style ++ name ++ lit "]").
  assert (one_of sig group1 (length style) /\ zeros sig group2 /\ zeros sig group3 /\ style <> []) as (H1 & H2 & H3 & Hne).
  { repeat (apply elem_of_cons in Hin as [->|Hin]); [..|by apply elem_of_nil in Hin].
    - split; [|split; [|split; [|done]]]; [|repeat constructor; try done; apply differ_spec; vm_compute; done..].
      exists [], clang_style, [old_clang_style; gcc_style]. split; [done|]. split; [done|]. split; [done|]. split; [by exists (name ++ lit "]")|].
      split; repeat constructor; try done; apply differ_spec; vm_compute; done.
    - split; [|split; [|split; [|done]]]; [|repeat constructor; try done; apply differ_spec; vm_compute; done..].
      exists [clang_style], old_clang_style, [gcc_style]. split; [done|]. split; [done|]. split; [done|]. split; [by exists (name ++ lit "]")|].
      split; repeat constructor; try done; apply differ_spec; vm_compute; done.
    - split; [|split; [|split; [|done]]]; [|repeat constructor; try done; apply differ_spec; vm_compute; done..].
      exists [clang_style; old_clang_style], gcc_style, []. split; [done|]. split; [done|]. split; [done|]. split; [by exists (name ++ lit "]")|].
      split; repeat constructor; try done; apply differ_spec; vm_compute; done. }
  assert (length style <> 0%nat) as Hl by (by destruct style).
  assert (length sig = (length style + length name + 1)%nat) as Hs by (unfold sig; rewrite !app_length; simpl; lia).
  assert (parse_range sig = Some (Z.of_nat (length style), Z.of_nat (length name))) as E.
  { unfold parse_range. destruct (one_of_checks _ _ _ H1) as (zs & -> & S1 & N1). rewrite (zeros_checks _ _ H2), (zeros_checks _ _ H3).
    destruct (check_suffix_spec sig suffix1) as (s01 & -> & [[_ ->]|[Hn _]]); [done| |].
    2:{ destruct Hn. exists (style ++ name). unfold sig. by rewrite <- app_assoc. }
    destruct (check_suffix_spec sig suffix2) as (s02 & -> & [[Hx _]|[_ ->]]); [done| |].
    { exfalso. revert Hx. unfold sig. change suffix2 with (lit ">(void" ++ [")"%char]). change (lit "]") with ["]"%char]. by apply last_differ. }
    rewrite N1, S1, Hs. change (Z.of_nat (length suffix1)) with 1.
    unfold nonzero. rewrite (proj2 (Z.eqb_neq (Z.of_nat (length style + length name + 1) - 1) 0)) by lia. simpl negb. cbn [andb orb Z.eqb Pos.eqb].
    rewrite (proj2 (Z.eqb_neq (Z.of_nat (length style)) 0)) by lia. simpl. do 2 f_equal. lia. }
  rewrite (parse_intro _ _ _ E) by lia. rewrite !Nat2Z.id. unfold sig. by rewrite between.
Qed.

(** Compilers of the gcc / clang kind: what they generate for the function n::p, up to the name of the type. *)
Definition gnu_signatures : list string :=
  ["r boost::leaf::n::p() [T = "; "boost::leaf::n::r boost::leaf::n::p() [T = "; "boost::leaf::n::r boost::leaf::n::p() [with T = "]%string.
Theorem C36_name_extracted_gcc_clang :
  forall sig name, sig ∈ gnu_signatures -> parse (lit sig ++ name ++ lit "]") = Some name.
Proof.
  intros sig name Hin. apply name_extracted_gcc_clang. unfold gnu_signatures in Hin. repeat (apply elem_of_cons in Hin as [->|Hin]); [..|by apply elem_of_nil in Hin].
  - by constructor.
  - by constructor; constructor.
  - by constructor; constructor; constructor.
Qed.
Print Assumptions C36_name_extracted_gcc_clang.

(** msvc: the signature of a struct, class or enum. *)
Definition msvc_conv (conv : string) : Prop := conv = "cdecl"%string \/ conv = "stdcall"%string \/ conv = "fastcall"%string.
Lemma msvc_app conv tag : msvc conv tag = msvc conv "" ++ lit tag.
Proof. unfold msvc. rewrite <- !app_assoc. done. Qed.

Lemma name_extracted_msvc_class :
  forall conv tag name, msvc_conv conv -> tag = "struct "%string \/ tag = "class "%string \/ tag = "enum "%string ->
    parse (msvc conv tag ++ name ++ lit ">(void)") = Some name.
Proof.
  intros conv tag name Hc Ht. set (style := msvc conv tag). set (sig := style ++ name ++ lit ">(void)").
  assert (zeros sig group1 /\ one_of sig group2 (length style) /\ style <> []) as (H1 & H2 & Hne).
  { unfold sig, style. destruct Hc as [->|[->| ->]], Ht as [->|[->| ->]]; (split; [|split; [|done]]);
    (match goal with |- zeros _ _ => repeat constructor; try done; apply differ_spec; vm_compute; done | _ => idtac end).
    1: exists [].
    2: exists (take 3 group2). 3: exists (take 6 group2). 4: exists (take 1 group2). 5: exists (take 4 group2). 6: exists (take 7 group2).
    7: exists (take 2 group2). 8: exists (take 5 group2). 9: exists (take 8 group2).
    all: eexists _, _; split; [unfold group2; cbn [take app]; reflexivity|]; split; [done|]; split; [done|]; split; [by eexists|];
      split; repeat constructor; try done; apply differ_spec; vm_compute; done. }
  assert (exists zs, omap_all (check_prefix sig) group3 = Some zs) as [zs3 H3].
  { unfold group3. cbn [omap_all]. 
    destruct (check_prefix_spec sig (msvc "cdecl" "")) as (z1 & -> & _); [done|].
    destruct (check_prefix_spec sig (msvc "stdcall" "")) as (z2 & -> & _); [done|].
    destruct (check_prefix_spec sig (msvc "fastcall" "")) as (z3 & -> & _); [done|]. eauto. }
  assert (length style <> 0%nat) as Hl by (by destruct style).
  assert (length sig = (length style + length name + 7)%nat) as Hs by (unfold sig; rewrite !app_length; simpl; lia).
  assert (parse_range sig = Some (Z.of_nat (length style), Z.of_nat (length name))) as E.
  { unfold parse_range. destruct (one_of_checks _ _ _ H2) as (zs & -> & S1 & N1). rewrite (zeros_checks _ _ H1), H3.
    destruct (check_suffix_spec sig suffix1) as (s01 & -> & [[Hx _]|[_ ->]]); [done| |].
    { exfalso. revert Hx. unfold sig. change suffix1 with ([] ++ ["]"%char]). change (lit ">(void)") with (lit ">(void" ++ [")"%char]).
      rewrite (app_assoc name). by apply last_differ. }
    destruct (check_suffix_spec sig suffix2) as (s02 & -> & [[_ ->]|[Hn _]]); [done| |].
    2:{ destruct Hn. exists (style ++ name). unfold sig. by rewrite <- app_assoc. }
    rewrite N1, S1, Hs. change (Z.of_nat (length suffix2)) with 7.
    unfold nonzero. rewrite (proj2 (Z.eqb_neq (Z.of_nat (length style + length name + 7) - 7) 0)) by lia. cbn [negb andb orb Z.eqb Pos.eqb].
    rewrite (proj2 (Z.eqb_neq (Z.of_nat (length style)) 0)) by lia. simpl. do 2 f_equal. lia. }
  rewrite (parse_intro _ _ _ E) by lia. rewrite !Nat2Z.id. unfold sig. by rewrite between.
Qed.

Definition msvc_signature (conv tag : string) : chars := lit ("struct boost::leaf::n::r __" ++ conv ++ " boost::leaf::n::p<" ++ tag)%string.
Theorem C36_name_extracted_msvc_class :
  forall conv tag name, msvc_conv conv -> tag = "struct "%string \/ tag = "class "%string \/ tag = "enum "%string ->
    parse (msvc_signature conv tag ++ name ++ lit ">(void)") = Some name.
Proof.
  intros conv tag name Hc Ht. replace (msvc_signature conv tag) with (msvc conv tag); [by apply name_extracted_msvc_class|].
  by destruct Hc as [->|[->| ->]], Ht as [->|[->| ->]].
Qed.
Print Assumptions C36_name_extracted_msvc_class.

(** msvc: any other type; its text does not start with one of the words above (which is how it is told apart). *)
Lemma name_extracted_msvc_other :
  forall conv name, msvc_conv conv ->
    (forall tag, tag = "struct "%string \/ tag = "class "%string \/ tag = "enum "%string -> ~ is_prefix (lit tag) (name ++ lit ">(void)")) ->
    parse (msvc conv "" ++ name ++ lit ">(void)") = Some name.
Proof.
  intros conv name Hc Ht. set (style := msvc conv ""). set (sig := style ++ name ++ lit ">(void)").
  assert (forall conv' tag, tag = "struct "%string \/ tag = "class "%string \/ tag = "enum "%string -> conv' = conv -> ~ is_prefix (msvc conv' tag) sig) as Hsame.
  { intros conv' tag Htag -> [u Hu]. eapply Ht; [exact Htag|]. exists u. unfold sig, style in Hu. rewrite (msvc_app conv tag), <- !app_assoc in Hu.
    by apply app_inv_head in Hu. }
  assert (zeros sig group1 /\ zeros sig group2 /\ one_of sig group3 (length style) /\ style <> []) as (H1 & H2 & H3 & Hne).
  { unfold sig, style in *. destruct Hc as [->|[->| ->]]; (split; [|split; [|split; [|done]]]);
    (match goal with |- zeros _ _ => repeat constructor; try done; try (by apply Hsame; auto); apply differ_spec; vm_compute; done | _ => idtac end).
    1: exists []. 2: exists (take 1 group3). 3: exists (take 2 group3).
    all: eexists _, _; split; [unfold group3; cbn [take app]; reflexivity|]; split; [done|]; split; [done|]; split; [by eexists|];
      split; repeat constructor; try done; apply differ_spec; vm_compute; done. }
  assert (length style <> 0%nat) as Hl by (by destruct style).
  assert (length sig = (length style + length name + 7)%nat) as Hs by (unfold sig; rewrite !app_length; simpl; lia).
  assert (parse_range sig = Some (Z.of_nat (length style), Z.of_nat (length name))) as E.
  { unfold parse_range. destruct (one_of_checks _ _ _ H3) as (zs & -> & S1 & N1). rewrite (zeros_checks _ _ H1), (zeros_checks _ _ H2).
    destruct (check_suffix_spec sig suffix1) as (s01 & -> & [[Hx _]|[_ ->]]); [done| |].
    { exfalso. revert Hx. unfold sig. change suffix1 with ([] ++ ["]"%char]). change (lit ">(void)") with (lit ">(void" ++ [")"%char]).
      rewrite (app_assoc name). by apply last_differ. }
    destruct (check_suffix_spec sig suffix2) as (s02 & -> & [[_ ->]|[Hn _]]); [done| |].
    2:{ destruct Hn. exists (style ++ name). unfold sig. by rewrite <- app_assoc. }
    rewrite N1, S1, Hs. change (Z.of_nat (length suffix2)) with 7.
    unfold nonzero. rewrite (proj2 (Z.eqb_neq (Z.of_nat (length style + length name + 7) - 7) 0)) by lia. cbn [negb andb orb Z.eqb Pos.eqb].
    rewrite count_zeros, sum_zeros. simpl. do 2 f_equal. lia. }
  rewrite (parse_intro _ _ _ E) by lia. rewrite !Nat2Z.id. unfold sig. by rewrite between.
Qed.

Theorem C36_name_extracted_msvc_other :
  forall conv name, msvc_conv conv ->
    (forall tag, tag = "struct "%string \/ tag = "class "%string \/ tag = "enum "%string -> ~ is_prefix (lit tag) (name ++ lit ">(void)")) ->
    parse (msvc_signature conv "" ++ name ++ lit ">(void)") = Some name.
Proof.
  intros conv name Hc Ht. replace (msvc_signature conv "") with (msvc conv ""); [by apply name_extracted_msvc_other|]. by destruct Hc as [->|[->| ->]].
Qed.
Print Assumptions C36_name_extracted_msvc_other.

(** A type whose name contains the prefix and the suffix text; a built-in type; a name of no characters. *)
Example ex36 :
  parse (lit "boost::leaf::n::r boost::leaf::n::p() [with T = my<boost::leaf::n::r boost::leaf::n::p() [with T = ]>]") = Some (lit "my<boost::leaf::n::r boost::leaf::n::p() [with T = ]>") /\
  parse (lit "struct boost::leaf::n::r __cdecl boost::leaf::n::p<int>(void)") = Some (lit "int") /\
  parse (lit "struct boost::leaf::n::r __cdecl boost::leaf::n::p<struct structx>(void)") = Some (lit "structx") /\
  parse (lit "r boost::leaf::n::p() [T = ]") = Some [].
Proof. by vm_compute. Qed.

(** Formats that are not recognised are rejected when the program is compiled ("Unrecognized __PRETTY_FUNCTION__/__FUNCSIG__
    formats will result in compiler diagnostics", demangle.hpp:144); what is accepted is a recognised format around the name
    that is printed, and the printed range is within the signature. *)
Inductive signature_of (sig name : chars) : Prop :=
| gnu_sig s : s ∈ gnu_signatures -> sig = lit s ++ name ++ lit "]" -> signature_of sig name
| msvc_class_sig conv tag : msvc_conv conv -> tag = "struct "%string \/ tag = "class "%string \/ tag = "enum "%string ->
    sig = msvc_signature conv tag ++ name ++ lit ">(void)" -> signature_of sig name
| msvc_other_sig conv : msvc_conv conv ->
    (forall tag, tag = "struct "%string \/ tag = "class "%string \/ tag = "enum "%string -> ~ is_prefix (lit tag) (name ++ lit ">(void)")) ->
    sig = msvc_signature conv "" ++ name ++ lit ">(void)" -> signature_of sig name.

Fixpoint apart (l : list chars) : bool := match l with [] => true | p :: l' => forallb (fun q => differ q p) l' && apart l' end.
Lemma zeros_or_one sig l : apart l = true -> Forall (fun p => p <> []) l -> zeros sig l \/ exists p, p ∈ l /\ is_prefix p sig /\ one_of sig l (length p).
Proof.
  induction l as [|p l IH]; intros HA HF; [left; constructor|]. simpl in HA. apply andb_prop in HA as [HA1 HA2]. inversion HF as [|? ? Hp HF']; subst.
  destruct (check_prefix_spec sig p Hp) as (z & _ & [[Hpre _]|[Hn _]]).
  - right. exists p. split; [by constructor|]. split; [done|]. exists [], p, l. repeat (split; [done|]). split; [by constructor|].
    destruct Hpre as [t ->]. apply Forall_forall. intros q Hq. split; [by eapply Forall_forall in HF'|]. apply differ_spec.
    rewrite forallb_forall in HA1. apply HA1. by apply elem_of_list_In.
  - destruct (IH HA2 HF') as [Hz|(q & Hq & Hpre & l1 & r & l2 & -> & H1 & H2 & H3 & H4 & H5)]; [left; by constructor|].
    right. exists q. split; [by constructor|]. split; [done|]. exists (p :: l1), r, l2. repeat (split; [done|]). split; [by constructor|done].
Qed.
Lemma zeros_not sig l p : zeros sig l -> p ∈ l -> ~ is_prefix p sig.
Proof. intros HZ Hp. eapply Forall_forall in HZ; [|exact Hp]. apply HZ. Qed.
(** A prefix in which the first character of the suffix does not occur does not overlap with the suffix. *)
Lemma no_overlap (p s sig : chars) a : a ∉ p -> is_prefix p sig -> is_suffix (a :: s) sig -> exists name, sig = p ++ name ++ a :: s.
Proof.
  intros Ha [t ->] [u Hu]. revert u Hu. induction p as [|b p IH]; intros u Hu; simpl in *.
  - by exists u.
  - rewrite not_elem_of_cons in Ha. destruct u as [|c u]; simpl in Hu; injection Hu as <- Hu; [by destruct Ha|].
    destruct (IH (proj2 Ha) u Hu) as [name ->]. by exists name.
Qed.
Lemma range_parse sig p n : parse_range sig = Some (p, n) -> forall pre name suf, sig = pre ++ name ++ suf -> p = Z.of_nat (length pre) -> n = Z.of_nat (length name) ->
  parse sig = Some name.
Proof.
  intros E pre name suf Hs -> ->. rewrite (parse_intro _ _ _ E), !Nat2Z.id; [by rewrite Hs, between|lia|lia|]. rewrite Hs, !app_length. lia.
Qed.
Lemma no_char (a : ascii) (p : chars) : existsb (Ascii.eqb a) p = false -> a ∉ p.
Proof. intros H Hin. assert (existsb (Ascii.eqb a) p = true); [|congruence]. apply existsb_exists. exists a. split; [by apply elem_of_list_In|]. apply Ascii.eqb_refl. Qed.
Lemma group1_spec p : p ∈ group1 -> "]"%char ∉ p /\ p <> [] /\ exists s, s ∈ gnu_signatures /\ p = lit s.
Proof.
  intros Hin. unfold group1 in Hin. repeat (apply elem_of_cons in Hin as [->|Hin]); [..|by apply elem_of_nil in Hin];
    (split; [apply no_char; by vm_compute|]); (split; [done|]); eexists; (split; [|reflexivity]); unfold gnu_signatures; repeat (try (by left); right).
Qed.
Lemma group2_spec p : p ∈ group2 -> ">"%char ∉ p /\ p <> [] /\
  exists conv tag, msvc_conv conv /\ (tag = "struct "%string \/ tag = "class "%string \/ tag = "enum "%string) /\ p = msvc_signature conv tag.
Proof.
  intros Hin. unfold group2 in Hin. repeat (apply elem_of_cons in Hin as [->|Hin]); [..|by apply elem_of_nil in Hin];
    (split; [apply no_char; by vm_compute|]); (split; [done|]);
    match goal with |- context [msvc ?c ?t = _] => exists c, t end; unfold msvc_conv; repeat split; auto.
Qed.
Lemma group3_spec p : p ∈ group3 -> ">"%char ∉ p /\ p <> [] /\ exists conv, msvc_conv conv /\ p = msvc conv "".
Proof.
  intros Hin. unfold group3 in Hin. repeat (apply elem_of_cons in Hin as [->|Hin]); [..|by apply elem_of_nil in Hin];
    (split; [apply no_char; by vm_compute|]); (split; [done|]);
    match goal with |- context [msvc ?c ?t = _] => exists c end; unfold msvc_conv; repeat split; auto.
Qed.
Lemma group2_in conv tag : msvc_conv conv -> tag = "struct "%string \/ tag = "class "%string \/ tag = "enum "%string -> msvc conv tag ∈ group2.
Proof. intros [->|[->| ->]] [->|[->| ->]]; unfold group2; repeat (try (by left); right). Qed.

Theorem C36_unrecognised_signatures_are_rejected :
  forall sig, match parse_range sig with
  | Some _ => exists name, parse sig = Some name /\ signature_of sig name
  | None => forall name, ~ signature_of sig name
  end.
Proof.
  intros sig. destruct (parse_range sig) as [[a n]|] eqn:E.
  2:{ intros name HS. assert (parse sig = Some name) as HP.
      { destruct HS as [s Hs ->|conv tag Hc Ht ->|conv Hc Ht ->].
        - by apply C36_name_extracted_gcc_clang.
        - by apply C36_name_extracted_msvc_class.
        - by apply C36_name_extracted_msvc_other. }
      unfold parse in HP. by rewrite E in HP. }
  pose proof E as E0. unfold parse_range in E.
  destruct (zeros_or_one sig group1) as [Z1|(p1 & In1 & Pre1 & One1)]; [done|by repeat constructor| |].
  - (* none of the gcc / clang prefixes *)
    rewrite (zeros_checks _ _ Z1) in E.
    destruct (zeros_or_one sig group2) as [Z2|(p2 & In2 & Pre2 & One2)]; [done|by repeat constructor| |].
    + rewrite (zeros_checks _ _ Z2) in E.
      destruct (zeros_or_one sig group3) as [Z3|(p3 & In3 & Pre3 & One3)]; [done|by repeat constructor| |].
      { rewrite (zeros_checks _ _ Z3) in E. destruct (check_suffix sig suffix1) as [s01|]; [|done]. destruct (check_suffix sig suffix2) as [s02|]; [|done].
        rewrite !count_zeros in E. cbn [Z.eqb] in E. by rewrite !andb_false_r in E. }
      destruct (one_of_checks _ _ _ One3) as (zs & HZ3 & S3 & N3). rewrite HZ3 in E. destruct (check_suffix_spec sig suffix1) as (s01 & E1 & _); [done|]. rewrite E1 in E.
      destruct (check_suffix_spec sig suffix2) as (s02 & E2 & [[Suf Hs]|[_ ->]]); [done| |]; rewrite E2 in E.
      2:{ rewrite !count_zeros in E. cbn [nonzero Z.eqb negb andb orb] in E. by rewrite !andb_false_r in E. }
      destruct (group3_spec _ In3) as (Hc & Hne & conv & Hconv & Hp). assert (length p3 <> 0%nat) by (by destruct p3). destruct (no_overlap _ _ _ _ Hc Pre3 Suf) as [name ->].
      rewrite !count_zeros, !sum_zeros, N3, S3 in E. assert (nonzero s02 = true) as Hz.
      { unfold nonzero. rewrite Hs. rewrite !app_length. rewrite (proj2 (Z.eqb_neq _ _)); [done|].
        change (length suffix2) with 7%nat. cbn [List.length]. lia. }
      rewrite Hz in E. assert ((if nonzero s01 then 0 else 0) = 0) as Hi by (by destruct (nonzero s01)). rewrite Hi in E.
      cbn [Z.eqb Pos.eqb andb orb nonzero negb] in E. rewrite orb_true_r in E. injection E as <- <-.
      exists name. split.
      * apply (range_parse _ _ _ E0 p3 name (lit ">(void)")); [done|done|]. rewrite Hs, !app_length. change (length suffix2) with 7%nat. cbn [List.length]. lia.
      * eapply (msvc_other_sig _ _ conv); [done| |by rewrite Hp; destruct Hconv as [->|[->| ->]]]. intros tag Ht [u Hu].
        eapply (zeros_not _ _ (msvc conv tag) Z2); [by apply group2_in|]. exists u. rewrite (msvc_app conv tag), <- app_assoc, Hp. f_equal. done.
    + destruct (one_of_checks _ _ _ One2) as (zs & HZ & S2 & N2). rewrite HZ in E. destruct (omap_all (check_prefix sig) group3) as [p3|]; [|done].
      destruct (check_suffix_spec sig suffix1) as (s01 & E1 & _); [done|]. rewrite E1 in E.
      destruct (check_suffix_spec sig suffix2) as (s02 & E2 & [[Suf Hs]|[_ ->]]); [done| |]; rewrite E2 in E.
      2:{ rewrite !count_zeros in E. cbn [nonzero Z.eqb negb andb orb] in E. by rewrite !andb_false_r in E. }
      destruct (group2_spec _ In2) as (Hc & Hne & conv & tag & Hconv & Htag & Hp). destruct (no_overlap _ _ _ _ Hc Pre2 Suf) as [name ->].
      rewrite !count_zeros, !sum_zeros, N2, S2 in E. assert (length p2 <> 0%nat) by (by destruct p2).
      assert (nonzero s02 = true) as Hz.
      { unfold nonzero. rewrite Hs. rewrite !app_length. rewrite (proj2 (Z.eqb_neq _ _)); [done|]. change (length suffix2) with 7%nat. cbn [List.length]. lia. }
      rewrite Hz in E. assert ((if nonzero s01 then 0 else 0) = 0) as Hi by (by destruct (nonzero s01)). rewrite Hi in E.
      assert (nonzero (Z.of_nat (length p2)) = true) as Hnz by (unfold nonzero; rewrite (proj2 (Z.eqb_neq _ _)); [done|lia]). rewrite Hnz in E.
      replace (nonzero 0) with false in E by done. cbn [Z.eqb Pos.eqb andb] in E. rewrite orb_true_r in E. cbn [orb] in E. injection E as <- <-.
      exists name. split.
      * apply (range_parse _ _ _ E0 p2 name (lit ">(void)")); [done|done|]. rewrite Hs, !app_length. change (length suffix2) with 7%nat. cbn [List.length]. lia.
      * by apply (msvc_class_sig _ _ conv tag); [..|rewrite <- Hp].
  - (* a gcc / clang prefix: none of the msvc ones *)
    assert (zeros sig group2 /\ zeros sig group3) as [Z2 Z3].
    { destruct Pre1 as [t ->]. unfold group1 in In1. repeat (apply elem_of_cons in In1 as [->|In1]); [..|by apply elem_of_nil in In1];
        split; repeat constructor; try done; apply differ_spec; by vm_compute. }
    destruct (one_of_checks _ _ _ One1) as (zs & HZ & S1 & N1). rewrite HZ, (zeros_checks _ _ Z2), (zeros_checks _ _ Z3) in E.
    destruct (check_suffix_spec sig suffix2) as (s02 & E2 & _); [done|].
    destruct (check_suffix_spec sig suffix1) as (s01 & E1 & [[Suf Hs]|[_ ->]]); [done| |]; rewrite E1, E2 in E.
    2:{ rewrite !count_zeros in E. cbn [nonzero Z.eqb negb andb orb] in E. by rewrite !andb_false_r in E. }
    destruct (group1_spec _ In1) as (Hc & Hne & s & Hin & Hp). destruct (no_overlap _ _ _ _ Hc Pre1 Suf) as [name ->].
    assert (length p1 <> 0%nat) by (by destruct p1). rewrite N1, S1 in E.
    assert (nonzero s01 = true) as Hz.
    { unfold nonzero. rewrite Hs. rewrite !app_length. rewrite (proj2 (Z.eqb_neq _ _)); [done|]. change (length suffix1) with 1%nat. cbn [List.length]. lia. }
    assert (nonzero (Z.of_nat (length p1)) = true) as Hnz by (unfold nonzero; rewrite (proj2 (Z.eqb_neq _ _)); [done|lia]).
    rewrite Hz, Hnz in E. cbn [Z.eqb Pos.eqb andb orb] in E. injection E as <- <-. exists name. split.
    + apply (range_parse _ _ _ E0 p1 name (lit "]")); [done|done|]. rewrite Hs, !app_length. change (length suffix1) with 1%nat. cbn [List.length]. lia.
    + by apply (gnu_sig _ _ s); [|rewrite <- Hp].
Qed.
Print Assumptions C36_unrecognised_signatures_are_rejected.

(** Some other function; the prefix of one compiler with the suffix of another; nothing. *)
Example ex36_rejected : Forall (fun s => parse_range (lit s) = None)
  ["int main()"; "boost::leaf::n::r boost::leaf::n::p() [with T = int>(void)"; "struct boost::leaf::n::r __cdecl boost::leaf::n::p<int]"; ""]%string.
Proof. by repeat constructor; vm_compute. Qed.
