(** C59: what e_LastError prints. *)
From Verif Require Export LastError.
Open Scope Z_scope.

(** ** Specification: a message, without the line ending at its end (if there is one). *)
Definition ending (msg body : chars) : Prop :=
  msg = body ++ [cCR; cLF] \/
  (msg = body ++ [cLF] /\ forall b, body <> b ++ [cCR]) \/
  (msg = body ++ [cCR]) \/
  (msg = body /\ (forall b c, body = b ++ [c] -> c <> cCR /\ c <> cLF)).

Lemma rd_last b c l : rd (b ++ c :: l) (Z.of_nat (length b)) = Some c.
Proof.
  unfold rd. destruct (Z.ltb_spec (Z.of_nat (length b)) 0); [lia|]. rewrite Nat2Z.id, <- app_assoc. simpl. by apply list_lookup_middle.
Qed.
Lemma chop_last b c l a : chop (b ++ c :: l) a (Z.of_nat (length b) + 1) = Some (Z.of_nat (length b) + (if Ascii.eqb c a then 0 else 1)).
Proof.
  unfold chop. replace (Z.of_nat (length b) + 1 - 1) with (Z.of_nat (length b)) by lia. rewrite rd_last. destruct (Ascii.eqb c a); f_equal; lia.
Qed.

(** FormatMessageA returns the number of characters: the message is not empty. *)
Theorem C59_message_partial :
  forall value msg, msg <> [] -> msg <> [cLF] ->
    exists body, ending msg body /\ show_last_error value (Some msg) = Printed (dec value ++ lit ", " ++ [cQ] ++ body ++ [cQ]).
Proof.
  intros value msg H1 H2. destruct msg as [|c1 m1 _] using rev_ind; [done|]. unfold show_last_error.
  rewrite app_length. simpl length. replace (Z.of_nat (length m1 + 1)) with (Z.of_nat (length m1) + 1) by lia. rewrite chop_last.
  destruct (Ascii.eqb_spec c1 cLF) as [->|Hc].
  - destruct m1 as [|c2 m2 _] using rev_ind; [done|]. rewrite app_length. simpl length. rewrite <- app_assoc. simpl app.
    replace (Z.of_nat (length m2 + 1) + 0) with (Z.of_nat (length m2) + 1) by lia. rewrite chop_last. destruct (Ascii.eqb_spec c2 cCR) as [->|Hc2].
    + exists m2. split; [by left|]. rewrite Z.add_0_r, Nat2Z.id. by rewrite take_app.
    + exists (m2 ++ [c2]). split.
      * right; left. split; [by rewrite <- app_assoc|]. intros b E. apply app_inj_tail in E as [_ E]. done.
      * replace (Z.to_nat (Z.of_nat (length m2) + 1)) with (length (m2 ++ [c2])) by (rewrite app_length; simpl; lia).
        replace (m2 ++ [c2; cLF]) with ((m2 ++ [c2]) ++ [cLF]) by by rewrite <- app_assoc. by rewrite take_app.
  - rewrite chop_last. destruct (Ascii.eqb_spec c1 cCR) as [->|Hc2].
    + exists m1. split; [by right; right; left|]. rewrite Z.add_0_r, Nat2Z.id. by rewrite take_app.
    + exists (m1 ++ [c1]). split.
      * right; right; right. split; [done|]. intros b c E. apply app_inj_tail in E as [_ ->]. done.
      * replace (Z.to_nat (Z.of_nat (length m1) + 1)) with (length (m1 ++ [c1])) by (rewrite app_length; simpl; lia). by rewrite firstn_all.
Qed.
Print Assumptions C59_message_partial.

(** If the message is nothing but a line feed, the character before the buffer is read (common.hpp:97). *)
Theorem C59_message_refuted : exists value msg, msg <> [] /\ show_last_error value (Some msg) = OutOfBounds.
Proof. exists 5, [cLF]. by vm_compute. Qed.
Print Assumptions C59_message_refuted.

Example ex59 : show_last_error 5 (Some (lit "Access is denied." ++ [cCR; cLF])) = Printed (lit "5, " ++ [cQ] ++ lit "Access is denied." ++ [cQ]).
Proof. by vm_compute. Qed.
Example ex59_errno : show_errno 2 (fun _ => lit "No such file or directory") = lit "2, " ++ [cQ] ++ lit "No such file or directory" ++ [cQ].
Proof. by vm_compute. Qed.
