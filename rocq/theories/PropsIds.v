(** C01, C02 (sequential part), C42 and the id part of C23. *)
From Verif Require Export Ids.
Open Scope Z_scope.

(** An int that can be an error id. *)
Definition valid_id (id : Z) : Prop := - 2^31 <= id < 2^31 /\ id mod 4 = 1.

Lemma land3 z : Z.land z 3 = z mod 4.
Proof. change 3 with (Z.ones 2). rewrite Z.land_ones by lia. done. Qed.
Lemma lnot3 z : Z.land z (Z.lnot 3) = 4 * (z / 4).
Proof.
  change (Z.lnot 3) with (Z.lnot (Z.ones 2)). rewrite <- Z.ldiff_land, Z.ldiff_ones_r by lia.
  rewrite Z.shiftr_div_pow2, Z.shiftl_mul_pow2 by lia. change (2^2) with 4. lia.
Qed.
Lemma lor_low a b : 0 <= b < 4 -> Z.lor (4 * a) b = 4 * a + b.
Proof.
  intros H. assert (Z.land (4 * a) b = 0) as E.
  { apply Z.bits_inj'. intros n Hn. rewrite Z.land_spec, Z.bits_0. destruct (Z.lt_ge_cases n 2).
    - replace (4 * a) with (a * 2^2) by lia. rewrite Z.mul_pow2_bits_low by lia. done.
    - assert (b < 2^n). { apply Z.lt_le_trans with (2^2); [lia|]. apply Z.pow_le_mono_r; lia. }
      assert (Z.log2 b < n). { destruct (decide (b = 0)) as [->|]; [simpl; lia|]. apply Z.log2_lt_pow2; lia. }
      rewrite (Z.bits_above_log2 b n) by lia.
      by rewrite andb_false_r. }
  by rewrite <- Z.lxor_lor, <- Z.add_nocarry_lxor.
Qed.
Lemma make_error_id_eq z : make_error_id z = 4 * (z / 4) + 1.
Proof. unfold make_error_id. rewrite lnot3. by apply lor_low. Qed.

Lemma counter_after_eq n : counter_after n = (1 + 4 * Z.of_nat n) mod 2^32.
Proof.
  induction n as [|n IH]; [done|]. cbn [counter_after]. unfold generate_next_id, u32. rewrite IH, Zplus_mod_idemp_l. f_equal. lia.
Qed.
Lemma nth_id_eq n : nth_id n = to_int ((1 + 4 * (Z.of_nat n + 1)) mod 2^32).
Proof. unfold nth_id. rewrite counter_after_eq. do 2 f_equal. lia. Qed.
Lemma to_int_spec u : 0 <= u < 2^32 -> - 2^31 <= to_int u < 2^31 /\ u = (to_int u) mod 2^32.
Proof.
  intros H. unfold to_int. destruct (u <? 2^31) eqn:E.
  - apply Z.ltb_lt in E. split; [lia|]. rewrite Z.mod_small; lia.
  - apply Z.ltb_ge in E. split; [lia|]. replace (u - 2^32) with (u + (-1) * 2^32) by lia. rewrite Z.mod_add by lia. rewrite Z.mod_small; lia.
Qed.
Lemma to_int_mod4 u : (to_int u) mod 4 = u mod 4.
Proof. unfold to_int. destruct (u <? 2^31); [done|]. change (2^32) with (4 * 2^30). replace (u - 4 * 2^30) with (u + (- 2^30) * 4) by lia. by rewrite Z.mod_add. Qed.
Lemma mod_mod4 z : (z mod 2^32) mod 4 = z mod 4.
Proof. change (2^32) with (4 * 2^30). rewrite Z.rem_mul_r by lia. rewrite Z.mul_comm, Z.mod_add, Z.mod_mod by lia. done. Qed.

(** ** C01 *)
Theorem C01_ids_valid :
  forall n, let id := nth_id n in
    valid_id id /\ id <> 0 /\ truthy id = true /\
    generate_assert (counter_after (S n)) = true /\ id_assert id = true /\
    make_error_id id = id /\ fst (new_error (counter_after n)) = id /\ current_error (counter_after (S n)) = id.
Proof.
  intros n id. assert (valid_id id) as [Hr Hm].
  { unfold id. rewrite nth_id_eq. set (u := (1 + 4 * (Z.of_nat n + 1)) mod 2^32).
    assert (0 <= u < 2^32) as Hu by (apply Z.mod_pos_bound; lia). split; [apply to_int_spec; done|].
    rewrite to_int_mod4. unfold u. rewrite mod_mod4. rewrite Z.mul_comm, Z.mod_add by lia. done. }
  assert (id <> 0) as Hnz by (intros E; rewrite E in Hm; done).
  assert (make_error_id id = id) as Hk. { rewrite make_error_id_eq. pose proof (Z.div_mod id 4). lia. }
  split; [done|]. split; [done|]. split; [unfold truthy; by rewrite (proj2 (Z.eqb_neq _ _) Hnz)|].
  split. { unfold generate_assert. rewrite land3, counter_after_eq, mod_mod4. rewrite (Z.mul_comm 4), Z.mod_add by lia. done. }
  split; [unfold id_assert; rewrite land3, Hm; by rewrite orb_true_r|]. split; [done|]. split; exact Hk.
Qed.
Print Assumptions C01_ids_valid.

(** Before and after the counter has gone through the whole range of unsigned int. *)
Example ex01 : nth_id 0 = 5 /\ to_int ((1 + 4 * 2^29) mod 2^32) = - 2^31 + 1 /\ to_int ((1 + 4 * (2^30 - 1)) mod 2^32) = -3 /\
  to_int ((1 + 4 * 2^30) mod 2^32) = 1 /\ valid_id (-3) /\ valid_id 1.
Proof. repeat split; vm_compute; done. Qed.

(** ** C02, in terms of positions in the sequence of generated ids: equality exactly at multiples of 2^30. *)
Lemma to_int_inj u v : 0 <= u < 2^32 -> 0 <= v < 2^32 -> to_int u = to_int v -> u = v.
Proof. intros Hu Hv E. apply to_int_spec in Hu as [_ ->], Hv as [_ ->]. by rewrite E. Qed.

Theorem C02_id_period :
  forall i j : nat, nth_id i = nth_id j <-> Z.of_nat i mod 2^30 = Z.of_nat j mod 2^30.
Proof.
  intros i j. rewrite !nth_id_eq.
  assert (forall n, (1 + 4 * (n + 1)) mod 2^32 = 1 + 4 * ((n + 1) mod 2^30)) as E.
  { intros n. symmetry. apply Z.mod_unique_pos with ((n + 1) / 2^30).
    - pose proof (Z.mod_pos_bound (n + 1) (2^30)). lia.
    - pose proof (Z.div_mod (n + 1) (2^30)). lia. }
  split.
  - intros H. apply to_int_inj in H; [|apply Z.mod_pos_bound; lia..]. rewrite !E in H.
    assert ((Z.of_nat i + 1) mod 2^30 = (Z.of_nat j + 1) mod 2^30) as H' by lia.
    replace (Z.of_nat i) with (Z.of_nat i + 1 - 1) by lia. replace (Z.of_nat j) with (Z.of_nat j + 1 - 1) by lia.
    rewrite (Zminus_mod (Z.of_nat i + 1)), (Zminus_mod (Z.of_nat j + 1)), H'. done.
  - intros H. f_equal. rewrite !E. do 2 f_equal. rewrite (Zplus_mod (Z.of_nat i)), (Zplus_mod (Z.of_nat j)), H. done.
Qed.
Print Assumptions C02_id_period.

Theorem C02_ids_distinct :
  forall i j : nat, (i < j)%nat -> Z.of_nat j - Z.of_nat i < 2^30 -> nth_id i <> nth_id j.
Proof.
  intros i j Hij Hw E. apply C02_id_period in E.
  assert ((Z.of_nat j - Z.of_nat i) mod 2^30 = 0) as H by (rewrite Zminus_mod, E, Z.sub_diag; done).
  rewrite Z.mod_small in H; lia.
Qed.
Print Assumptions C02_ids_distinct.
Example ex02 : nth_id 3 <> nth_id 7 /\ nth_id 3 = 17.
Proof. split; [|done]. apply C02_ids_distinct; lia. Qed.

(** ** C42 *)
Theorem C42_printed_refuted : exists a b, valid_id a /\ valid_id b /\ a <> b /\ printed a = printed b.
Proof. exists 1, (-3). repeat split; try done; vm_compute; done. Qed.
Print Assumptions C42_printed_refuted.

(** These two ids are issued one right after the other, when the counter wraps around. *)
Theorem C42_colliding_ids_are_issued :
  forall n : nat, Z.of_nat n = 2^30 - 2 -> nth_id n = -3 /\ nth_id (S n) = 1 /\ printed (nth_id n) = printed (nth_id (S n)).
Proof. intros n Hn. rewrite !nth_id_eq. rewrite Nat2Z.inj_succ, Hn. done. Qed.
Print Assumptions C42_colliding_ids_are_issued.

Theorem C42_printed_partial :
  forall a b, valid_id a -> valid_id b -> printed a = printed b -> a = b \/ (a = 1 /\ b = -3) \/ (a = -3 /\ b = 1).
Proof.
  intros a b [_ Ha] [_ Hb]. unfold printed. intros H. pose proof (Z.quot_rem' a 4) as Qa. pose proof (Z.quot_rem' b 4) as Qb.
  assert (forall z, z mod 4 = 1 -> (0 <= z /\ Z.rem z 4 = 1) \/ (z < 0 /\ Z.rem z 4 = -3)) as Hz.
  { intros z Hz. destruct (Z.lt_ge_cases z 0) as [Hn|Hn].
    - right. split; [done|].  pose proof (Z.quot_rem' z 4) as Q.
      assert (- 4 < Z.rem z 4 <= 0) by (pose proof (Z.rem_bound_pos_neg z 4); lia).
      assert ((Z.rem z 4) mod 4 = 1) as M. { rewrite <- Hz. rewrite Q at 2. rewrite Z.add_comm, Z.mul_comm, Z.mod_add; lia. }
      assert (Z.rem z 4 = -3 \/ Z.rem z 4 = -2 \/ Z.rem z 4 = -1 \/ Z.rem z 4 = 0) as [E|[E|[E|E]]] by lia; rewrite E in M; done.
    - left. split; [lia|]. rewrite Z.rem_mod_nonneg by lia. done. }
  destruct (Hz a Ha) as [[A1 A2]|[A1 A2]], (Hz b Hb) as [[B1 B2]|[B1 B2]]; rewrite A2 in Qa; rewrite B2 in Qb; rewrite H in Qa; lia.
Qed.
Print Assumptions C42_printed_partial.
Example ex42 : valid_id 5 /\ valid_id (-7) /\ printed 5 = 1 /\ printed (-7) = -1.
Proof. repeat split; vm_compute; done. Qed.

(** ** The discriminant of result<> *)
Theorem C23_discriminant :
  forall id, valid_id id ->
    disc_kind (disc_of_id id) = err_id /\ disc_get_error_id (disc_of_id id) = id /\
    disc_kind (disc_of_cap id) = err_id_capture_list /\ disc_get_error_id (disc_of_cap id) = id /\
    - 2^31 <= disc_of_cap id < 2^31 /\ disc_of_cap id <> disc_val /\ disc_of_id id <> disc_val /\ disc_kind disc_val = k_val.
Proof.
  intros id [Hr Hm]. unfold disc_kind, disc_get_error_id, disc_of_id, disc_of_cap, disc_val.
  assert (forall z, Z.lor (Z.land z (Z.lnot 3)) 1 = 4 * (z / 4) + 1) as E1 by (intros; rewrite lnot3; by apply lor_low).
  assert (forall z, Z.lor (Z.land z (Z.lnot 3)) 2 = 4 * (z / 4) + 2) as E2 by (intros; rewrite lnot3; by apply lor_low).
  rewrite !make_error_id_eq, !E1, !E2, !land3, Hm. pose proof (Z.div_mod id 4) as D.
  assert (forall q r, 0 <= r < 4 -> (4 * q + r) mod 4 = r) as M. { intros. rewrite Z.add_comm, Z.mul_comm, Z.mod_add, Z.mod_small; lia. }
  assert (forall q r, 0 <= r < 4 -> (4 * q + r) / 4 = q) as Q. { intros. rewrite Z.add_comm, Z.mul_comm, Z.div_add by lia. rewrite Z.div_small; lia. }
  rewrite !M, !Q by lia. change (3 mod 4) with 3.
  repeat split; try lia; try done.
Qed.
Print Assumptions C23_discriminant.
Example ex23_discriminant : valid_id (-3) /\ disc_of_cap (-3) = -2 /\ disc_of_cap 5 = 6.
Proof. repeat split; vm_compute; done. Qed.

(** ** C04 at the level of ids: make_error_id of 0 is the id 1, which is true. *)
Theorem C04_no_error_id_refuted : truthy (current_error 0) = true /\ truthy (disc_get_error_id (disc_of_id 0)) = true.
Proof. by vm_compute. Qed.
Print Assumptions C04_no_error_id_refuted.
