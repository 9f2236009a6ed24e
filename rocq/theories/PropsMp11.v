(** C32, C33: storage deduction, index sequences. *)
From Verif Require Export PropsHandle Try.
Open Scope Z_scope.

(** ** C32 *)

(** What a handler argument needs storage for. *)
Inductive needs (G : cfg) : harg -> sty -> Prop :=
| needs_e T : needs G (AE T) (SE T)
| needs_ptr T : needs G (APtr T) (SE T)
| needs_pred T f : needs G (APred T f) (SE T)
| needs_diag : needs G ADiag (SE T_LOC)
| needs_details : needs G ADetails (SE T_LOC)
| needs_details_d : g_diag G = true -> g_capture G = true -> needs G ADetails SDA.

(** All arguments of all handlers, in the order they are written. *)
Definition all_args (hs : handlers) : list harg := concat (map fst (flat hs)).

Lemma handlers_args_eq hs : handlers_args hs = all_args hs.
Proof.
  unfold all_args. induction hs as [|args w b hs IH|hs1 IH1 hs2 IH2]; simpl; [done| |].
  - by rewrite IH.
  - by rewrite IH1, IH2, map_app, concat_app.
Qed.

Lemma context_types_needs G a t : t ∈ context_types G a <-> needs G a t.
Proof.
  split.
  - destruct a; simpl; try (intros Hx; apply elem_of_list_singleton in Hx as ->; constructor); try (by intros ?%elem_of_nil).
    destruct (g_diag G) eqn:E1; simpl; [destruct (g_capture G) eqn:E2|].
    + intros Hx. apply elem_of_cons in Hx as [->|Hx]; [by constructor|]. apply elem_of_list_singleton in Hx as ->. by constructor.
    + intros Hx. apply elem_of_list_singleton in Hx as ->. constructor.
    + intros Hx. apply elem_of_list_singleton in Hx as ->. constructor.
  - destruct 1 as [T|T|T f| | |E1 E2]; simpl; try by constructor.
    + destruct (_ && _); by constructor.
    + rewrite E1, E2. simpl. right. by constructor.
Qed.

(** mp_set_push_back keeps what is there and adds new elements in order of their first occurrence. *)
Lemma push_back_spec {A} `{EqDecision A} (l s : list A) :
  exists r, mp_set_push_back s l = s ++ r /\
    (forall t, t ∈ r <-> t ∈ l /\ t ∉ s) /\
    (forall i j t1 t2, r !! i = Some t1 -> r !! j = Some t2 -> (i < j)%nat -> exists pre post, l = pre ++ t1 :: post /\ t1 ∉ pre /\ t2 ∉ pre).
Proof.
  revert s. induction l as [|t l IH]; intros s; cbn [mp_set_push_back].
  - exists []. rewrite app_nil_r. split; [done|]. split; [|done]. intros t. split; [by intros ?%elem_of_nil|by intros [?%elem_of_nil _]].
  - case_bool_decide as Ht.
    + destruct (IH s) as (r & -> & H1 & H2). exists r. split; [done|]. split.
      * intros u. rewrite H1, elem_of_cons. split; [intros [? ?]; auto|]. intros [[->|?] ?]; [done|auto].
      * intros i j t1 t2 Hi Hj Hij. destruct (H2 i j t1 t2 Hi Hj Hij) as (pre & post & -> & Hp1 & Hp2). exists (t :: pre), post.
        apply elem_of_list_lookup_2 in Hi. apply H1 in Hi as [_ Hi]. apply elem_of_list_lookup_2 in Hj. apply H1 in Hj as [_ Hj].
        rewrite !not_elem_of_cons. split; [done|]. split; split; congruence.
    + destruct (IH (s ++ [t])) as (r & -> & H1 & H2). exists (t :: r). rewrite <- app_assoc. split; [done|]. split.
      * intros u. rewrite !elem_of_cons, H1, elem_of_app, elem_of_list_singleton. destruct (decide (u = t)) as [->|Hu]; naive_solver.
      * intros i j t1 t2 Hi Hj Hij. destruct j as [|j]; [lia|]. simpl in Hj. destruct i as [|i]; simpl in Hi.
        -- simplify_eq. exists [], l. split; [done|]. by split; intros ?%elem_of_nil.
        -- destruct (H2 i j t1 t2 Hi Hj) as (pre & post & -> & Hp1 & Hp2); [lia|]. exists (t :: pre), post. 
           apply elem_of_list_lookup_2 in Hi. apply H1 in Hi as [_ Hi]. apply elem_of_list_lookup_2 in Hj. apply H1 in Hj as [_ Hj].
           rewrite elem_of_app, elem_of_list_singleton in Hi, Hj. rewrite !not_elem_of_cons. split; [done|]. split; split; auto.
Qed.

Lemma filter_before {A} (P : A -> bool) (l : list A) i j x y :
  List.filter P l !! i = Some x -> List.filter P l !! j = Some y -> (i < j)%nat ->
  exists i' j', l !! i' = Some x /\ l !! j' = Some y /\ (i' < j')%nat.
Proof.
  revert i j. induction l as [|a l IH]; intros i j; simpl; [done|]. destruct (P a).
  - destruct j as [|j]; [lia|]. destruct i as [|i]; simpl.
    + intros ? Hj _. simplify_eq. apply elem_of_list_lookup_2 in Hj. apply elem_of_list_In, filter_In in Hj as [Hj _]. apply elem_of_list_In in Hj.
      apply elem_of_list_lookup_1 in Hj as [j' Hj]. exists 0%nat, (S j'). split; [done|]. split; [done|lia].
    + intros Hi Hj ?. destruct (IH i j Hi Hj) as (i' & j' & ? & ? & ?); [lia|]. exists (S i'), (S j'). split; [done|]. split; [done|lia].
  - intros Hi Hj ?. destruct (IH i j Hi Hj) as (i' & j' & ? & ? & ?); [lia|]. exists (S i'), (S j'). split; [done|]. split; [done|lia].
Qed.

Theorem C32_storage_deduced :
  forall G hs,
    NoDup (deduce G hs) /\
    (forall t, t ∈ deduce G hs <-> (exists a, a ∈ all_args hs /\ needs G a t) /\ (forall T, t = SE T -> g_abs G T = false)) /\
    (* order: if t1 is stored before t2, some argument needs t1 before any argument needs t2 *)
    (forall i j t1 t2, deduce G hs !! i = Some t1 -> deduce G hs !! j = Some t2 -> (i < j)%nat ->
       exists n a, all_args hs !! n = Some a /\ needs G a t1 /\ forall n' a', all_args hs !! n' = Some a' -> (n' < n)%nat -> ~ needs G a' t2).
Proof.
  intros G hs. split; [apply deduce_nodup|].
  unfold deduce, deduce_list. rewrite mp_remove_if_eq, handlers_args_eq. unfold mp_unique.
  set (L := mp_append (map (context_types G) (all_args hs))).
  assert (L = concat (map (context_types G) (all_args hs))) as EL.
  { unfold L. rewrite mp_append_eq. done. }
  destruct (push_back_spec L []) as (r & -> & H1 & H2). simpl. split.
  - intros t. rewrite elem_of_list_In, filter_In, <- elem_of_list_In, H1, EL. split.
    + intros [[Ht _] Hn]. split.
      * apply elem_of_list_In, in_concat in Ht as (l & Hl & Ht). apply in_map_iff in Hl as (a & <- & Ha).
        exists a. split; [by apply elem_of_list_In|]. apply context_types_needs. by apply elem_of_list_In.
      * intros T ->. simpl in Hn. by destruct (g_abs G T).
    + intros [(a & Ha & Hn) Hab]. split.
      * split; [|by intros ?%elem_of_nil]. apply elem_of_list_In, in_concat. exists (context_types G a). split.
        -- apply in_map, elem_of_list_In. done.
        -- apply elem_of_list_In. by apply context_types_needs.
      * destruct t as [T|]; simpl; [|done]. by rewrite (Hab T).
  - intros i j t1 t2 Hi Hj Hij. destruct (filter_before _ _ _ _ _ _ Hi Hj Hij) as (i' & j' & Hi' & Hj' & Hij').
    destruct (H2 _ _ _ _ Hi' Hj' Hij') as (pre & post & E & Hp1 & Hp2). rewrite EL in E. clear -E Hp2.
    revert pre E Hp2. induction (all_args hs) as [|a l IH]; intros pre E Hp2; simpl in E.
    { by destruct pre. }
    destruct (decide (t1 ∈ context_types G a)) as [Ha|Ha].
    + exists 0%nat, a. split; [done|]. split; [by apply context_types_needs|]. lia.
    + assert (exists pre', pre = context_types G a ++ pre') as [pre' ->].
      { revert E Ha. clear. revert pre. induction (context_types G a) as [|t l' IH]; intros pre E Ha; [by exists pre|].
        destruct pre as [|p pre]; simpl in E; [injection E as -> _; by destruct Ha; constructor|]. injection E as -> E.
        rewrite not_elem_of_cons in Ha. destruct (IH pre E) as [pre' ->]; [apply Ha|]. by exists pre'. }
      rewrite <- app_assoc in E. apply app_inv_head in E. rewrite not_elem_of_app in Hp2.
      destruct (IH pre' E) as (n & a' & Hn & Hn1 & Hn2); [apply Hp2|]. exists (S n), a'. split; [done|]. split; [done|].
      intros [|n'] b Hb Hlt; simpl in Hb; simplify_eq.
      * intros Hnb%context_types_needs. by destruct Hp2.
      * eapply Hn2; eauto. lia.
Qed.
Print Assumptions C32_storage_deduced.

(** A nested tuple, a repeated type, an abstract type (13), diagnostics. *)
Definition GA : cfg := Cfg true true true (fun _ => true) (fun T => bool_decide (T = 13%nat)) (fun _ => true) (fun _ => VZ 0) (fun n => 4 * Z.of_nat n + 5).
Example ex32 : deduce GA (HCons [AE TB; APtr TA] (fun _ => PRet (RVal 1)) (HTup (HCons [AE TA; AE 13%nat] (fun _ => PRet (RVal 1)) HNil)
    (HCons [ADetails; APred TC (fun _ => true)] (fun _ => PRet (RVal 1)) HNil))) = [SE TB; SE TA; SE T_LOC; SDA; SE TC].
Proof. vm_compute. reflexivity. Qed.

(** ** C33 *)
Lemma seq_shift_map (k n : nat) : map (fun x => (x + k)%nat) (seq 0 n) = seq k n.
Proof. replace (seq k n) with (seq (0 + k) n) by done. generalize 0%nat. induction n as [|n IH]; intros s; simpl; [done|]. f_equal. rewrite IH. done. Qed.

Lemma make_seq_eq fuel N : (N < fuel)%nat -> make_integer_sequence_ fuel N = seq 0 N.
Proof.
  revert N. induction fuel as [|fuel IH]; intros N HN; [lia|]. cbn [make_integer_sequence_].
  destruct N as [|[|N]]; [done|done|]. set (K := S (S N)) in *.
  assert (Nat.div K 2 < K)%nat by (apply Nat.div_lt; lia). assert (Nat.modulo K 2 < 2)%nat by (apply Nat.mod_upper_bound; lia).
  rewrite !IH by lia. unfold append_integer_sequence. rewrite !seq_length, !seq_shift_map, <- seq_app.
  rewrite seq_length. transitivity (seq 0 ((Nat.div K 2 + Nat.div K 2) + Nat.modulo K 2)); [by rewrite (seq_app (Nat.div K 2 + Nat.div K 2))|].
  f_equal. pose proof (Nat.div_mod K 2). lia.
Qed.

Theorem C33_index_sequence :
  forall N, make_index_sequence N = seq 0 N.
Proof. intros N. apply make_seq_eq. lia. Qed.
Print Assumptions C33_index_sequence.

(** handle_errors.hpp:457-468: the elements std::get<I>(tup)... of a handler tuple are the handlers in order, each once. *)
Theorem C33_tuple_unpacked :
  forall {A} (tup : list A), map (fun i => tup !! i) (make_index_sequence (length tup)) = map Some tup.
Proof.
  intros A tup. rewrite C33_index_sequence. apply list_eq. intros i. destruct (decide (i < length tup)%nat) as [Hi|Hi].
  - rewrite !list_lookup_fmap, lookup_seq_lt by done. simpl. destruct (lookup_lt_is_Some_2 tup i Hi) as [x ->]. done.
  - rewrite !lookup_ge_None_2; rewrite ?map_length, ?seq_length; lia || done.
Qed.
Print Assumptions C33_tuple_unpacked.
Example ex33 : make_index_sequence 13 = [0;1;2;3;4;5;6;7;8;9;10;11;12]%nat.
Proof. vm_compute. reflexivity. Qed.
