(** C51: contexts passed between threads, and moved. *)
From Verif Require Export Share PropsLoad.
Open Scope Z_scope.

(** ** Specification
    Without slots or pointers: the contexts which are active in each thread (the innermost first), the thread each is active in, the
    error types each has a place for, and the object in each place with the error it belongs to. [tw_under c T]: when c was last activated, a
    context with a place for T was active around it. *)
Record tworld := TWorld {
  tw_open : tid -> list cid;
  tw_thread : cid -> option tid;
  tw_types : cid -> option (list ety);
  tw_obj : cid -> ety -> option (Z * val);
  tw_under : cid -> ety -> bool;
  tw_next : cid }.
Definition tworld0 : tworld := TWorld (fun _ => []) (fun _ => None) (fun _ => None) (fun _ _ => None) (fun _ _ => false) 0%nat.

Definition tplace (w : tworld) (T : ety) (c : cid) : bool :=
  match tw_types w c with Some l => bool_decide (T ∈ l) | None => false end.
(** the innermost context with a place for objects of type T that is active in thread t *)
Definition tinner (w : tworld) (t : tid) (T : ety) : option cid := find (tplace w T) (tw_open w t).
Definition set_obj (f : cid -> ety -> option (Z * val)) (w : tworld) : tworld :=
  TWorld (tw_open w) (tw_thread w) (tw_types w) f (tw_under w) (tw_next w).

(** The object context [c'] has of type T after thread t called unload(id) of [c] (in a build that captures, an object nobody wants is dropped). *)
Definition tunloaded (capture : bool) (w : tworld) (t : tid) (c : cid) (id : Z) (c' : cid) (T : ety) : option (Z * val) :=
  match sees id (tw_obj w c T) with
  | None => tw_obj w c' T
  | Some v =>
      match tinner w t T with
      | Some d =>
          match sees id (tw_obj w d T) with
          | Some _ => tw_obj w c' T
          | None => if decide (c' = d) then Some (id, v) else if decide (c' = c) then None else tw_obj w c' T
          end
      | None => if capture && bool_decide (c' = c) then None else tw_obj w c' T
      end
  end.

(** None: not a permitted use. A context which is active in no thread may be activated, unloaded, moved or destroyed by any; a context
    is deactivated by the thread it is active in, if it is the innermost one there. In builds with assertions, a context
    is not moved if a context with a place for one of its types was around it when it was last activated. *)
Definition tstep (asserts capture : bool) (t : tid) (o : top) (w : tworld) : option tworld :=
  match o with
  | TNew l =>
      if decide (NoDup l) then
        Some (TWorld (tw_open w) (tw_thread w) (fun c => if decide (c = tw_next w) then Some l else tw_types w c) (tw_obj w)
               (fun c T => if decide (c = tw_next w) then false else tw_under w c T) (S (tw_next w)))
      else None
  | TMove c =>
      match tw_types w c, tw_thread w c with
      | Some l, None =>
          if asserts && existsb (tw_under w c) l then None
          else Some (TWorld (tw_open w) (tw_thread w) (fun c' => if decide (c' = tw_next w) then Some l else tw_types w c')
                      (fun c' T => if decide (c' = tw_next w) then tw_obj w c T else if decide (c' = c) then None else tw_obj w c' T)
                      (fun c' T => if decide (c' = tw_next w) then false else tw_under w c' T) (S (tw_next w)))
      | _, _ => None
      end
  | TAct c =>
      match tw_types w c, tw_thread w c with
      | Some _, None =>
          Some (TWorld (fun u => if decide (u = t) then c :: tw_open w t else tw_open w u)
                  (fun c' => if decide (c' = c) then Some t else tw_thread w c') (tw_types w) (tw_obj w)
                  (fun c' T => if decide (c' = c) then bool_decide (tinner w t T <> None) else tw_under w c' T) (tw_next w))
      | _, _ => None
      end
  | TDeact c =>
      match tw_open w t with
      | c' :: l =>
          if decide (c = c') then
            Some (TWorld (fun u => if decide (u = t) then l else tw_open w u)
                    (fun c' => if decide (c' = c) then None else tw_thread w c') (tw_types w) (tw_obj w) (tw_under w) (tw_next w))
          else None
      | [] => None
      end
  | TUnload c id =>
      match tw_types w c, tw_thread w c with
      | Some _, None => if decide (id <> 0) then Some (set_obj (tunloaded capture w t c id) w) else None
      | _, _ => None
      end
  | TLoad id T v =>
      if decide (id <> 0) then
        Some (set_obj (fun c T' => if decide (T' = T /\ tinner w t T = Some c) then Some (id, v) else tw_obj w c T') w)
      else None
  | TDestroy c =>
      match tw_types w c, tw_thread w c with
      | Some _, None =>
          Some (TWorld (tw_open w) (tw_thread w) (fun c' => if decide (c' = c) then None else tw_types w c')
                  (fun c' T => if decide (c' = c) then None else tw_obj w c' T) (tw_under w) (tw_next w))
      | _, _ => None
      end
  end.

Fixpoint trun (asserts capture : bool) (l : list (tid * top)) (w : tworld) : option tworld :=
  match l with
  | [] => Some w
  | (t, o) :: l' => match tstep asserts capture t o w with Some w' => trun asserts capture l' w' | None => None end
  end.

(** What can be seen of the library's memory is what the specification says: which contexts are active, what each holds, and where
    the loads of each thread go. *)
Definition tagrees (w : tworld) (X : shared) : Prop :=
  (forall t c, active (view t X) c <-> tw_thread w c <> None) /\
  (forall t c T, held (view t X) c T = tw_obj w c T) /\
  (forall t c T, serves (view t X) T c <-> tinner w t T = Some c).

(** ** Proof *)
Definition haddr (w : tworld) (T : ety) (l : list cid) : option addr := (fun c => inl (c, T)) <$> find (tplace w T) l.
Arguments haddr : simpl never.

Record I (g : tid -> glob) (w : tworld) (X : shared) : Prop := MkI {
  i_next : x_nc X = tw_next w;
  i_ctx : forall c, match tw_types w c with
                    | Some l => (c < tw_next w)%nat /\ NoDup l /\ x_ctxs X !! c = Some (CCtx (map SE l) (bool_decide (tw_thread w c <> None)))
                    | None => x_ctxs X !! c = None /\ tw_thread w c = None
                    end;
  i_cell : forall c T, tplace w T c = true -> exists sl, x_hp X !! inl (c, T) = Some sl /\ cellR sl (tw_obj w c T) /\
                         (tw_under w c T = false -> e_prev sl = None);
  i_nocell : forall c T, tplace w T c = false -> tw_obj w c T = None;
  i_tls : forall t T, x_tls X t !! T = haddr w T (tw_open w t);
  i_lnk : forall t T pre c l sl, tw_open w t = pre ++ c :: l -> tplace w T c = true -> x_hp X !! inl (c, T) = Some sl ->
                e_prev sl = haddr w T l;
  i_open : forall t c, c ∈ tw_open w t <-> tw_thread w c = Some t;
  i_nodup : forall t, NoDup (tw_open w t);
  i_tlsd : forall t, x_tlsd X t = None;
  i_dhp : x_dhp X = ∅;
  i_thr : forall c, x_thr X !! c = tw_thread w c;
  i_glob : forall t, x_glob X t = g t }.

Lemma find_some_in (P : cid -> bool) l c : find P l = Some c -> c ∈ l /\ P c = true.
Proof. intros H. apply find_some in H as [H1 H2]. by rewrite elem_of_list_In. Qed.
Lemma haddr_in w T l a : haddr w T l = Some a -> exists c, a = inl (c, T) /\ c ∈ l /\ tplace w T c = true /\ find (tplace w T) l = Some c.
Proof.
  unfold haddr. destruct (find (tplace w T) l) as [c|] eqn:E; [|done]. intros H. injection H as <-. exists c. by apply find_some_in in E as [? ?].
Qed.
Lemma haddr_ext w w' T l : (forall c, c ∈ l -> tplace w T c = tplace w' T c) -> haddr w T l = haddr w' T l.
Proof.
  intros H. unfold haddr. f_equal. induction l as [|c l IH]; [done|]. simpl. rewrite H by constructor. rewrite IH; [done|]. intros. apply H. by constructor.
Qed.
Lemma tplace_alive w T c : tplace w T c = true -> exists l, tw_types w c = Some l /\ T ∈ l.
Proof. unfold tplace. destruct (tw_types w c) as [l|]; [|done]. intros H. apply bool_decide_eq_true in H. eauto. Qed.

(** only contents change *)
Lemma I_cells g w X f X' :
  I g w X ->
  x_nc X' = x_nc X -> x_ctxs X' = x_ctxs X -> x_dhp X' = x_dhp X -> x_thr X' = x_thr X ->
  (forall t, x_tls X' t = x_tls X t) -> (forall t, x_tlsd X' t = x_tlsd X t) -> (forall t, x_glob X' t = x_glob X t) ->
  (forall c T sl, tplace w T c = true -> x_hp X !! inl (c, T) = Some sl -> cellR sl (tw_obj w c T) ->
     exists sl', x_hp X' !! inl (c, T) = Some sl' /\ e_prev sl' = e_prev sl /\ cellR sl' (f c T)) ->
  (forall c T, tplace w T c = false -> f c T = None) ->
  I g (set_obj f w) X'.
Proof.
  intros HI E1 E2 E3 E4 E5 E6 E7 Hc Hn. split; simpl.
  - rewrite E1. apply (i_next _ _ _ HI).
  - intros c. rewrite E2. apply (i_ctx _ _ _ HI).
  - intros c T HT. destruct (i_cell _ _ _ HI c T HT) as (sl & H1 & H2 & H3). destruct (Hc c T sl HT H1 H2) as (sl' & H4 & H5 & H6).
    exists sl'. split; [done|]. split; [done|]. rewrite H5. done.
  - exact Hn.
  - intros t T. rewrite E5. apply (i_tls _ _ _ HI).
  - intros t T pre c l sl Ho HT Hs. destruct (i_cell _ _ _ HI c T HT) as (sl0 & H1 & H2 & _). destruct (Hc c T sl0 HT H1 H2) as (sl' & H4 & H5 & H6).
    assert (sl' = sl) as -> by congruence. rewrite H5. by apply (i_lnk _ _ _ HI t T pre c l sl0).
  - apply (i_open _ _ _ HI).
  - apply (i_nodup _ _ _ HI).
  - intros t. rewrite E6. apply (i_tlsd _ _ _ HI).
  - rewrite E3. apply (i_dhp _ _ _ HI).
  - intros c. rewrite E4. apply (i_thr _ _ _ HI).
  - intros t. rewrite E7. apply (i_glob _ _ _ HI).
Qed.

Lemma upd_same {A} t (f : tid -> A) u : upd t (f t) f u = f u.
Proof. unfold upd. by destruct (decide (u = t)) as [->|]. Qed.

(** the memory after thread t changed the slots *)
Definition with_hp (h : gmap addr eslot) (X : shared) : shared :=
  Shared h (x_dhp X) (x_ctxs X) (x_nc X) (x_na X) (x_thr X) (x_tls X) (x_tlsd X) (x_glob X).

Lemma load_ok G g w X t id T v : I g w X -> id <> 0 ->
  exists X', xstep G t (TLoad id T v) X = Ok X' /\
    I g (set_obj (fun c T' => if decide (T' = T /\ tinner w t T = Some c) then Some (id, v) else tw_obj w c T') w) X'.
Proof.
  intros HI Hid. cbn [xstep mload load_slot]. unfold load_slot. cbn [tls view hp]. rewrite (i_tls _ _ _ HI). 
  destruct (haddr w T (tw_open w t)) as [a|] eqn:Ha.
  - apply haddr_in in Ha as (d & -> & Hin & HT & Hf). destruct (i_cell _ _ _ HI d T HT) as (sl & H1 & H2 & H3). rewrite H1. cbn [deref rbind negb orb].
    unfold slot_load. cbn [hp view]. rewrite H1. cbn [deref rbind]. unfold assert. rewrite (proj2 (Z.eqb_neq _ _) Hid). cbn [negb]. rewrite andb_false_r. cbn [rbind fst snd].
    eexists. split; [reflexivity|]. apply I_cells with (X := X); try done; cbn; [intros; apply upd_same..| |].
    + intros c T' sl0 HT' Hsl Hc0. destruct (decide ((T' = T) /\ tinner w t T = Some c)) as [[-> Hi]|Hne].
      * unfold tinner in Hi. assert (c = d) as -> by congruence. rewrite lookup_insert. eexists. split; [done|]. simpl. assert (sl0 = sl) as -> by congruence. done.
      * rewrite lookup_insert_ne; [by exists sl0|]. intros E. injection E as -> ->. apply Hne. split; [done|]. done.
    + intros c T' HT'. rewrite decide_False; [by apply (i_nocell _ _ _ HI)|]. intros [-> Hi]. unfold tinner in Hi. apply find_some_in in Hi as [_ Hi]. congruence.
  - assert (tinner w t T = None) as Hn. { unfold haddr in Ha. unfold tinner. by destruct (find _ _). }
    assert ((if g_capture G then dyn_load G id T v (view t X) else Ok (view t X)) = Ok (view t X)) as ->.
    { destruct (g_capture G); [|done]. unfold dyn_load. cbn. by rewrite (i_tlsd _ _ _ HI). }
    cbn [rbind fst snd]. eexists. split; [reflexivity|]. apply I_cells with (X := X); try done; cbn; [intros; apply upd_same..| |].
    + intros c T' sl0 HT' Hsl Hc0. exists sl0. split; [done|]. split; [done|]. rewrite decide_False; [done|]. intros [-> Hi]. congruence.
    + intros c T' HT'. rewrite decide_False; [by apply (i_nocell _ _ _ HI)|]. intros [-> Hi]. congruence.
Qed.

Lemma I_ext g w X f f' : (forall c T, f' c T = f c T) -> I g (set_obj f w) X -> I g (set_obj f' w) X.
Proof.
  intros H HI. change (set_obj f' w) with (set_obj f' (set_obj f w)). apply I_cells with (X := X); try done.
  - intros c T sl HT Hsl Hc. exists sl. split; [done|]. split; [done|]. by rewrite H.
  - intros c T HT. rewrite H. by apply (i_nocell _ _ _ HI).
Qed.
Lemma cellR_sees sl o id : id <> 0 -> cellR sl o -> (e_key sl =? id) = match sees id o with Some _ => true | None => false end /\
  forall v, sees id o = Some v -> e_val sl = v.
Proof.
  intros Hid. destruct o as [[k v]|]; simpl.
  - intros (H1 & -> & ->). destruct (k =? id); split; try done. by intros ? [= ->].
  - intros ->. split; [|done]. apply Z.eqb_neq. lia.
Qed.

Section unload.
Context (G : cfg) (g : tid -> glob) (t : tid) (c : cid) (id : Z).
Hypothesis Hid : id <> 0.

Lemma unload1 w X T : I g w X -> tplace w T c = true -> tw_thread w c = None ->
  exists h, slot_unload G (inl (c, T)) T id (view t X) = Ok (set_hp h (view t X)) /\
    I g (set_obj (fun c' T' => if decide (T = T') then tunloaded (g_capture G) w t c id c' T' else tw_obj w c' T') w) (with_hp h X).
Proof.
  intros HI HT Hth. destruct (i_cell _ _ _ HI c T HT) as (sl & H1 & H2 & _). unfold slot_unload, assert.
  rewrite (proj2 (Z.eqb_neq _ _) Hid). cbn [negb]. rewrite andb_false_r. cbn [rbind hp view]. rewrite H1. cbn [deref rbind andb].
  destruct (cellR_sees _ _ id Hid H2) as [Hk Hv]. rewrite Hk.
  assert ((forall c', tunloaded (g_capture G) w t c id c' T = tw_obj w c' T) ->
    I g (set_obj (fun c' T' => if decide (T = T') then tunloaded (g_capture G) w t c id c' T' else tw_obj w c' T') w) (with_hp (x_hp X) X)) as Hno.
  { intros E. apply I_cells with (X := X); try done.
    - intros c' T' sl' HT' Hsl Hc'. exists sl'. split; [done|]. split; [done|]. destruct (decide (T = T')) as [<-|]; [by rewrite E|done].
    - intros c' T' HT'. destruct (decide (T = T')) as [<-|]; [rewrite E|]; by apply (i_nocell _ _ _ HI). }
  destruct (sees id (tw_obj w c T)) as [v|] eqn:Es; cbn [negb].
  2: { exists (x_hp X). split; [done|]. apply Hno. intros. unfold tunloaded. by rewrite Es. }
  rewrite (Hv v eq_refl). unfold unload_to. cbn [tls view hp]. rewrite (i_tls _ _ _ HI).
  destruct (haddr w T (tw_open w t)) as [a|] eqn:Ha.
  - apply haddr_in in Ha as (d & -> & Hin & HTd & Hf). destruct (i_cell _ _ _ HI d T HTd) as (sd & D1 & D2 & _). rewrite D1. cbn [deref rbind].
    assert (d <> c) as Hdc. { intros ->. apply (i_open _ _ _ HI) in Hin. congruence. }
    destruct (cellR_sees _ _ id Hid D2) as [Hkd _]. rewrite Hkd. destruct (sees id (tw_obj w d T)) as [vd|] eqn:Ed; cbn [negb].
    + cbn [rbind fst snd]. exists (x_hp X). split; [done|]. apply Hno. intros. unfold tunloaded, tinner. by rewrite Es, Hf, Ed.
    + unfold slot_load. cbn [hp view]. rewrite D1. cbn [deref rbind]. unfold assert. rewrite (proj2 (Z.eqb_neq _ _) Hid). cbn [negb]. rewrite andb_false_r.
      cbn [rbind fst snd]. unfold slot_reset. cbn [hp set_hp view]. rewrite lookup_insert_ne by congruence. rewrite H1. cbn [deref rbind].
      eexists. split; [reflexivity|]. apply I_cells with (X := X); try done; cbn.
      * intros c' T' sl' HT' Hsl Hc'. destruct (decide (T = T')) as [<-|Hne].
        -- unfold tunloaded, tinner. rewrite Es, Hf, Ed. destruct (decide (c' = c)) as [->|Hcc].
           ++ rewrite lookup_insert. rewrite (decide_False (P := c = d)) by done. assert (sl' = sl) as -> by congruence. by eexists.
           ++ rewrite lookup_insert_ne by congruence. destruct (decide (c' = d)) as [->|].
              ** rewrite lookup_insert. assert (sl' = sd) as -> by congruence. by eexists.
              ** rewrite lookup_insert_ne by congruence. by exists sl'.
        -- rewrite !lookup_insert_ne by congruence. by exists sl'.
      * intros c' T' HT'. destruct (decide (T = T')) as [<-|Hne]; [|by apply (i_nocell _ _ _ HI)].
        unfold tunloaded, tinner. rewrite Es, Hf, Ed. rewrite !decide_False by congruence. by apply (i_nocell _ _ _ HI).
  - assert (tinner w t T = None) as Hn. { unfold haddr in Ha. unfold tinner. by destruct (find _ _). }
    destruct (g_capture G) eqn:EG.
    + unfold dyn_load. cbn [tlsd view]. rewrite (i_tlsd _ _ _ HI). cbn [rbind fst snd]. unfold slot_reset. cbn [hp view]. rewrite H1. cbn [deref rbind].
      eexists. split; [reflexivity|]. apply I_cells with (X := X); try done; cbn.
      * intros c' T' sl' HT' Hsl Hc'. destruct (decide (T = T')) as [<-|Hne].
        -- unfold tunloaded. rewrite Es, Hn. destruct (decide (c' = c)) as [->|Hcc].
           ++ rewrite lookup_insert, bool_decide_true by done. assert (sl' = sl) as -> by congruence. by eexists.
           ++ rewrite lookup_insert_ne by congruence. rewrite bool_decide_false by done. by exists sl'.
        -- rewrite !lookup_insert_ne by congruence. by exists sl'.
      * intros c' T' HT'. destruct (decide (T = T')) as [<-|Hne]; [|by apply (i_nocell _ _ _ HI)].
        unfold tunloaded. rewrite Es, Hn. rewrite bool_decide_false by congruence. by apply (i_nocell _ _ _ HI).
    + cbn [rbind fst snd]. exists (x_hp X). split; [done|]. apply Hno. intros. unfold tunloaded. by rewrite Es, Hn.
Qed.

Lemma unload_list w0 : forall l w X gg, I g w X -> tw_thread w c = None -> NoDup l ->
  tw_open w = tw_open w0 -> tw_types w = tw_types w0 ->
  (forall T, T ∈ l -> tplace w T c = true /\ forall c', tw_obj w c' T = tw_obj w0 c' T) ->
  exists h, tup_unload G c id (map SE l) (view t X) gg = Ok (set_hp h (view t X), gg) /\
    I g (set_obj (fun c' T => if decide (T ∈ l) then tunloaded (g_capture G) w0 t c id c' T else tw_obj w c' T) w) (with_hp h X).
Proof.
  induction l as [|T l IH]; intros w X gg HI Hth Hnd E1 E2 Hl.
  - exists (x_hp X). split; [done|]. apply I_cells with (X := X); try done.
    + intros c' T sl HT Hsl Hc. by exists sl.
    + intros c' T HT. by apply (i_nocell _ _ _ HI).
  - apply NoDup_cons in Hnd as [HnT Hnd]. destruct (unload1 w X T HI) as (h1 & Eh & HI1); [apply Hl; constructor|done|].
    cbn [map tup_unload]. unfold assert. rewrite (proj2 (Z.eqb_neq _ _) Hid). cbn [negb]. rewrite andb_false_r. cbn [rbind]. rewrite Eh. cbn [rbind fst snd].
    destruct (IH _ (with_hp h1 X) gg HI1) as (h2 & E & HI2); try done.
    { intros T' HT'. split; [apply (Hl T'); by constructor|]. intros c'. simpl. rewrite decide_False by congruence. apply Hl. by constructor. }
    exists h2. split; [exact E|]. change (with_hp h2 (with_hp h1 X)) with (with_hp h2 X) in HI2.
    refine (I_ext _ _ _ _ _ _ HI2). intros c' T'. simpl. destruct (decide (T' ∈ l)) as [Hx|Hx].
    + by rewrite decide_True by by constructor.
    + destruct (decide (T = T')) as [<-|Hne].
      * rewrite decide_True by constructor. unfold tunloaded, tinner, tplace. rewrite E1, E2. 
        rewrite !(proj2 (Hl T ltac:(constructor))). destruct (sees id (tw_obj w0 c T)); [|done].
        destruct (find _ _); [|done]. by rewrite !(proj2 (Hl T ltac:(constructor))).
      * rewrite decide_False; [done|]. intros Hy. apply elem_of_cons in Hy as [?|?]; [congruence|done].
Qed.
End unload.

Lemma unload_ok G g w X t c id l : I g w X -> tw_types w c = Some l -> tw_thread w c = None -> id <> 0 ->
  exists X', xstep G t (TUnload c id) X = Ok X' /\ I g (set_obj (tunloaded (g_capture G) w t c id) w) X'.
Proof.
  intros HI El Hth Hid. pose proof (i_ctx _ _ _ HI c) as Hc. rewrite El in Hc. destruct Hc as (_ & Hnd & Hc).
  cbn [xstep]. unfold munload. cbn [ctxs view]. rewrite Hc. cbn [deref rbind k_act k_tup]. rewrite Hth.
  rewrite bool_decide_false by tauto. unfold assert. cbn [negb]. rewrite andb_false_r. cbn [rbind]. rewrite <- map_rev.
  destruct (unload_list G g t c id Hid w (rev l) w X (x_glob X t) HI Hth) as (h & E & HI'); try done.
  { apply NoDup_ListNoDup, NoDup_rev. by apply NoDup_ListNoDup. }
  { intros T HT. split; [|done]. unfold tplace. rewrite El. apply bool_decide_eq_true. apply elem_of_list_In, in_rev, elem_of_list_In in HT. done. }
  rewrite E. cbn [rbind fst snd]. eexists. split; [reflexivity|].
  change (set_obj (tunloaded (g_capture G) w t c id) w) with (set_obj (tunloaded (g_capture G) w t c id)
    (set_obj (fun c' T => if decide (T ∈ rev l) then tunloaded (g_capture G) w t c id c' T else tw_obj w c' T) w)).
  apply I_cells with (X := with_hp h X); try done; cbn; [intros; apply upd_same..| |].
  - intros c' T sl HT Hsl Hcl. exists sl. split; [done|]. split; [done|]. destruct (decide (T ∈ rev l)) as [?|Hn]; [done|].
    unfold tunloaded. enough (tw_obj w c T = None) as -> by done. apply (i_nocell _ _ _ HI). unfold tplace. rewrite El. apply bool_decide_eq_false.
    intros Hx. apply Hn. apply elem_of_list_In. rewrite <- in_rev. by apply elem_of_list_In.
  - intros c' T HT. pose proof (i_nocell _ _ _ HI' c' T HT) as Hx. simpl in Hx. destruct (decide (T ∈ rev l)) as [?|Hn]; [done|].
    unfold tunloaded. enough (tw_obj w c T = None) as -> by done. apply (i_nocell _ _ _ HI). unfold tplace. rewrite El. apply bool_decide_eq_false.
    intros Hy. apply Hn. apply elem_of_list_In. rewrite <- in_rev. by apply elem_of_list_In.
Qed.

(** ** activate *)
Lemma act_list (c : cid) : forall l m, NoDup l -> (forall T, T ∈ l -> is_Some (hp m !! inl (c, T))) ->
  exists m', for_tup (sty_activate c) (map SE l) m = Ok m' /\
    (forall T, tls m' !! T = if decide (T ∈ l) then Some (inl (c, T)) else tls m !! T) /\
    (forall a, hp m' !! a = match a with
                            | inl (c', T) => if decide (c' = c /\ T ∈ l) then (fun s => ESlot (e_key s) (e_val s) (tls m !! T)) <$> hp m !! a else hp m !! a
                            | inr _ => hp m !! a
                            end) /\
    dhp m' = dhp m /\ tlsd m' = tlsd m /\ ctxs m' = ctxs m /\ nc m' = nc m /\ na m' = na m.
Proof.
  induction l as [|T l IH]; intros m Hnd Hl.
  - exists m. split; [done|]. repeat split. intros [[c' T]|n]; [|done]. rewrite decide_False; [done|]. intros [_ H]. by apply elem_of_nil in H.
  - apply NoDup_cons in Hnd as [HnT Hnd]. destruct (Hl T ltac:(constructor)) as [s Hs].
    cbn [map for_tup sty_activate]. unfold slot_activate. rewrite Hs. cbn [deref rbind].
    set (m1 := tls_write T (Some (inl (c, T))) (set_hp (<[inl (c, T) := ESlot (e_key s) (e_val s) (tls m !! T)]> (hp m)) m)).
    destruct (IH m1 Hnd) as (m' & E & H1 & H2 & H3 & H4 & H5 & H6 & H7).
    { intros T' HT'. subst m1. cbn. rewrite lookup_insert_ne; [apply Hl; by constructor|]. intros E. injection E as ->. done. }
    exists m'. split; [exact E|]. split; [|split; [|done]].
    + intros T'. rewrite H1. subst m1. cbn. destruct (decide (T' ∈ l)) as [Hx|Hx]; [by rewrite decide_True by by constructor|].
      destruct (decide (T' = T)) as [->|Hne]; [rewrite lookup_partial_alter; by rewrite decide_True by constructor|].
      rewrite lookup_partial_alter_ne by done. rewrite decide_False; [done|]. intros Hy. apply elem_of_cons in Hy as [?|?]; done.
    + intros a. rewrite H2. subst m1. cbn. destruct a as [[c' T']|n]; [|by rewrite lookup_insert_ne].
      destruct (decide (c' = c /\ T' ∈ l)) as [[-> Hx]|Hx].
      * rewrite decide_True by (split; [done|by constructor]). assert (T' <> T) by congruence.
        rewrite lookup_insert_ne by congruence. by rewrite lookup_partial_alter_ne.
      * destruct (decide (c' = c /\ T' = T)) as [[-> ->]|Hne].
        -- rewrite lookup_insert, decide_True by (split; [done|constructor]). by rewrite Hs.
        -- rewrite lookup_insert_ne by (intros E'; injection E' as -> ->; by apply Hne). rewrite decide_False; [done|].
           intros [-> Hy]. apply elem_of_cons in Hy as [->|?]; [by apply Hne|by apply Hx].
Qed.

Lemma tplace_types w w' T c : tw_types w' = tw_types w -> tplace w' T c = tplace w T c.
Proof. unfold tplace. by intros ->. Qed.
Lemma tplace_in w T c l : tw_types w c = Some l -> tplace w T c = bool_decide (T ∈ l).
Proof. unfold tplace. by intros ->. Qed.

Lemma act_ok G g w X t c l : I g w X -> tw_types w c = Some l -> tw_thread w c = None ->
  exists X', xstep G t (TAct c) X = Ok X' /\
    I g (TWorld (fun u => if decide (u = t) then c :: tw_open w t else tw_open w u)
           (fun c' => if decide (c' = c) then Some t else tw_thread w c') (tw_types w) (tw_obj w)
           (fun c' T => if decide (c' = c) then bool_decide (tinner w t T <> None) else tw_under w c' T) (tw_next w)) X'.
Proof.
  intros HI El Hth. pose proof (i_ctx _ _ _ HI c) as Hc. rewrite El in Hc. destruct Hc as (Hlt & Hnd & Hc).
  cbn [xstep]. unfold mact. cbn [ctxs view]. rewrite Hc. cbn [deref rbind k_act k_tup]. rewrite Hth.
  rewrite bool_decide_false by tauto. unfold assert. cbn [negb]. rewrite andb_false_r. cbn [rbind].
  assert (forall T, T ∈ l -> tplace w T c = true) as Hpl. { intros T HT. rewrite (tplace_in _ _ _ _ El). by apply bool_decide_eq_true. }
  destruct (act_list c l (view t X) Hnd) as (m' & E & H1 & H2 & H3 & H4 & H5 & H6 & H7).
  { intros T HT. cbn. destruct (i_cell _ _ _ HI c T (Hpl T HT)) as (sl & -> & _). done. }
  rewrite E. cbn [rbind fst snd]. eexists. split; [reflexivity|]. set (w' := TWorld _ _ _ _ _ _).
  assert (forall T c', tplace w' T c' = tplace w T c') as Hp by (intros; by apply tplace_types).
  assert (forall u, c ∉ tw_open w u) as Hno. { intros u Hu. apply (i_open _ _ _ HI) in Hu. congruence. }
  assert (forall c' T, tplace w T c' = true -> exists sl sl', x_hp X !! inl (c', T) = Some sl /\ hp m' !! inl (c', T) = Some sl' /\ e_key sl' = e_key sl /\ e_val sl' = e_val sl /\
    e_prev sl' = if decide (c' = c) then haddr w T (tw_open w t) else e_prev sl) as Hcell.
  { intros c' T HT. destruct (i_cell _ _ _ HI c' T HT) as (sl & S1 & S2 & S3). rewrite H2. cbn [hp view tls]. rewrite (i_tls _ _ _ HI). destruct (decide (c' = c)) as [->|Hne].
    - rewrite decide_True by (rewrite (tplace_in _ _ _ _ El) in HT; by apply bool_decide_eq_true in HT). rewrite S1. by eexists _, _.
    - rewrite decide_False by tauto. rewrite S1. by eexists _, _. }
  split; cbn.
  - rewrite H6. apply (i_next _ _ _ HI).
  - intros c'. rewrite H5. cbn [ctxs view]. destruct (decide (c' = c)) as [->|Hne].
    + rewrite El, lookup_insert. rewrite bool_decide_true by done. done.
    + rewrite lookup_insert_ne by done. apply (i_ctx _ _ _ HI).
  - intros c' T HT. rewrite Hp in HT. destruct (Hcell c' T HT) as (sl & sl' & S1 & S2 & S3 & S4 & S5). exists sl'. split; [done|].
    destruct (i_cell _ _ _ HI c' T HT) as (sl0 & Z1 & Z2 & Z3). assert (sl0 = sl) as -> by congruence. split.
    + unfold cellR in *. rewrite S3, S4. exact Z2.
    + rewrite S5. destruct (decide (c' = c)); [|done]. intros Hb. apply bool_decide_eq_false in Hb. unfold tinner in Hb. unfold haddr.
      destruct (find _ _); [|done]. exfalso. by apply Hb.
  - intros c' T HT. rewrite Hp in HT. by apply (i_nocell _ _ _ HI).
  - intros u T. unfold upd. destruct (decide (u = t)) as [->|Hu].
    + rewrite H1. cbn. rewrite (i_tls _ _ _ HI). rewrite (haddr_ext w' w) by (intros; apply Hp). unfold haddr. simpl. rewrite (tplace_in _ _ _ _ El).
      destruct (decide (T ∈ l)); [by rewrite bool_decide_true|by rewrite bool_decide_false].
    + rewrite (i_tls _ _ _ HI). symmetry. apply haddr_ext. intros. apply Hp.
  - intros u T pre c' l' sl' Ho HT Hsl. rewrite Hp in HT. rewrite (haddr_ext w' w) by (intros; apply Hp).
    destruct (Hcell c' T HT) as (sl & sl0 & S1 & S2 & S3 & S4 & S5). assert (sl0 = sl') as -> by congruence. rewrite S5.
    destruct (decide (c' = c)) as [->|Hne].
    + destruct (decide (u = t)) as [->|Hu].
      * destruct pre as [|p pre]; simpl in Ho; [by injection Ho as <-|]. injection Ho as <- Ho. exfalso. apply (Hno t). rewrite Ho. set_solver.
      * exfalso. apply (Hno u). rewrite Ho. set_solver.
    + destruct (decide (u = t)) as [->|Hu].
      * destruct pre as [|p pre]; simpl in Ho; [congruence|]. injection Ho as <- Ho. by apply (i_lnk _ _ _ HI t T pre c' l' sl).
      * by apply (i_lnk _ _ _ HI u T pre c' l' sl).
  - intros u c'. destruct (decide (u = t)) as [->|Hu].
    + rewrite elem_of_cons. destruct (decide (c' = c)) as [->|]; [by intuition|]. rewrite (i_open _ _ _ HI). intuition.
    + rewrite (i_open _ _ _ HI). destruct (decide (c' = c)) as [->|]; [|done]. rewrite Hth. split; [done|congruence].
  - intros u. destruct (decide (u = t)) as [->|Hu]; [|apply (i_nodup _ _ _ HI)]. constructor; [apply Hno|apply (i_nodup _ _ _ HI)].
  - intros u. unfold upd. destruct (decide (u = t)) as [->|]; [rewrite H4; cbn|]; apply (i_tlsd _ _ _ HI).
  - rewrite H3. apply (i_dhp _ _ _ HI).
  - intros c'. destruct (decide (c' = c)) as [->|Hne]; [by rewrite lookup_insert|]. rewrite lookup_insert_ne by done. apply (i_thr _ _ _ HI).
  - intros u. rewrite upd_same. apply (i_glob _ _ _ HI).
Qed.

(** ** deactivate *)
Lemma deact_list (c : cid) : forall l m, NoDup l -> (forall T, T ∈ l -> is_Some (hp m !! inl (c, T))) ->
  exists m', for_tup (sty_deactivate c) (map SE l) m = Ok m' /\
    (forall T, tls m' !! T = if decide (T ∈ l) then (hp m !! inl (c, T)) ≫= e_prev else tls m !! T) /\
    hp m' = hp m /\ dhp m' = dhp m /\ tlsd m' = tlsd m /\ ctxs m' = ctxs m /\ nc m' = nc m /\ na m' = na m.
Proof.
  induction l as [|T l IH]; intros m Hnd Hl.
  - exists m. split; [done|]. repeat split.
  - apply NoDup_cons in Hnd as [HnT Hnd]. destruct (Hl T ltac:(constructor)) as [s Hs].
    cbn [map for_tup sty_deactivate]. unfold slot_deactivate. rewrite Hs. cbn [deref rbind].
    destruct (IH (tls_write T (e_prev s) m) Hnd) as (m' & E & H1 & H2 & H3 & H4 & H5 & H6 & H7).
    { intros T' HT'. cbn. apply Hl. by constructor. }
    exists m'. split; [exact E|]. split; [|done].
    intros T'. rewrite H1. cbn. destruct (decide (T' ∈ l)) as [Hx|Hx]; [by rewrite decide_True by by constructor|].
    destruct (decide (T' = T)) as [->|Hne].
    + rewrite lookup_partial_alter. rewrite decide_True by constructor. by rewrite Hs.
    + rewrite lookup_partial_alter_ne by done. rewrite decide_False; [done|]. intros Hy. apply elem_of_cons in Hy as [?|?]; done.
Qed.
Lemma NoDup_rev' {A} (l : list A) : NoDup l -> NoDup (rev l).
Proof. intros H. apply NoDup_ListNoDup, NoDup_rev. by apply NoDup_ListNoDup. Qed.
Lemma in_rev' {A} (x : A) l : x ∈ rev l <-> x ∈ l.
Proof. by rewrite !elem_of_list_In, <- in_rev. Qed.

Lemma deact_ok G g w X t c l : I g w X -> tw_open w t = c :: l ->
  exists X', xstep G t (TDeact c) X = Ok X' /\
    I g (TWorld (fun u => if decide (u = t) then l else tw_open w u)
           (fun c' => if decide (c' = c) then None else tw_thread w c') (tw_types w) (tw_obj w) (tw_under w) (tw_next w)) X'.
Proof.
  intros HI Eo. assert (tw_thread w c = Some t) as Hth. { apply (i_open _ _ _ HI). rewrite Eo. constructor. }
  pose proof (i_ctx _ _ _ HI c) as Hc. destruct (tw_types w c) as [lt|] eqn:El; [|destruct Hc; congruence]. destruct Hc as (Hlt & Hnd & Hc).
  cbn [xstep]. rewrite (i_thr _ _ _ HI), Hth. unfold assert. rewrite bool_decide_true by done. cbn [negb]. rewrite andb_false_r. cbn [rbind].
  unfold mdeact. cbn [ctxs view]. rewrite Hc. cbn [deref rbind k_act k_tup]. rewrite Hth.
  rewrite bool_decide_true by done. unfold assert. cbn [negb]. rewrite andb_false_r. cbn [rbind].
  assert (forall T, T ∈ lt -> tplace w T c = true) as Hpl. { intros T HT. rewrite (tplace_in _ _ _ _ El). by apply bool_decide_eq_true. }
  rewrite <- map_rev. destruct (deact_list c (rev lt) (view t X)) as (m' & E & H1 & H2 & H3 & H4 & H5 & H6 & H7).
  { by apply NoDup_rev'. }
  { intros T HT. apply (proj1 (in_rev' _ _)) in HT. cbn. destruct (i_cell _ _ _ HI c T (Hpl T HT)) as (sl & -> & _). done. }
  rewrite E. cbn [rbind fst snd]. eexists. split; [reflexivity|]. set (w' := TWorld _ _ _ _ _ _).
  assert (forall T c', tplace w' T c' = tplace w T c') as Hp by (intros; by apply tplace_types).
  assert (c ∉ l) as Hnl. { pose proof (i_nodup _ _ _ HI t) as Hn. rewrite Eo in Hn. by apply NoDup_cons in Hn as [? _]. }
  split; cbn.
  - rewrite H6. apply (i_next _ _ _ HI).
  - intros c'. rewrite H5. cbn [ctxs view]. destruct (decide (c' = c)) as [->|Hne].
    + rewrite El, lookup_insert. rewrite bool_decide_false by tauto. done.
    + rewrite lookup_insert_ne by done. apply (i_ctx _ _ _ HI).
  - intros c' T HT. rewrite Hp in HT. rewrite H2. by apply (i_cell _ _ _ HI).
  - intros c' T HT. rewrite Hp in HT. by apply (i_nocell _ _ _ HI).
  - intros u T. unfold upd. destruct (decide (u = t)) as [->|Hu].
    + rewrite H1. cbn. rewrite (haddr_ext w' w) by (intros; apply Hp). destruct (decide (T ∈ rev lt)) as [HT|HT].
      * apply (proj1 (in_rev' _ _)) in HT. destruct (i_cell _ _ _ HI c T (Hpl T HT)) as (sl & S1 & _). rewrite S1. simpl. by apply (i_lnk _ _ _ HI t T [] c l sl); [|apply Hpl|].
      * rewrite (i_tls _ _ _ HI), Eo. unfold haddr. simpl. rewrite (tplace_in _ _ _ _ El), bool_decide_false; [done|]. by rewrite <- in_rev'.
    + rewrite (i_tls _ _ _ HI). symmetry. apply haddr_ext. intros. apply Hp.
  - intros u T pre c' l' sl' Ho HT Hsl. rewrite Hp in HT. rewrite (haddr_ext w' w) by (intros; apply Hp). rewrite H2 in Hsl. cbn in Hsl.
    destruct (decide (u = t)) as [->|Hu].
    + apply (i_lnk _ _ _ HI t T (c :: pre) c' l' sl'); [|done..]. rewrite Eo, Ho. done.
    + by apply (i_lnk _ _ _ HI u T pre c' l' sl').
  - intros u c'. destruct (decide (u = t)) as [->|Hu].
    + destruct (decide (c' = c)) as [->|Hne]; [by split|]. rewrite <- (i_open _ _ _ HI), Eo, elem_of_cons. intuition.
    + rewrite (i_open _ _ _ HI). destruct (decide (c' = c)) as [->|]; [|done]. split; [congruence|done].
  - intros u. destruct (decide (u = t)) as [->|Hu]; [|apply (i_nodup _ _ _ HI)]. pose proof (i_nodup _ _ _ HI t) as Hn. rewrite Eo in Hn. by apply NoDup_cons in Hn as [_ ?].
  - intros u. unfold upd. destruct (decide (u = t)) as [->|]; [rewrite H4; cbn|]; apply (i_tlsd _ _ _ HI).
  - rewrite H3. apply (i_dhp _ _ _ HI).
  - intros c'. destruct (decide (c' = c)) as [->|Hne]; [by rewrite lookup_delete|]. rewrite lookup_delete_ne by done. apply (i_thr _ _ _ HI).
  - intros u. rewrite upd_same. apply (i_glob _ _ _ HI).
Qed.

(** ** construction, destruction, move construction *)
Lemma free_list G (c : cid) : forall l m, NoDup l -> (forall T, T ∈ l -> is_Some (hp m !! inl (c, T)) /\ tls m !! T <> Some (inl (c, T))) ->
  exists m', for_tup (sty_free G c) (map SE l) m = Ok m' /\
    (forall a, hp m' !! a = match a with inl (c', T) => if decide (c' = c /\ T ∈ l) then None else hp m !! a | inr _ => hp m !! a end) /\
    tls m' = tls m /\ dhp m' = dhp m /\ tlsd m' = tlsd m /\ ctxs m' = ctxs m /\ nc m' = nc m /\ na m' = na m.
Proof.
  induction l as [|T l IH]; intros m Hnd Hl.
  - exists m. split; [done|]. split; [|done]. intros [[c' T]|n]; [|done]. rewrite decide_False; [done|]. intros [_ H]. by apply elem_of_nil in H.
  - apply NoDup_cons in Hnd as [HnT Hnd]. destruct (Hl T ltac:(constructor)) as [[s Hs] Ht].
    cbn [map for_tup sty_free]. unfold slot_free. rewrite Hs. cbn [deref rbind]. rewrite bool_decide_true by done. unfold assert. cbn [negb]. rewrite andb_false_r. cbn [rbind].
    destruct (IH (set_hp (delete (inl (c, T)) (hp m)) m) Hnd) as (m' & E & H1 & H2).
    { intros T' HT'. cbn. rewrite lookup_delete_ne; [apply Hl; by constructor|]. intros E. injection E as ->. done. }
    exists m'. split; [exact E|]. split; [|exact H2]. intros a. rewrite H1. cbn. destruct a as [[c' T']|n]; [|by rewrite lookup_delete_ne].
    destruct (decide (c' = c /\ T' ∈ l)) as [[-> Hx]|Hx].
    + by rewrite decide_True by (split; [done|by constructor]).
    + destruct (decide (c' = c /\ T' = T)) as [[-> ->]|Hne].
      * rewrite lookup_delete, decide_True by (split; [done|constructor]). done.
      * rewrite lookup_delete_ne by (intros E'; injection E' as -> ->; by apply Hne). rewrite decide_False; [done|].
        intros [-> Hy]. apply elem_of_cons in Hy as [->|?]; [by apply Hne|by apply Hx].
Qed.

Lemma destroy_ok G g w X t c l : I g w X -> tw_types w c = Some l -> tw_thread w c = None ->
  exists X', xstep G t (TDestroy c) X = Ok X' /\
    I g (TWorld (tw_open w) (tw_thread w) (fun c' => if decide (c' = c) then None else tw_types w c')
           (fun c' T => if decide (c' = c) then None else tw_obj w c' T) (tw_under w) (tw_next w)) X'.
Proof.
  intros HI El Hth. pose proof (i_ctx _ _ _ HI c) as Hc. rewrite El in Hc. destruct Hc as (Hlt & Hnd & Hc).
  cbn [xstep]. unfold mdestroy. cbn [ctxs view]. rewrite Hc. cbn [deref rbind k_act k_tup]. rewrite Hth.
  rewrite bool_decide_false by tauto. unfold assert. cbn [negb]. rewrite andb_false_r. cbn [rbind].
  assert (forall T, T ∈ l -> tplace w T c = true) as Hpl. { intros T HT. rewrite (tplace_in _ _ _ _ El). by apply bool_decide_eq_true. }
  assert (forall u, c ∉ tw_open w u) as Hno. { intros u Hu. apply (i_open _ _ _ HI) in Hu. congruence. }
  rewrite <- map_rev. destruct (free_list G c (rev l) (view t X)) as (m' & E & H1 & H2 & H3 & H4 & H5 & H6 & H7).
  { by apply NoDup_rev'. }
  { intros T HT. apply (proj1 (in_rev' _ _)) in HT. cbn. destruct (i_cell _ _ _ HI c T (Hpl T HT)) as (sl & -> & _). split; [done|].
    rewrite (i_tls _ _ _ HI). intros Ha. apply haddr_in in Ha as (d & Ed & Hin & _). injection Ed as <-. by apply (Hno t). }
  rewrite E. cbn [rbind fst snd]. eexists. split; [reflexivity|]. set (w' := TWorld _ _ _ _ _ _).
  assert (forall T c', tplace w' T c' = if decide (c' = c) then false else tplace w T c') as Hp.
  { intros. unfold tplace, w'. simpl. by destruct (decide (c' = c)). }
  assert (forall T u l', (forall x, x ∈ l' -> x ∈ tw_open w u) -> haddr w' T l' = haddr w T l') as Hh.
  { intros T u l' Hl'. apply haddr_ext. intros c' Hc'. rewrite Hp. rewrite decide_False; [done|]. intros ->. by apply (Hno u), Hl'. }
  assert (forall c' T, c' <> c -> hp m' !! inl (c', T) = x_hp X !! inl (c', T)) as Hhp.
  { intros c' T Hne. rewrite H1. rewrite decide_False by tauto. done. }
  split; cbn.
  - rewrite H6. apply (i_next _ _ _ HI).
  - intros c'. rewrite H5. cbn [ctxs view]. destruct (decide (c' = c)) as [->|Hne]; [by rewrite lookup_delete|].
    rewrite lookup_delete_ne by done. apply (i_ctx _ _ _ HI).
  - intros c' T HT. rewrite Hp in HT. destruct (decide (c' = c)) as [->|Hne]; [done|]. rewrite Hhp by done. by apply (i_cell _ _ _ HI).
  - intros c' T HT. rewrite Hp in HT. destruct (decide (c' = c)) as [->|Hne]; [done|]. by apply (i_nocell _ _ _ HI).
  - intros u T. rewrite H2. cbn. rewrite upd_same. rewrite (i_tls _ _ _ HI). symmetry. by apply (Hh T u).
  - intros u T pre c' l' sl' Ho HT Hsl. rewrite Hp in HT. destruct (decide (c' = c)) as [->|Hne]; [done|]. rewrite Hhp in Hsl by done.
    rewrite (Hh T u) by (rewrite Ho; set_solver). by apply (i_lnk _ _ _ HI u T pre c' l' sl').
  - apply (i_open _ _ _ HI).
  - apply (i_nodup _ _ _ HI).
  - intros u. rewrite H4. cbn. rewrite upd_same. apply (i_tlsd _ _ _ HI).
  - rewrite H3. apply (i_dhp _ _ _ HI).
  - apply (i_thr _ _ _ HI).
  - intros u. rewrite upd_same. apply (i_glob _ _ _ HI).
Qed.

Lemma new_list G (c : cid) : forall l m,
  (forall a, hp (new_slots G c (map SE l) m) !! a =
     match a with inl (c', T) => if decide (c' = c /\ T ∈ l) then Some (ESlot 0 (g_def G T) None) else hp m !! a | inr _ => hp m !! a end) /\
  tls (new_slots G c (map SE l) m) = tls m /\ dhp (new_slots G c (map SE l) m) = dhp m /\ tlsd (new_slots G c (map SE l) m) = tlsd m /\
  ctxs (new_slots G c (map SE l) m) = ctxs m.
Proof.
  induction l as [|T l IH]; intros m.
  - split; [|done]. intros [[c' T]|n]; [|done]. rewrite decide_False; [done|]. intros [_ H]. by apply elem_of_nil in H.
  - cbn [map new_slots]. destruct (IH (set_hp (<[inl (c, T) := ESlot 0 (g_def G T) None]> (hp m)) m)) as (H1 & H2 & H3 & H4 & H5).
    rewrite H2, H3, H4, H5. split; [|done]. intros a. rewrite H1. cbn. destruct a as [[c' T']|n]; [|by rewrite lookup_insert_ne].
    destruct (decide (c' = c /\ T' ∈ l)) as [[-> Hx]|Hx].
    + by rewrite decide_True by (split; [done|by constructor]).
    + destruct (decide (c' = c /\ T' = T)) as [[-> ->]|Hne].
      * rewrite lookup_insert, decide_True by (split; [done|constructor]). done.
      * rewrite lookup_insert_ne by (intros E'; injection E' as -> ->; by apply Hne). rewrite decide_False; [done|].
        intros [-> Hy]. apply elem_of_cons in Hy as [->|?]; [by apply Hne|by apply Hx].
Qed.

(** a new context, with given contents, and other contents changed *)
Lemma I_new g w X l f X' :
  I g w X -> NoDup l ->
  x_nc X' = S (x_nc X) -> x_ctxs X' = <[tw_next w := CCtx (map SE l) false]> (x_ctxs X) -> x_dhp X' = x_dhp X -> x_thr X' = x_thr X ->
  (forall t, x_tls X' t = x_tls X t) -> (forall t, x_tlsd X' t = x_tlsd X t) -> (forall t, x_glob X' t = x_glob X t) ->
  (forall c T sl, tplace w T c = true -> x_hp X !! inl (c, T) = Some sl -> cellR sl (tw_obj w c T) ->
     exists sl', x_hp X' !! inl (c, T) = Some sl' /\ e_prev sl' = e_prev sl /\ cellR sl' (f c T)) ->
  (forall c T, tplace w T c = false -> c <> tw_next w -> f c T = None) ->
  (forall T, T ∈ l -> exists sl', x_hp X' !! inl (tw_next w, T) = Some sl' /\ e_prev sl' = None /\ cellR sl' (f (tw_next w) T)) ->
  (forall T, T ∉ l -> f (tw_next w) T = None) ->
  I g (TWorld (tw_open w) (tw_thread w) (fun c => if decide (c = tw_next w) then Some l else tw_types w c) f
         (fun c T => if decide (c = tw_next w) then false else tw_under w c T) (S (tw_next w))) X'.
Proof.
  intros HI Hnd E1 E2 E3 E4 E5 E6 E7 Hc Hn Hnew Hnew0. set (w' := TWorld _ _ _ _ _ _).
  assert (forall c, is_Some (tw_types w c) -> c <> tw_next w) as Hlt.
  { intros c [lc Hl] ->. pose proof (i_ctx _ _ _ HI (tw_next w)) as H. rewrite Hl in H. lia. }
  assert (tw_types w (tw_next w) = None) as Hnone. { destruct (tw_types w (tw_next w)) eqn:E; [|done]. exfalso. by apply (Hlt (tw_next w)). }
  assert (forall c u, c ∈ tw_open w u -> c <> tw_next w) as Hop.
  { intros c u Hu. apply Hlt. apply (i_open _ _ _ HI) in Hu. pose proof (i_ctx _ _ _ HI c) as H. destruct (tw_types w c); [done|]. destruct H. congruence. }
  assert (forall T c, tplace w' T c = if decide (c = tw_next w) then bool_decide (T ∈ l) else tplace w T c) as Hp.
  { intros. unfold tplace, w'. simpl. by destruct (decide (c = tw_next w)). }
  assert (forall T u l', (forall x, x ∈ l' -> x ∈ tw_open w u) -> haddr w' T l' = haddr w T l') as Hh.
  { intros T u l' Hl'. apply haddr_ext. intros c' Hc'. rewrite Hp. rewrite decide_False; [done|]. by eapply Hop, Hl'. }
  split; cbn.
  - rewrite E1. by rewrite (i_next _ _ _ HI).
  - intros c. rewrite E2. pose proof (i_ctx _ _ _ HI c) as H. destruct (decide (c = tw_next w)) as [->|Hne].
    + rewrite lookup_insert. rewrite Hnone in H. destruct H as [_ ->]. split; [lia|]. done.
    + rewrite lookup_insert_ne by done. destruct (tw_types w c); [|done]. destruct H as (? & ? & ?). split; [lia|done].
  - intros c T HT. rewrite Hp in HT. destruct (decide (c = tw_next w)) as [->|Hne].
    + apply bool_decide_eq_true in HT. destruct (Hnew T HT) as (sl & S1 & S2 & S3). by exists sl.
    + destruct (i_cell _ _ _ HI c T HT) as (sl & H1 & H2 & H3). destruct (Hc c T sl HT H1 H2) as (sl' & H4 & H5 & H6).
      exists sl'. split; [done|]. split; [done|]. rewrite H5. done.
  - intros c T HT. rewrite Hp in HT. destruct (decide (c = tw_next w)) as [->|Hne].
    + apply bool_decide_eq_false in HT. by apply Hnew0.
    + by apply Hn.
  - intros t T. rewrite E5, (i_tls _ _ _ HI). symmetry. by apply (Hh T t).
  - intros t T pre c l' sl Ho HT Hs. assert (c <> tw_next w) as Hne by (apply (Hop c t); rewrite Ho; set_solver). rewrite Hp, decide_False in HT by done.
    destruct (i_cell _ _ _ HI c T HT) as (sl0 & H1 & H2 & _). destruct (Hc c T sl0 HT H1 H2) as (sl' & H4 & H5 & H6).
    assert (sl' = sl) as -> by congruence. rewrite H5. rewrite (Hh T t) by (rewrite Ho; set_solver). by apply (i_lnk _ _ _ HI t T pre c l' sl0).
  - apply (i_open _ _ _ HI).
  - apply (i_nodup _ _ _ HI).
  - intros t. rewrite E6. apply (i_tlsd _ _ _ HI).
  - rewrite E3. apply (i_dhp _ _ _ HI).
  - intros c. rewrite E4. apply (i_thr _ _ _ HI).
  - intros t. rewrite E7. apply (i_glob _ _ _ HI).
Qed.
Lemma next_empty g w X T : I g w X -> tplace w T (tw_next w) = false.
Proof. intros HI. unfold tplace. pose proof (i_ctx _ _ _ HI (tw_next w)) as H. destruct (tw_types w (tw_next w)); [lia|done]. Qed.

Lemma new_ok G g w X t l : I g w X -> NoDup l ->
  exists X', xstep G t (TNew l) X = Ok X' /\
    I g (TWorld (tw_open w) (tw_thread w) (fun c => if decide (c = tw_next w) then Some l else tw_types w c) (tw_obj w)
               (fun c T => if decide (c = tw_next w) then false else tw_under w c T) (S (tw_next w))) X'.
Proof.
  intros HI Hnd. cbn [xstep]. eexists. split; [reflexivity|]. cbn [mnew snd]. pose proof (i_next _ _ _ HI) as En.
  destruct (new_list G (x_nc X) l (view t X)) as (H1 & H2 & H3 & H4 & H5).
  apply I_new with (X := X); try done; cbn.
  - by rewrite En.
  - intros u. rewrite H2. apply (upd_same t (x_tls X)).
  - intros u. rewrite H4. apply (upd_same t (x_tlsd X)).
  - intros u. apply upd_same.
  - intros c T sl HT Hsl Hc. exists sl. split; [|done]. rewrite H1. rewrite decide_False; [done|]. intros [-> _].
    rewrite En in HT. rewrite (next_empty _ _ _ _ HI) in HT. done.
  - intros c T HT _. by apply (i_nocell _ _ _ HI).
  - intros T HT. setoid_rewrite H1. rewrite decide_True by done. eexists. split; [done|]. split; [done|].
    rewrite (i_nocell _ _ _ HI); [done|]. by eapply next_empty.
  - intros T HT. apply (i_nocell _ _ _ HI). by eapply next_empty.
Qed.

Lemma move_list G (c c' : cid) : c <> c' -> forall l m, NoDup l ->
  (forall T, T ∈ l -> exists s, hp m !! inl (c, T) = Some s /\ (g_asserts G = true -> e_prev s = None)) ->
  exists m', for_tup (sty_move G c c') (map SE l) m = Ok m' /\
    (forall a, hp m' !! a = match a with
       | inl (d, T) => if decide (d = c /\ T ∈ l) then (fun s => ESlot 0 (e_val s) (e_prev s)) <$> hp m !! a
                       else if decide (d = c' /\ T ∈ l) then (fun s => ESlot (e_key s) (e_val s) None) <$> hp m !! inl (c, T)
                       else hp m !! a
       | inr _ => hp m !! a end) /\
    tls m' = tls m /\ dhp m' = dhp m /\ tlsd m' = tlsd m /\ ctxs m' = ctxs m /\ nc m' = nc m /\ na m' = na m.
Proof.
  intros Hcc. induction l as [|T l IH]; intros m Hnd Hl.
  - exists m. split; [done|]. split; [|done]. intros [[d T]|n]; [|done]. rewrite !decide_False; [done|..]; intros [_ H]; by apply elem_of_nil in H.
  - apply NoDup_cons in Hnd as [HnT Hnd]. destruct (Hl T ltac:(constructor)) as (s & Hs & Hp).
    cbn [map for_tup sty_move]. rewrite Hs. cbn [deref rbind]. unfold assert.
    assert (g_asserts G && negb (bool_decide (e_prev s = None)) = false) as ->.
    { destruct (g_asserts G); [|done]. rewrite bool_decide_true by by apply Hp. done. }
    cbn [rbind]. set (m1 := set_hp _ m). destruct (IH m1 Hnd) as (m' & E & H1 & H2).
    { intros T' HT'. assert (T' <> T) by congruence. subst m1. cbn. rewrite !lookup_insert_ne by congruence. apply Hl. by constructor. }
    exists m'. split; [exact E|]. split; [|exact H2]. intros a. rewrite H1. subst m1. cbn. destruct a as [[d T']|n]; [|by rewrite !lookup_insert_ne].
    destruct (decide (T' = T)) as [->|HT].
    + rewrite !(decide_False (P := d = _ /\ T ∈ l)) by tauto. destruct (decide (d = c)) as [->|Hd].
      * rewrite lookup_insert. rewrite decide_True by (split; [done|constructor]). by rewrite Hs.
      * rewrite lookup_insert_ne by congruence. rewrite (decide_False (P := d = c /\ _)) by tauto. destruct (decide (d = c')) as [->|Hd'].
        -- rewrite lookup_insert. rewrite decide_True by (split; [done|constructor]). by rewrite Hs.
        -- rewrite lookup_insert_ne by congruence. by rewrite decide_False by tauto.
    + rewrite !lookup_insert_ne by congruence. assert (T' ∈ T :: l <-> T' ∈ l) as Hx by (rewrite elem_of_cons; tauto).
      destruct (decide (d = c /\ T' ∈ l)) as [[-> Hy]|Hy].
      * by rewrite decide_True by tauto.
      * rewrite (decide_False (P := d = c /\ _)) by tauto. destruct (decide (d = c' /\ T' ∈ l)) as [[-> Hz]|Hz]; [by rewrite decide_True by tauto|by rewrite decide_False by tauto].
Qed.

Lemma move_ok G g w X t c l : I g w X -> tw_types w c = Some l -> tw_thread w c = None ->
  g_asserts G && existsb (tw_under w c) l = false ->
  exists X', xstep G t (TMove c) X = Ok X' /\
    I g (TWorld (tw_open w) (tw_thread w) (fun c' => if decide (c' = tw_next w) then Some l else tw_types w c')
                      (fun c' T => if decide (c' = tw_next w) then tw_obj w c T else if decide (c' = c) then None else tw_obj w c' T)
                      (fun c' T => if decide (c' = tw_next w) then false else tw_under w c' T) (S (tw_next w))) X'.
Proof.
  intros HI El Hth Ha. pose proof (i_ctx _ _ _ HI c) as Hc. rewrite El in Hc. destruct Hc as (Hlt & Hnd & Hc). pose proof (i_next _ _ _ HI) as En.
  cbn [xstep]. unfold mmove. cbn [ctxs view nc]. rewrite Hc. cbn [deref rbind k_act k_tup]. rewrite Hth.
  assert (forall T, T ∈ l -> tplace w T c = true) as Hpl. { intros T HT. rewrite (tplace_in _ _ _ _ El). by apply bool_decide_eq_true. }
  assert (c <> x_nc X) as Hne by (rewrite En; lia).
  destruct (move_list G c (x_nc X) Hne l (view t X) Hnd) as (m' & E & H1 & H2 & H3 & H4 & H5 & H6 & H7).
  { intros T HT. cbn. destruct (i_cell _ _ _ HI c T (Hpl T HT)) as (sl & S1 & S2 & S3). exists sl. split; [done|]. intros Hg. apply S3.
    rewrite Hg in Ha. simpl in Ha. destruct (tw_under w c T) eqn:Eu; [|done]. exfalso. rewrite (proj2 (existsb_exists _ _)) in Ha; [done|].
    exists T. split; [by apply elem_of_list_In|done]. }
  rewrite E. cbn [rbind fst snd]. rewrite bool_decide_false by tauto. unfold assert. cbn [negb]. rewrite andb_false_r. cbn [rbind fst snd].
  eexists. split; [reflexivity|]. apply I_new with (X := X); try done; cbn.
  - by rewrite H5, En.
  - intros u. rewrite H2. apply (upd_same t (x_tls X)).
  - intros u. rewrite H4. apply (upd_same t (x_tlsd X)).
  - intros u. apply upd_same.
  - intros d T sl HT Hsl Hcl. assert (d <> tw_next w) as Hd. { intros ->. rewrite (next_empty _ _ _ _ HI) in HT. done. }
    rewrite (decide_False (P := d = tw_next w)) by done. rewrite H1. destruct (decide (d = c)) as [->|Hdc].
    + rewrite decide_True by (rewrite (tplace_in _ _ _ _ El) in HT; by apply bool_decide_eq_true in HT). cbn. rewrite Hsl. by eexists.
    + rewrite decide_False by tauto. rewrite decide_False by (rewrite En; tauto). by exists sl.
  - intros d T HT Hd. rewrite decide_False by done. destruct (decide (d = c)); [done|]. by apply (i_nocell _ _ _ HI).
  - intros T HT. rewrite decide_True by done. setoid_rewrite H1. rewrite decide_False by (intros [? _]; congruence). rewrite decide_True by done.
    cbn. destruct (i_cell _ _ _ HI c T (Hpl T HT)) as (sl & S1 & S2 & S3). rewrite S1. by eexists.
  - intros T HT. rewrite decide_True by done. apply (i_nocell _ _ _ HI). rewrite (tplace_in _ _ _ _ El). by apply bool_decide_eq_false.
Qed.

Lemma tstep_ok G g w X t o w' : I g w X -> tstep (g_asserts G) (g_capture G) t o w = Some w' -> exists X', xstep G t o X = Ok X' /\ I g w' X'.
Proof.
  intros HI. destruct o as [l|c|c|c|c id|id T v|c]; cbn [tstep].
  - destruct (decide (NoDup l)); [|done]. intros [= <-]. by apply new_ok.
  - destruct (tw_types w c) as [l|] eqn:El; [|done]. destruct (tw_thread w c) eqn:Et; [done|]. destruct (_ && _) eqn:Ea; [done|]. intros [= <-]. by apply move_ok.
  - destruct (tw_types w c) as [l|] eqn:El; [|done]. destruct (tw_thread w c) eqn:Et; [done|]. intros [= <-]. by eapply act_ok.
  - destruct (tw_open w t) as [|c' l] eqn:Eo; [done|]. destruct (decide (c = c')) as [<-|]; [|done]. intros [= <-]. by apply deact_ok.
  - destruct (tw_types w c) as [l|] eqn:El; [|done]. destruct (tw_thread w c) eqn:Et; [done|]. destruct (decide (id <> 0)); [|done]. intros [= <-]. by eapply unload_ok.
  - destruct (decide (id <> 0)); [|done]. intros [= <-]. by apply load_ok.
  - destruct (tw_types w c) as [l|] eqn:El; [|done]. destruct (tw_thread w c) eqn:Et; [done|]. intros [= <-]. by eapply destroy_ok.
Qed.

Lemma caddr_place g w X t c T : I g w X -> caddr (view t X) c T = if tplace w T c then Some (inl (c, T)) else None.
Proof.
  intros HI. unfold caddr, tplace. cbn. pose proof (i_ctx _ _ _ HI c) as H. destruct (tw_types w c) as [l|].
  - destruct H as (_ & _ & ->). cbn. rewrite (i_dhp _ _ _ HI). rewrite lookup_empty. 
    rewrite (bool_decide_ext (SE T ∈ map SE l) (T ∈ l)). { by destruct (bool_decide (T ∈ l)). }
    rewrite !elem_of_list_In, in_map_iff. split; [|eauto]. intros (T' & E & Hx). by injection E as ->.
  - by destruct H as [-> _].
Qed.

Lemma I_agrees g w X : I g w X -> tagrees w X.
Proof.
  intros HI. split; [|split].
  - intros t c. unfold active. cbn. pose proof (i_ctx _ _ _ HI c) as H. destruct (tw_types w c) as [l|].
    + destruct H as (_ & _ & ->). split.
      * intros (k & E & Hk). injection E as <-. by apply bool_decide_eq_true in Hk.
      * intros Hx. eexists. split; [done|]. by apply bool_decide_eq_true.
    + destruct H as [-> ->]. split; [by intros (? & ? & _)|done].
  - intros t c T. unfold held. rewrite (caddr_place _ _ _ _ _ _ HI). destruct (tplace w T c) eqn:HT.
    + destruct (i_cell _ _ _ HI c T HT) as (sl & S1 & S2 & _). cbn. rewrite S1. unfold cellR in S2. destruct (tw_obj w c T) as [[k v]|].
      * destruct S2 as (Hk & -> & ->). by rewrite (proj2 (Z.eqb_neq _ _) Hk).
      * by rewrite S2.
    + by rewrite (i_nocell _ _ _ HI).
  - intros t c T. unfold serves, tinner. cbn. rewrite (caddr_place _ _ _ _ _ _ HI). rewrite (i_tls _ _ _ HI). unfold haddr. split.
    + intros (ad & H1 & H2). destruct (tplace w T c); [|done]. injection H2 as <-. destruct (find _ _) as [d|]; [|done]. simpl in H1. by injection H1 as <-.
    + intros Hf. rewrite Hf. simpl. pose proof (find_some_in _ _ _ Hf) as [_ ->]. by eexists.
Qed.

Lemma I0 g : I g tworld0 (shared0 g).
Proof.
  split; try done.
  - intros t c. simpl. split; [|done]. intros H. by apply elem_of_nil in H.
  - intros t. constructor.
Qed.

Lemma trun_ok G l w g : trun (g_asserts G) (g_capture G) l tworld0 = Some w -> exists X, xrun G l (shared0 g) = Ok X /\ I g w X.
Proof.
  generalize (I0 g). generalize tworld0 (shared0 g). induction l as [|[t o] l IH]; intros w0 X0 HI.
  - intros [= <-]. by exists X0.
  - cbn [trun xrun]. destruct (tstep _ _ t o w0) as [w1|] eqn:E; [|done]. destruct (tstep_ok _ _ _ _ _ _ _ HI E) as (X1 & -> & HI1). cbn [rbind]. by apply IH.
Qed.

Lemma tstep_other a b g w X t o w' u : I g w X -> tstep a b t o w = Some w' -> u <> t ->
  tw_open w' u = tw_open w u /\
  (forall c, tw_thread w c = Some u -> tw_thread w' c = Some u /\ tw_types w' c = tw_types w c /\ forall T, tw_obj w' c T = tw_obj w c T).
Proof.
  intros HI Hs Hu.
  assert (forall c, tw_thread w c = Some u -> c <> tw_next w) as Hnx.
  { intros c Hc ->. pose proof (i_ctx _ _ _ HI (tw_next w)) as H. destruct (tw_types w (tw_next w)); [lia|]. destruct H. congruence. }
  assert (forall T d, tinner w t T = Some d -> tw_thread w d = Some t) as Hin.
  { intros T d Hd. apply find_some_in in Hd as [Hd _]. by apply (i_open _ _ _ HI). }
  assert (forall c d, tw_thread w c = None -> tw_thread w d = Some u -> d <> c) as Hd by congruence.
  destruct o as [l|c|c|c|c id|id T v|c]; cbn [tstep] in Hs.
  - destruct (decide (NoDup l)); [|done]. injection Hs as <-. simpl. split; [done|]. intros c Hc. by rewrite decide_False by by apply Hnx.
  - destruct (tw_types w c) as [l|] eqn:El; [|done]. destruct (tw_thread w c) eqn:Et; [done|]. destruct (_ && _); [done|]. injection Hs as <-. simpl.
    split; [done|]. intros d Hc. rewrite decide_False by by apply Hnx. split; [done|]. split; [done|]. intros T. rewrite decide_False by by apply Hnx.
    by rewrite decide_False by by eapply Hd.
  - destruct (tw_types w c) as [l|] eqn:El; [|done]. destruct (tw_thread w c) eqn:Et; [done|]. injection Hs as <-. simpl. rewrite decide_False by done.
    split; [done|]. intros d Hc. by rewrite decide_False by by eapply Hd.
  - destruct (tw_open w t) as [|c' l] eqn:Eo; [done|]. destruct (decide (c = c')) as [<-|]; [|done]. injection Hs as <-. simpl. rewrite decide_False by done.
    split; [done|]. intros d Hc. rewrite decide_False; [done|]. intros ->. assert (tw_thread w c = Some t) by (apply (i_open _ _ _ HI); rewrite Eo; constructor).
    congruence.
  - destruct (tw_types w c) as [l|] eqn:El; [|done]. destruct (tw_thread w c) eqn:Et; [done|]. destruct (decide (id <> 0)); [|done]. injection Hs as <-. simpl.
    split; [done|]. intros d Hc. split; [done|]. split; [done|]. intros T. unfold tunloaded. destruct (sees id (tw_obj w c T)); [|done].
    destruct (tinner w t T) as [e|] eqn:Ee.
    + destruct (sees id (tw_obj w e T)); [done|]. apply Hin in Ee. rewrite decide_False by congruence. by rewrite decide_False by by eapply Hd.
    + rewrite bool_decide_false by by eapply Hd. by rewrite andb_false_r.
  - destruct (decide (id <> 0)); [|done]. injection Hs as <-. simpl. split; [done|]. intros d Hc. split; [done|]. split; [done|]. intros T'.
    rewrite decide_False; [done|]. intros [_ E]. apply Hin in E. congruence.
  - destruct (tw_types w c) as [l|] eqn:El; [|done]. destruct (tw_thread w c) eqn:Et; [done|]. injection Hs as <-. simpl. split; [done|].
    intros d Hc. assert (d <> c) by by eapply Hd. split; [done|]. split; [by rewrite decide_False|]. intros T. by rewrite decide_False.
Qed.

(** Any number of threads, each using any contexts, in any interleaving: what they do has exactly the effects of the specification. No assertion
    fails, no destroyed object is touched, no thread's current error is changed. *)
Theorem C51_contexts_of_threads_partial :
  forall G l w g, trun (g_asserts G) (g_capture G) l tworld0 = Some w ->
    exists X, xrun G l (shared0 g) = Ok X /\ tagrees w X /\ forall t, x_glob X t = g t.
Proof.
  intros G l w g Hw. destruct (trun_ok _ _ _ g Hw) as (X & E & HI). exists X. split; [done|]. split; [by eapply I_agrees|]. apply (i_glob _ _ _ HI).
Qed.
Print Assumptions C51_contexts_of_threads_partial.

(** A thread does not disturb the others: whatever thread t does next, where the loads of every other thread go stays as it is, and so does
    everything in the contexts that are active in other threads. *)
Theorem C51_other_threads :
  forall G l w g t o w', trun (g_asserts G) (g_capture G) l tworld0 = Some w -> tstep (g_asserts G) (g_capture G) t o w = Some w' ->
    exists X X', xrun G l (shared0 g) = Ok X /\ xstep G t o X = Ok X' /\
      forall u, u <> t ->
        (forall c T, serves (view u X') T c <-> serves (view u X) T c) /\
        (forall c, active (view u X) c -> x_thr X !! c = Some u ->
           active (view u X') c /\ x_thr X' !! c = Some u /\ forall T, held (view u X') c T = held (view u X) c T).
Proof.
  intros G l w g t o w' Hw Hs. destruct (trun_ok _ _ _ g Hw) as (X & E & HI). destruct (tstep_ok _ _ _ _ _ _ _ HI Hs) as (X' & E' & HI').
  exists X, X'. split; [done|]. split; [done|]. intros u Hu. destruct (tstep_other _ _ _ _ _ _ _ _ u HI Hs Hu) as [Ho Hc].
  destruct (I_agrees _ _ _ HI) as (A1 & A2 & A3). destruct (I_agrees _ _ _ HI') as (A1' & A2' & A3'). split.
  - intros c T. rewrite A3, A3'. unfold tinner. rewrite Ho.
    assert (forall d, d ∈ tw_open w u -> tplace w' T d = tplace w T d) as Hp.
    { intros d Hd. unfold tplace. destruct (Hc d) as (_ & -> & _); [by apply (i_open _ _ _ HI)|done]. }
    pose proof (haddr_ext w' w T (tw_open w u) Hp) as Hh. unfold haddr in Hh.
    destruct (find (tplace w' T) _), (find (tplace w T) _); simpl in Hh; try done. by injection Hh as ->.
  - intros c _ Ht. rewrite (i_thr _ _ _ HI) in Ht. destruct (Hc c Ht) as (C1 & _ & C3). split; [|split].
    + apply A1'. congruence.
    + by rewrite (i_thr _ _ _ HI').
    + intros T. by rewrite A2, A2'.
Qed.
Print Assumptions C51_other_threads.

(** "A context that is not active can be moved" (the only assertion of the move constructor of context, context.hpp:309-314): not in builds with
    assertions. deactivate() leaves prev_ of the slots as activate() set it (error.hpp:146-152), and the move constructor of slot insists that
    it is null (error.hpp:123-128), so a context which was last activated inside another with a slot of the same type
    can not be moved any more. *)
Theorem C51_move_inactive_refuted :
  exists G l X c, xrun G l (shared0 (fun _ => glob0)) = Ok X /\ (exists k, x_ctxs X !! c = Some k) /\
    (forall t, ~ active (view t X) c) /\ (forall t, x_tls X t = ∅) /\
    xstep G 0%nat (TMove c) X = Fail Assert.
Proof.
  eexists (asserts_on GX), [(0, TNew [TA]); (0, TNew [TA]); (0, TAct 0); (0, TAct 1); (0, TDeact 1); (0, TDeact 0)]%nat, _, 1%nat.
  split; [vm_compute; reflexivity|]. split; [eexists; reflexivity|]. split; [|split].
  - intros t (k & E & Hk). vm_compute in E. injection E as <-. done.
  - intros t. apply map_to_list_empty_iff. destruct t; vm_compute; reflexivity.
  - vm_compute. reflexivity.
Qed.
Print Assumptions C51_move_inactive_refuted.

(** ** Examples *)
(** Thread 0 makes a context, thread 1 works with it active while thread 0 works with another; thread 0 then takes the objects over. *)
Definition ex51 : list (tid * top) :=
  [(0, TNew [TA; TB]); (0, TNew [TA]);           (* context 0 is for the worker, 1 is of thread 0 *)
   (0, TAct 1); (1, TAct 0);
   (1, TLoad 5%Z TA (VZ 50)); (0, TLoad 9%Z TA (VZ 90)); (1, TLoad 5%Z TB (VZ 51));
   (1, TDeact 0); (0, TUnload 0 5%Z)]%nat.
Definition obj_of (w : option tworld) (c : cid) (T : ety) : option (Z * val) := match w with Some w => tw_obj w c T | None => None end.
(** before the transfer, each has its own *)
Example ex51_before :
  let w := trun true true (take 8 ex51) tworld0 in
  obj_of w 0%nat TA = Some (5, VZ 50) /\ obj_of w 0%nat TB = Some (5, VZ 51) /\ obj_of w 1%nat TA = Some (9, VZ 90) /\ obj_of w 1%nat TB = None.
Proof. vm_compute. done. Qed.
(** after it, thread 0 has the object of error 5 for which it has a place; the other one is dropped *)
Example ex51_after :
  let w := trun true true ex51 tworld0 in
  obj_of w 0%nat TA = None /\ obj_of w 0%nat TB = None /\ obj_of w 1%nat TA = Some (5, VZ 50) /\ obj_of w 1%nat TB = None.
Proof. vm_compute. done. Qed.
(** and the same of the library's memory, computed *)
Example ex51_lib : match xrun (asserts_on GX) ex51 (shared0 (fun _ => glob0)) with
  | Ok X => held (view 0%nat X) 1%nat TA = Some (5, VZ 50) /\ held (view 0%nat X) 0%nat TA = None /\ x_tls X 1%nat !! TA = None
  | Fail _ => False end.
Proof. vm_compute. done. Qed.
(** a context is moved with what it holds: the new one has the objects, the old one is empty *)
Example ex51_move :
  let w := trun true true (take 8 ex51 ++ [(1%nat, TMove 0%nat); (0%nat, TUnload 2%nat 5)]) tworld0 in
  obj_of w 0%nat TA = None /\ obj_of w 2%nat TA = None /\ obj_of w 1%nat TA = Some (5, VZ 50).
Proof. vm_compute. done. Qed.
(** the hypotheses of [C51_other_threads]: thread 0 loads while context 0 is active in thread 1 *)
Example ex51_other : exists w w', trun true true (take 5 ex51) tworld0 = Some w /\ tstep true true 0%nat (TLoad 9 TA (VZ 90)) w = Some w' /\
  tw_thread w 0%nat = Some 1%nat /\ tw_obj w' 0%nat TA = Some (5, VZ 50) /\ tw_obj w' 1%nat TA = Some (9, VZ 90).
Proof.
  assert (match trun true true (take 5 ex51) tworld0 with
          | Some w => match tstep true true 0%nat (TLoad 9 TA (VZ 90)) w with
                      | Some w' => bool_decide (tw_thread w 0%nat = Some 1%nat /\ tw_obj w' 0%nat TA = Some (5, VZ 50) /\ tw_obj w' 1%nat TA = Some (9, VZ 90))
                      | None => false
                      end
          | None => false
          end = true) as H by (vm_compute; reflexivity).
  destruct (trun _ _ _ _) as [w|]; [|done]. destruct (tstep _ _ _ _ w) as [w'|] eqn:E; [|done]. exists w, w'. split; [done|]. split; [done|].
  by apply bool_decide_eq_true in H.
Qed.
