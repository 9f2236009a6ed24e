(** The meaning of programs: every LEAF entry point, over any machine that stores error objects. *)
From Verif Require Export Prog Mp11 Mem Stack.
Open Scope Z_scope.

(** What the interpreter needs from the storage of error objects of a thread. *)
Record machine := Machine {
  mst : Type;
  m_load : bool -> Z -> item -> mst -> glob -> res (mst * glob);
  m_capunload : Z -> list cnode -> mst -> glob -> res (mst * glob);
  m_new : list sty -> mst -> cid * mst;
  m_act : cid -> mst -> res mst;
  m_deact : cid -> mst -> res mst;
  m_isact : cid -> mst -> res bool;
  m_destroy : cid -> mst -> res mst;
  m_drop : cid -> mst -> res mst;
  m_unload : cid -> Z -> mst -> glob -> res (mst * glob);
  m_get : cid -> ety -> Z -> mst -> res (option val);
  m_set : cid -> ety -> Z -> val -> mst -> res mst;
  m_print : cid -> Z -> mst -> res (list (ety * val));
  m_details : cid -> Z -> mst -> res (list (ety * val));
  m_extract : cid -> Z -> bool -> mst -> res (list cnode * mst) }.

(** The library. *)
Definition pmach (G : cfg) : machine :=
  Machine mem (mload G) (mcap_unload G) (mnew G) (mact G) (mdeact G) misact (mdestroy G) (mdrop G) (munload G)
    (mget G) mset (mprint G) (mdetails G) (mextract G).

(** The specification. *)
Definition smach (G : cfg) : machine :=
  Machine smem (sload G) (scap_unload G) snew sact sdeact sisact sdestroy sdestroy (sunload G)
    sget sset (sprint G) (sdetails G) sextract.

(** How a function ends. *)
Inductive out := ORet (r : ret) | OThrow (x : exn).

(** make_error_id, error.hpp:749-753, for an argument which is 0 or an id; result_discriminant::get_error_id, result.hpp:156-160 *)
Definition mk (id : Z) : Z := Z.lor (Z.ldiff id 3) 1.

Section interp.
Context (G : cfg) (M : machine).

Definition st : Type := mst M * glob.

Definition on_mem (f : mst M -> res (mst M)) (s : st) : res st := let! m := f (fst s) in Ok (m, snd s).

(** new_id, error.hpp:556-561 *)
Definition gnew (g : glob) : Z * glob :=
  let id := g_sup G (ngen g) in (id, Glob id (S (ngen g)) (oid g) (clr g) (tr g)).

(** The loop over the items of error_id::load (error.hpp:687-707), preloaded::~preloaded's trigger (on_error.hpp:73-88) *)
Fixpoint load_items (onerr : bool) (id : Z) (its : list item) (s : st) : res st :=
  match its with
  | [] => Ok s
  | it :: its' => let! s1 := m_load M onerr id it (fst s) (snd s) in load_items onerr id its' s1
  end.

(** error_id::load, error.hpp:682-707 *)
Definition id_load (id : Z) (its : list item) (s : st) : res st :=
  if id =? 0 then Ok s else load_items false id its s.

(** import_error_code, error.hpp:601-620 *)
Definition import_ec (cat : nat) (v : Z) (s : st) : res (Z * st) :=
  if v =? 0 then Ok (0, s)
  else if (cat =? LEAFCAT)%nat then
    let! _ := assert G (Z.land v 3 =? 1) in Ok (mk v, s)
  else
    let '(id, g) := gnew (snd s) in
    let! s1 := m_load M false id (IVal T_EC (VEC cat v)) (fst s) g in
    Ok (mk id, s1).

(** error_id(r.error()): result.hpp:231-237; for third-party results the std::error_code is imported *)
Definition err_id_of (r : ret) (s : st) : res (Z * st) :=
  match r with
  | RVal _ => Ok (0, s)
  | RErr id | RCap id _ _ => Ok (mk id, s)
  | RFor cat v => import_ec cat v s
  end.

(** unload_result, handle_errors.hpp:503-514; result::unload, result.hpp:590-596; the exception node,
    capture_list's last (error.hpp:218-254), rethrows. The list is empty afterwards. *)
Definition unload_ret (r : ret) (s : st) : res (out * st) :=
  match r with
  | RCap id l ex =>
      let! s1 := m_capunload M (mk id) l (fst s) (snd s) in
      Ok (match ex with Some x => OThrow x | None => ORet (RCap id [] None) end, s1)
  | _ => Ok (ORet r, s)
  end.

(** throw of a LEAF exception object, exception.hpp:125-146: new object, flag set *)
Definition throw_leaf (id : Z) (x : xspec) (s : st) : out * st :=
  let g := snd s in
  (OThrow (Exn (oid g) true (xs_cls x) (xs_val x) (xs_code x) (xs_eid x) (Some id)),
   (fst s, Glob (cur g) (ngen g) (S (oid g)) (oid g :: clr g) (tr g))).

(** throw of any other object *)
Definition throw_plain (x : xspec) (s : st) : out * st :=
  let g := snd s in
  (OThrow (Exn (oid g) (xs_std x) (xs_cls x) (xs_val x) (xs_code x) (xs_eid x) None),
   (fst s, Glob (cur g) (ngen g) (S (oid g)) (clr g) (tr g))).

Definition drop_oid (o : nat) (l : list nat) : list nat := filter (fun o' => o' ≠ o) l.

(** ~exception, exception.hpp:148-152 *)
Definition exn_destroy (x : exn) (g : glob) : glob :=
  match x_leaf x with
  | Some id => if bool_decide (x_oid x ∈ clr g)
               then set_clr (drop_oid (x_oid x) (clr g)) (if cur g =? id then set_cur 0 g else g)
               else g
  | None => g
  end.

(** The end of a handler for x: the object is destroyed unless it is also being handled further out, leaves the handler as an exception
    or is held by a captured result the handler returns. (Other std::exception_ptr copies, see exception_to_result, are not considered.) *)
Definition same_exn (x : exn) (o : option exn) : bool := match o with Some y => (x_oid y =? x_oid x)%nat | None => false end.
Definition held_exn (o : out) : option exn := match o with OThrow y => Some y | ORet (RCap _ _ e) => e | _ => None end.
Definition release (caught : option exn) (x : exn) (o : out) (g : glob) : glob :=
  if same_exn x caught || same_exn x (held_exn o) then g else exn_destroy x g.

(** The id of a caught exception, and whether error_info gets its address: the two catch clauses
    (handle_errors.hpp:589-611, 679-701, 739-751), unpack_error_id 23-30, exception::get_error_id (exception.hpp:92-96) *)
Definition catch_info (x : exn) (g : glob) : Z * option exn * glob :=
  if x_std x then
    match x_leaf x with
    | Some id => (id, Some x, set_clr (drop_oid (x_oid x) (clr g)) g)
    | None => (match x_eid x with Some id => id | None => mk (cur g) end, Some x, g)
    end
  else (mk (cur g), None, g).

(** error_info (diagnostics.hpp / error_info: id, exception, source location) *)
Record einfo := EInfo { ei_id : Z; ei_ex : option exn; ei_loc : option val }.

(** peek_exception, handle_errors.hpp:152-226 *)
Definition peek_exn (T : ety) (ex : option exn) : option val :=
  match ex with
  | None => None
  | Some x =>
      if negb (g_class G T) then None
      else if (T =? T_EC)%nat then match x_code x with Some (c, v) => Some (VEC c v) | None => None end
      else if bool_decide (T ∈ x_cls x) then Some (VZ (x_val x)) else None
  end.

(** peek, handle_errors.hpp:262-294 *)
Definition peek (T : ety) (c : cid) (ei : einfo) (m : mst M) : res (option val) :=
  if ei_id ei =? 0 then Ok None
  else let! o := m_get M c T (ei_id ei) m in
       Ok (match o with Some v => Some v | None => peek_exn T (ei_ex ei) end).

(** diagnostic_info: print_tuple_contents if BOOST_LEAF_CFG_DIAGNOSTICS, diagnostics.hpp:34-40, 81-86 *)
Definition shown (c : cid) (ei : einfo) (m : mst M) : res (list (ety * val)) :=
  if g_diag G then m_print M c (ei_id ei) m else Ok [].

(** handler_argument_traits<>::check and get in one: context.hpp:40-133, pred.hpp:258-290, diagnostics.hpp:60-68, 173-182 *)
Definition arg_get (a : harg) (c : cid) (ei : einfo) (m : mst M) : res (option argval) :=
  match a with
  | AE T => let! o := peek T c ei m in Ok (match o with Some v => Some (VE v) | None => None end)
  | APtr T => let! o := peek T c ei m in Ok (Some (VP o))
  | APred T f => let! o := peek T c ei m in
                 Ok (match o with Some v => if f v then Some (VE v) else None | None => None end)
  | ACatch cls =>
      Ok (match ei_ex ei with
          | None => None
          | Some x => match cls with
                      | [] => Some (VCatch x)
                      | _ => if existsb (fun cl => bool_decide (cl ∈ x_cls x)) cls then Some (VCatch x) else None
                      end
          end)
  | ABoost info f =>   (* handle_errors.hpp:857-871 (a dynamic_cast of the std::exception, 838-842); under a predicate context.hpp:62-83 *)
      Ok (match ei_ex ei with
          | None => None
          | Some x => if bool_decide (T_BOOSTEX ∈ x_cls x)
                      then match info x with Some z => if f z then Some (VE (VZ z)) else None | None => None end
                      else None
          end)
  | AInfo => Ok (Some (VInfo (ei_id ei) (ei_ex ei) (ei_loc ei)))
  | ADiag => let! l := shown c ei m in Ok (Some (VDiag (ei_id ei) (ei_ex ei) (ei_loc ei) l))
  | ADetails => let! l := shown c ei m in
                let! d := (if g_diag G && g_capture G then m_details M c (ei_id ei) m else Ok []) in
                Ok (Some (VDetails (ei_id ei) (ei_ex ei) (ei_loc ei) l d))
  end.

(** check_arguments, handle_errors.hpp:330-349: all or nothing *)
Fixpoint args_get (l : list harg) (c : cid) (ei : einfo) (m : mst M) : res (option (list argval)) :=
  match l with
  | [] => Ok (Some [])
  | a :: l' => let! o := arg_get a c ei m in
               match o with
               | None => Ok None
               | Some v => let! o' := args_get l' c ei m in
                           Ok (match o' with Some vs => Some (v :: vs) | None => None end)
               end
  end.

(** What the handler does first: it assigns to the objects its arguments refer to. Only objects in the context's slots are considered,
    not those which are part of an exception (peek_exception). *)
Fixpoint set_all (c : cid) (id : Z) (l : list (ety * val)) (m : mst M) : res (mst M) :=
  match l with
  | [] => Ok m
  | (T, v) :: l' => let! m1 := m_set M c T id v m in set_all c id l' m1
  end.

(** Deactivate the context and build the error_info: handle_errors.hpp:591-593 etc. *)
Definition exn_info (c : cid) (x : exn) (s : st) : res (einfo * st) :=
  let! s1 := on_mem (m_deact M c) s in
  let '(id, ex, g) := catch_info x (snd s1) in
  let! loc := m_get M c T_LOC id (fst s1) in
  Ok (EInfo id ex loc, (fst s1, g)).

(** ctx.unload(id); throw;  handle_errors.hpp:594-598 *)
Definition unload_rethrow (c : cid) (id : Z) (x : exn) (s : st) : res (out * st) :=
  let! s1 := m_unload M c id (fst s) (snd s) in Ok (OThrow x, s1).

(** The end of a scope with context c. *)
Definition leave (c : cid) (o : out) (s : st) : res (out * st) :=
  let! s1 := on_mem (m_destroy M c) s in Ok (o, s1).

(** ~raii_deactivator (context.hpp:300-304) of a context which is active, and the end of the scope *)
Definition deact_leave (c : cid) (o : out) (s : st) : res (out * st) :=
  let! s1 := on_mem (m_deact M c) s in leave c o s1.

(** if( !rr ) ctx.unload(error_id(rr.error()));  handle_errors.hpp:654-657, 660-664 *)
Definition ths_end (c : cid) (o : out) (s : st) : res (out * st) :=
  match o with
  | OThrow _ => leave c o s
  | ORet r =>
      if is_val r then leave c o s
      else let! is1 := err_id_of r s in
           let! s2 := m_unload M c (fst is1) (fst (snd is1)) (snd (snd is1)) in
           leave c o s2
  end.

(** try_handle_all's handlers return plain values *)
Definition tha_end (c : cid) (o : out) (s : st) : res (out * st) :=
  match o with
  | ORet r => if is_val r then leave c o s else Fail IllTyped
  | OThrow _ => leave c o s
  end.

(** What try_handle_some/all do with a failed result before looking for a handler (handle_errors.hpp:627-630, 646-648):
    unload_result again, take the id, deactivate; inl: the handlers' turn *)
Definition res_info (c : cid) (r : ret) (s : st) : res ((einfo * ret * st) + (exn * st)) :=
  let! os := unload_ret r s in
  match os with
  | (OThrow x, s1) => Ok (inr (x, s1))
  | (ORet r1, s1) =>
      let! is2 := err_id_of r1 s1 in
      let! s3 := on_mem (m_deact M c) (snd is2) in
      let! loc := m_get M c T_LOC (fst is2) (fst s3) in
      Ok (inl (EInfo (fst is2) None loc, r1, s3))
  end.

(** catch_exceptions_helper's loads, exception.hpp:233-245: the last matching type first *)
Definition slices (cls : list ety) (x : exn) : list item :=
  map (fun cl => IVal cl (VZ (x_val x))) (filter (fun cl => cl ∈ x_cls x) (rev cls)).

(** new_error(std::current_exception()) and the loads *)
Definition e2r (cls : list ety) (x : exn) (s : st) : res (out * st) :=
  let '(id, g) := gnew (snd s) in
  let! s1 := id_load (mk id) (IVal T_EPTR (VX x) :: (if x_std x then slices cls x else [])) (fst s, g) in
  Ok (ORet (RErr (mk id)), s1).

(** [caught]: the exception being handled, i.e. what throw; and std::current_exception() refer to. *)
Fixpoint eval (caught : option exn) (p : prog) (s : st) {struct p} : res (out * st) :=
  match p with
  | PRet r => Ok (ORet r, s)
  | PBind p k =>
      let! os := eval caught p s in
      match os with
      | (ORet r, s1) => eval caught (k r) s1
      | (OThrow x, s1) => Ok (OThrow x, s1)
      end
  | PEmit z k => eval caught k (fst s, emit (EvUser z) (snd s))
  | PNewError its k => (* error.hpp:756-765 *)
      let '(id, g) := gnew (snd s) in
      let! s1 := id_load (mk id) its (fst s, g) in
      eval caught (k (mk id)) s1
  | PLoad id its k => let! s1 := id_load id its s in eval caught k s1
  | PCurErr k => eval caught (k (mk (cur (snd s)))) s (* error.hpp:767-770 *)
  | PThrow oid x its => (* exception.hpp:167-222 *)
      let '(id, g) := match oid with Some id => (id, snd s) | None => let '(id, g) := gnew (snd s) in (mk id, g) end in
      let! s1 := id_load id its (fst s, g) in
      Ok (throw_leaf id x s1)
  | PThrowX x => Ok (throw_plain x s)
  | PRethrow => match caught with Some x => Ok (OThrow x, s) | None => Fail Assert (* std::terminate *) end
  | PCatch p h =>
      let! os := eval caught p s in
      match os with
      | (ORet r, s1) => Ok (ORet r, s1)
      | (OThrow x, s1) =>
          let! os2 := eval (Some x) (h x) s1 in
          Ok (fst os2, (fst (snd os2), release caught x (fst os2) (snd (snd os2))))
      end
  | POnError its p => (* on_error.hpp:166-198 with error_monitor::check_id 30-47 *)
      let saved := cur (snd s) in
      let! os := eval caught p s in
      let '(o, s1) := os in
      let '(id, g) :=
        if negb (cur (snd s1) =? saved) then (cur (snd s1), snd s1)
        else match o with OThrow _ => gnew (snd s1) | ORet _ => (0, snd s1) end in
      if id =? 0 then Ok (o, (fst s1, g))
      else let! s2 := load_items true id its (fst s1, g) in Ok (o, s2)
  | PMonitor k => eval caught (k (cur (snd s))) s (* on_error.hpp:22-28 *)
  | PCheck m k => (* on_error.hpp:58-61, 30-47, no exception in flight *)
      eval caught (k (mk (if negb (cur (snd s) =? m) then cur (snd s) else 0))) s
  | PAssigned m k => (* on_error.hpp:63-66, 49-56 *)
      if negb (cur (snd s) =? m) then eval caught (k (mk (cur (snd s)))) s
      else let '(id, g) := gnew (snd s) in eval caught (k (mk id)) (fst s, g)
  | PTHA p hs => (* handle_errors.hpp:615-634, 577-612 *)
      let '(c, m1) := m_new M (deduce G hs) (fst s) in
      let! s1 := on_mem (m_act M c) (m1, snd s) in
      let! os := eval caught p s1 in
      let! os := (match os with (ORet r, s2) => unload_ret r s2 | (OThrow x, s2) => Ok (OThrow x, s2) end) in
      match os with
      | (OThrow x, s2) =>
          let! eis := exn_info c x s2 in
          let! os3 := evalH (Some x) hs c (fst eis) (unload_rethrow c (ei_id (fst eis)) x) (snd eis) in
          tha_end c (fst os3) (snd os3)
      | (ORet r, s2) =>
          if is_val r then deact_leave c (ORet r) s2
          else
            let! i := res_info c r s2 in
            match i with
            | inr (x, s3) => deact_leave c (OThrow x) s3
            | inl (ei, r1, s3) =>
                let! os3 := evalH caught hs c ei (fun _ => Fail IllTyped) s3 in
                tha_end c (fst os3) (snd os3)
            end
      end
  | PTHS p hs => (* handle_errors.hpp:636-666, 577-612 *)
      let '(c, m1) := m_new M (deduce G hs) (fst s) in
      let! s1 := on_mem (m_act M c) (m1, snd s) in
      let! os := eval caught p s1 in
      let! os := (match os with (ORet r, s2) => unload_ret r s2 | (OThrow x, s2) => Ok (OThrow x, s2) end) in
      match os with
      | (OThrow x, s2) =>
          let! eis := exn_info c x s2 in
          let! os3 := evalH (Some x) hs c (fst eis) (unload_rethrow c (ei_id (fst eis)) x) (snd eis) in
          ths_end c (fst os3) (snd os3)
      | (ORet r, s2) =>
          if is_val r then deact_leave c (ORet r) s2
          else
            let! i := res_info c r s2 in
            match i with
            | inr (x, s3) => deact_leave c (OThrow x) s3
            | inl (ei, r1, s3) =>
                let! os3 := evalH caught hs c ei (fun s => Ok (ORet r1, s)) s3 in
                ths_end c (fst os3) (snd os3)
            end
      end
  | PTC p hs => (* handle_errors.hpp:668-702 *)
      let '(c, m1) := m_new M (deduce G hs) (fst s) in
      let! s1 := on_mem (m_act M c) (m1, snd s) in
      let! os := eval caught p s1 in
      match os with
      | (OThrow x, s2) =>
          let! eis := exn_info c x s2 in
          let! os3 := evalH (Some x) hs c (fst eis) (unload_rethrow c (ei_id (fst eis)) x) (snd eis) in
          leave c (fst os3) (snd os3)
      | (ORet r, s2) => deact_leave c (ORet r) s2
      end
  | PCapture isvoid p => (* handle_errors.hpp:706-815 *)
      if negb (g_capture G) then Fail IllTyped
      else
        let '(c, m1) := m_new M [SDA] (fst s) in
        let! s1 := on_mem (m_act M c) (m1, snd s) in
        let! os := eval caught p s1 in
        match os with
        | (OThrow x, s2) =>
            let! s3 := on_mem (m_deact M c) s2 in
            let '(id, _, g) := catch_info x (snd s3) in
            let! lm := m_extract M c id true (fst s3) in
            leave c (ORet (RCap id (fst lm) (Some x))) (snd lm, g)
        | (ORet r, s2) =>
            if isvoid then
              (if is_val r then let! s3 := on_mem (m_drop M c) s2 in Ok (ORet r, s3) else Fail IllTyped)
            else
              match r with
              | RVal _ => deact_leave c (ORet r) s2
              | RErr id | RCap id _ _ =>
                  let! s3 := on_mem (m_deact M c) s2 in
                  let! lm := m_extract M c (mk id) (bool_decide (caught ≠ None)) (fst s3) in
                  leave c (ORet (RCap (mk id) (fst lm) caught)) (snd lm, snd s3)
              | RFor _ _ => Fail IllTyped
              end
        end
  | PUnload r k =>
      let! os := unload_ret r s in
      match os with
      | (ORet r1, s1) => eval caught (k r1) s1
      | (OThrow x, s1) => Ok (OThrow x, s1)
      end
  | PValue r k => (* result::value, enforce_value_state, result.hpp:309-325 *)
      match r with
      | RVal z => eval caught (k z) s
      | RFor _ _ => Fail IllTyped
      | RErr id | RCap id _ _ =>
          let! os := unload_ret r s in
          match os with
          | (OThrow x, s1) => Ok (OThrow x, s1)
          | (ORet _, s1) => Ok (throw_leaf (mk id) (XSpec true [T_STDEX; T_BADRES] 0 None None) s1)
          end
      end
  | PErrId r k => let! is1 := err_id_of r s in eval caught (k (fst is1)) (snd is1)
  | PE2R cls p => (* exception.hpp:263-280 *)
      let! os := eval caught p s in
      match os with
      | (ORet r, s1) => Ok (ORet r, s1)
      | (OThrow x, s1) => e2r cls x s1
      end
  | PImport cat v k => let! is1 := import_ec cat v s in eval caught (k (fst is1)) (snd is1)
  | PCtx tup k =>
      let '(c, m1) := m_new M (deduce_list G tup) (fst s) in
      let! os := eval caught (k c) (m1, snd s) in
      leave c (fst os) (snd os)
  | PAct c p => (* activate_context, context.hpp:397-400, with raii_deactivator, 283-305 *)
      let! a := m_isact M c (fst s) in
      if a then eval caught p s
      else
        let! s1 := on_mem (m_act M c) s in
        let! os := eval caught p s1 in
        let! b := m_isact M c (fst (snd os)) in
        if b then let! s2 := on_mem (m_deact M c) (snd os) in Ok (fst os, s2) else Ok os
  | PCtxUnload c id k => let! s1 := m_unload M c id (fst s) (snd s) in eval caught k s1
  | PCtxHandle c id hs => (* context::handle_error, handle_errors.hpp:479-499 *)
      let! a := m_isact M c (fst s) in
      let! _ := assert G (negb a) in
      let! loc := m_get M c T_LOC id (fst s) in
      evalH caught hs c (EInfo id None loc) (fun _ => Fail IllTyped) s
  end

(** handle_error_, handle_errors.hpp:415-474: the first handler whose arguments are all available;
    [dflt]: what follows the list. *)
with evalH (caught : option exn) (hs : handlers) (c : cid) (ei : einfo) (dflt : st -> res (out * st)) (s : st)
       {struct hs} : res (out * st) :=
  match hs with
  | HNil => dflt s
  | HMut args w b rest =>
      let! o := args_get args c ei (fst s) in
      match o with
      | Some l => let! m1 := set_all c (ei_id ei) (writes args (w l)) (fst s) in eval caught (b l) (m1, snd s)
      | None => evalH caught rest c ei dflt s
      end
  | HTup hs' rest => evalH caught hs' c ei (evalH caught rest c ei dflt) s
  end.

End interp.
