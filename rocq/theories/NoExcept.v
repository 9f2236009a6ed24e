(** The library in builds without exceptions (BOOST_LEAF_NO_EXCEPTIONS).

    Where the library or the program would throw it calls boost::throw_exception, which is user defined and does not return
    (exception.hpp:13-32): no destructor runs and nothing catches anything. Here that is the outcome [OThrow], which every
    construct passes on unchanged. [Fail IllTyped]: the program does not compile without exceptions. *)
From Verif Require Export Interp.
Open Scope Z_scope.

Section interp.
Context (G : cfg) (M : machine).

(** unload_result, handle_errors.hpp:503-514; result::unload, result.hpp:590-596. capturing_exception_node does not exist
    (error.hpp:227-254). *)
Definition unload_retN (r : ret) (s : st M) : res (ret * st M) :=
  match r with
  | RCap id l None => let! s1 := m_capunload M (mk id) l (fst s) (snd s) in Ok (RCap id [] None, s1)
  | RCap _ _ (Some _) => Fail IllTyped
  | _ => Ok (r, s)
  end.

(** error_info without ex_: handle_errors.hpp:37-77 *)
Record einfoN := EInfoN { eiN_id : Z; eiN_loc : option val }.

(** peek without peek_exception, handle_errors.hpp:262-294 *)
Definition peekN (T : ety) (c : cid) (ei : einfoN) (m : mst M) : res (option val) :=
  if eiN_id ei =? 0 then Ok None else m_get M c T (eiN_id ei) m.

(** context.hpp:40-133, pred.hpp:258-290 and the rest of catch_ (pred.hpp:236-290) do not exist, diagnostics.hpp:60-68, 173-182;
    error_info::exception() is nullptr (handle_errors.hpp:68-75) *)
Definition arg_getN (a : harg) (c : cid) (ei : einfoN) (m : mst M) : res (option argval) :=
  match a with
  | AE T => let! o := peekN T c ei m in Ok (match o with Some v => Some (VE v) | None => None end)
  | APtr T => let! o := peekN T c ei m in Ok (Some (VP o))
  | APred T f => let! o := peekN T c ei m in
                 Ok (match o with Some v => if f v then Some (VE v) else None | None => None end)
  | ACatch _ => Fail IllTyped
  | ABoost _ _ => Ok None   (* handle_errors.hpp:857-865 *)
  | AInfo => Ok (Some (VInfo (eiN_id ei) None (eiN_loc ei)))
  | ADiag => let! l := (if g_diag G then m_print M c (eiN_id ei) m else Ok []) in
             Ok (Some (VDiag (eiN_id ei) None (eiN_loc ei) l))
  | ADetails => let! l := (if g_diag G then m_print M c (eiN_id ei) m else Ok []) in
                let! d := (if g_diag G && g_capture G then m_details M c (eiN_id ei) m else Ok []) in
                Ok (Some (VDetails (eiN_id ei) None (eiN_loc ei) l d))
  end.

(** check_arguments, handle_errors.hpp:330-349 *)
Fixpoint args_getN (l : list harg) (c : cid) (ei : einfoN) (m : mst M) : res (option (list argval)) :=
  match l with
  | [] => Ok (Some [])
  | a :: l' => let! o := arg_getN a c ei m in
               match o with
               | None => Ok None
               | Some v => let! o' := args_getN l' c ei m in
                           Ok (match o' with Some vs => Some (v :: vs) | None => None end)
               end
  end.

(** What the failure branches of try_handle_all and try_handle_some start with, handle_errors.hpp:529-533, 548-552, and the
    error_info made by context::handle_error, 479-499 *)
Definition res_infoN (c : cid) (r : ret) (s : st M) : res (einfoN * ret * st M) :=
  let! rs := unload_retN r s in
  let! is2 := err_id_of G M (fst rs) (snd rs) in
  let! s3 := on_mem M (m_deact M c) (snd is2) in
  let! a := m_isact M c (fst s3) in
  let! _ := assert G (negb a) in
  let! loc := m_get M c T_LOC (fst is2) (fst s3) in
  Ok (EInfoN (fst is2) loc, fst rs, s3).

Fixpoint evalN (p : prog) (s : st M) {struct p} : res (out * st M) :=
  match p with
  | PRet r => Ok (ORet r, s)
  | PBind p k =>
      let! os := evalN p s in
      match os with
      | (ORet r, s1) => evalN (k r) s1
      | (OThrow x, s1) => Ok (OThrow x, s1)
      end
  | PEmit z k => evalN k (fst s, emit (EvUser z) (snd s))
  | PNewError its k => (* error.hpp:756-765 *)
      let '(id, g) := gnew G (snd s) in
      let! s1 := id_load M (mk id) its (fst s, g) in
      evalN (k (mk id)) s1
  | PLoad id its k => let! s1 := id_load M id its s in evalN k s1
  | PCurErr k => evalN (k (mk (cur (snd s)))) s
  | PThrow oid x its => (* exception.hpp:13-32, 167-222 *)
      let '(id, g) := match oid with Some id => (id, snd s) | None => let '(id, g) := gnew G (snd s) in (mk id, g) end in
      let! s1 := id_load M id its (fst s, g) in
      Ok (throw_leaf M id x s1)
  | PThrowX _ | PRethrow | PCatch _ _ => Fail IllTyped
  | POnError its p => (* on_error.hpp:166-198, 30-47 without uncaught_exceptions *)
      let saved := cur (snd s) in
      let! os := evalN p s in
      match os with
      | (OThrow x, s1) => Ok (OThrow x, s1)
      | (ORet r, s1) =>
          let id := if negb (cur (snd s1) =? saved) then cur (snd s1) else 0 in
          if id =? 0 then Ok (ORet r, s1)
          else let! s2 := load_items M true id its s1 in Ok (ORet r, s2)
      end
  | PMonitor k => evalN (k (cur (snd s))) s
  | PCheck m k => evalN (k (mk (if negb (cur (snd s) =? m) then cur (snd s) else 0))) s
  | PAssigned m k =>
      if negb (cur (snd s) =? m) then evalN (k (mk (cur (snd s)))) s
      else let '(id, g) := gnew G (snd s) in evalN (k (mk id)) (fst s, g)
  | PTHA p hs => (* handle_errors.hpp:520-536 *)
      let '(c, m1) := m_new M (deduce G hs) (fst s) in
      let! s1 := on_mem M (m_act M c) (m1, snd s) in
      let! os := evalN p s1 in
      match os with
      | (OThrow x, s2) => Ok (OThrow x, s2)
      | (ORet r, s2) =>
          if is_val r then deact_leave M c (ORet r) s2
          else
            let! i := res_infoN c r s2 in
            let! os3 := evalHN hs c (fst (fst i)) (fun _ => Fail IllTyped) (snd i) in
            match os3 with
            | (OThrow x, s4) => Ok (OThrow x, s4)
            | (ORet r', s4) => if is_val r' then leave M c (ORet r') s4 else Fail IllTyped
            end
      end
  | PTHS p hs => (* handle_errors.hpp:538-559 *)
      let '(c, m1) := m_new M (deduce G hs) (fst s) in
      let! s1 := on_mem M (m_act M c) (m1, snd s) in
      let! os := evalN p s1 in
      match os with
      | (OThrow x, s2) => Ok (OThrow x, s2)
      | (ORet r, s2) =>
          if is_val r then deact_leave M c (ORet r) s2
          else
            let! i := res_infoN c r s2 in
            let! os3 := evalHN hs c (fst (fst i)) (fun s => Ok (ORet (snd (fst i)), s)) (snd i) in
            match os3 with
            | (OThrow x, s4) => Ok (OThrow x, s4)
            | (ORet r', s4) =>
                if is_val r' then leave M c (ORet r') s4
                else let! is5 := err_id_of G M r' s4 in
                     let! s6 := m_unload M c (fst is5) (fst (snd is5)) (snd (snd is5)) in
                     leave M c (ORet r') s6
            end
      end
  | PTC p hs => evalN p s (* handle_errors.hpp:561-569: the handlers are ignored *)
  | PCapture isvoid p => (* handle_errors.hpp:710-735, 776-800 without the catch clauses; error.hpp:300-325 *)
      if negb (g_capture G) then Fail IllTyped
      else
        let '(c, m1) := m_new M [SDA] (fst s) in
        let! s1 := on_mem M (m_act M c) (m1, snd s) in
        let! os := evalN p s1 in
        match os with
        | (OThrow x, s2) => Ok (OThrow x, s2)
        | (ORet r, s2) =>
            if isvoid then
              (if is_val r then let! s3 := on_mem M (m_drop M c) s2 in Ok (ORet r, s3) else Fail IllTyped)
            else
              match r with
              | RVal _ => deact_leave M c (ORet r) s2
              | RErr id | RCap id _ _ =>
                  let! s3 := on_mem M (m_deact M c) s2 in
                  let! lm := m_extract M c (mk id) false (fst s3) in
                  leave M c (ORet (RCap (mk id) (fst lm) None)) (snd lm, snd s3)
              | RFor _ _ => Fail IllTyped
              end
        end
  | PUnload r k => let! rs := unload_retN r s in evalN (k (fst rs)) (snd rs)
  | PValue r k => (* result.hpp:309-325 *)
      match r with
      | RVal z => evalN (k z) s
      | RFor _ _ => Fail IllTyped
      | RErr id | RCap id _ _ =>
          let! rs := unload_retN r s in
          Ok (throw_leaf M (mk id) (XSpec true [T_STDEX; T_BADRES] 0 None None) (snd rs))
      end
  | PErrId r k => let! is1 := err_id_of G M r s in evalN (k (fst is1)) (snd is1)
  | PE2R _ _ => Fail IllTyped (* exception.hpp:226-283 *)
  | PImport cat v k => let! is1 := import_ec G M cat v s in evalN (k (fst is1)) (snd is1)
  | PCtx tup k =>
      let '(c, m1) := m_new M (deduce_list G tup) (fst s) in
      let! os := evalN (k c) (m1, snd s) in
      match os with
      | (OThrow x, s1) => Ok (OThrow x, s1)
      | (ORet r, s1) => leave M c (ORet r) s1
      end
  | PAct c p => (* activate_context, context.hpp:397-400, with raii_deactivator, 283-305 *)
      let! a := m_isact M c (fst s) in
      if a then evalN p s
      else
        let! s1 := on_mem M (m_act M c) s in
        let! os := evalN p s1 in
        match os with
        | (OThrow x, s2) => Ok (OThrow x, s2)
        | (ORet r, s2) =>
            let! b := m_isact M c (fst s2) in
            if b then let! s3 := on_mem M (m_deact M c) s2 in Ok (ORet r, s3) else Ok (ORet r, s2)
        end
  | PCtxUnload c id k => let! s1 := m_unload M c id (fst s) (snd s) in evalN k s1
  | PCtxHandle c id hs => (* handle_errors.hpp:479-499 *)
      let! a := m_isact M c (fst s) in
      let! _ := assert G (negb a) in
      let! loc := m_get M c T_LOC id (fst s) in
      evalHN hs c (EInfoN id loc) (fun _ => Fail IllTyped) s
  end

(** handle_error_, handle_errors.hpp:415-474 *)
with evalHN (hs : handlers) (c : cid) (ei : einfoN) (dflt : st M -> res (out * st M)) (s : st M)
       {struct hs} : res (out * st M) :=
  match hs with
  | HNil => dflt s
  | HMut args w b rest =>
      let! o := args_getN args c ei (fst s) in
      match o with
      | Some l => let! m1 := set_all M c (eiN_id ei) (writes args (w l)) (fst s) in evalN (b l) (m1, snd s)
      | None => evalHN rest c ei dflt s
      end
  | HTup hs' rest => evalHN hs' c ei (evalHN rest c ei dflt) s
  end.

End interp.
