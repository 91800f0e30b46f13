(** Model of the log of ADO: mixtera/core/algo/ado/ado.py 113-128, 191-201, 237-248, 312-338, 415-424, 598-600, with the places that
    ask for a write (query_result.py 687, chunk_distributor.py 388-389, dynamic_mixture.py 106-107).

    The algorithm itself is [DynModel]; here every function is written down again with its logging.  A logging path is given;
    without one, nothing here happens and the object is that of [DynModel]. *)
From Verif Require Import Base UtilsModel ChunkGenModel DynModel SpecDyn.
From Coq Require Import QArith.
Open Scope Z_scope.

(** How a write ends: done; the file cannot be opened (198); it is opened, that is emptied, but json.dump does not finish
    (198-199: full disk, process killed). *)
Inductive outcome := Written | Refused | Cut.
(** What feedback raises: an exception of [DynModel], or the OSError of ado.py 198-199. *)
Inductive lexn := Raised (e : exn) | OSError.

Section Log.
  Variables (fl : Q -> Q) (nsum : list Q -> Q) (cfg : config) (P : Type) (p_zero : P).
  Variable fit1 : list (list Z) -> list (list Q) -> Z -> nat -> res P.
  Variable deriv : P -> Q -> Q.
  Variable pow_s : Q -> Q.

  (** ado.py 319-330: the fields of an entry that the warm-up leaves out. *)
  Record mixed := mkMixed {
    x_h : option (list Q); x_pi : option (list Q); x_pibar : option (list Q); x_rho : list Q; x_slope : list Q; x_laws : option (list P)
  }.
  (** ado.py 239-243, 319-330: step_log. *)
  Record entry := mkEntry { e_step : Z; e_counts : list Z; e_losses : list Q; e_mixed : option mixed }.
  (** ado.py 757-761, 800-813: domain_log (the points, the window and the loss are left out; a domain with too little data has an
      error text in place of the law). *)
  Record law_entry := mkLawEntry { w_step : Z; w_domain : nat; w_law : P }.
  (** ado.py 113-128: log_entries, log_scaling_laws, log_counts. *)
  Record alog := mkAlog { g_entries : list entry; g_laws : list law_entry; g_counts : list (list Z) }.
  (** ado.py 113-128. *)
  Definition alog0 : alog := mkAlog [] [] [].
  (** ado.py 193-198: what is written (the configuration, which never changes, is left out). *)
  Record content := mkContent { c_log : alog; c_prior : option (list Q) }.
  (** The file at logging_path: not there, torn, or a whole log; ado.py 198-199. *)
  Inductive file := Absent | Torn | Whole (c : content).
  (** The algorithm object with its log, and the file; ado.py 37-128. *)
  Record lstate := mkL { l_ado : ado P; l_log : alog; l_file : file }.
  (** ado.py 37-128. *)
  Definition lstate0 (initial : list Q) : lstate := mkL (ado0 P initial) alog0 Absent.

  (** ado.py 191-201 write_logs: mode "w+" empties the file first. *)
  Definition write_logs (w : outcome) (s : lstate) : lstate * option lexn :=
    match w with
    | Written => (mkL (l_ado s) (l_log s) (Whole (mkContent (l_log s) (o_mu P (l_ado s)))), None)
    | Refused => (s, Some OSError)
    | Cut => (mkL (l_ado s) (l_log s) Torn, Some OSError)
    end.

  (** ado.py 244, 331: log_entries.append. *)
  Definition add_entry (m : option mixed) (s : lstate) : lstate :=
    let o := l_ado s in let g := l_log s in
    mkL o (mkAlog (g_entries g ++ [mkEntry (o_steps P o) (a_counts (o_acc P o)) (a_losses (o_acc P o)) m]) (g_laws g) (g_counts g)) (l_file s).
  (** ado.py 415-421: one entry per domain; [ps] are the fitted laws in the order of the domains. *)
  Definition add_laws (ps : list P) (s : lstate) : lstate :=
    let o := l_ado s in let g := l_log s in
    mkL o (mkAlog (g_entries g) (g_laws g ++ map (fun kp => mkLawEntry (o_steps P o) (fst kp) (snd kp)) (combine (seq 0 (length ps)) ps)) (g_counts g)) (l_file s).
  (** ado.py 599-600: log_counts.append, before anything else of the update. *)
  Definition add_counts (counts : list Z) (s : lstate) : lstate :=
    let g := l_log s in mkL (l_ado s) (mkAlog (g_entries g) (g_laws g) (g_counts g ++ [counts])) (l_file s).
  (** The algorithm part of the state changes; ado.py 37-128. *)
  Definition on_ado (o : ado P) (s : lstate) : lstate := mkL o (l_log s) (l_file s).

  (** ado.py 588-645 _update_state with the log of counts. *)
  Definition log_update (losses : list Q) (counts : list Z) (s : lstate) : lstate * option exn :=
    let s := add_counts counts s in
    let '(o, e) := ado_update fl cfg P losses counts (l_ado s) in (on_ado o s, e).

  (** ado.py 358-424 fit_scaling_laws with its log. *)
  Definition log_fit (s : lstate) : lstate * option exn :=
    let '(o, e) := fit_scaling_laws P p_zero fit1 (l_ado s) in
    match e, o_params P o with
    | None, Some ps => (add_laws ps (on_ado o s), None)
    | _, _ => (on_ado o s, e)
    end.

  (** ado.py 284-338: the mixture, its entry, and the write. *)
  Definition log_mix (updated_at_client force : bool) (w : outcome) (s : lstate) : lstate * (option (list Q) + lexn) :=
    let dl := match o_params P (l_ado s) with
              | Some ps => match loss_derivative fl cfg P deriv (l_ado s) ps with Ok d => d | Err _ => [] end
              | None => [] end in                                                                              (* 287 *)
    let '(o, r) := ado_mix fl nsum cfg P deriv pow_s updated_at_client (l_ado s) in
    let s := on_ado o s in
    match r with
    | inr e => (s, inr (Raised e))
    | inl m =>
        let s := add_entry (Some (mkMixed (o_h P o) (o_pi P o) (o_pibar P o) (o_rho P o) dl (o_params P o))) s in    (* 318-331 *)
        if (o_steps P o mod 5000 =? 0) || force then
          let '(s, e) := write_logs w s in match e with Some e => (s, inr e) | None => (s, inl m) end            (* 335-336 *)
        else (s, inl m)
    end.

  (** ado.py 203-338 calc_mixture. *)
  Definition log_calc (w : outcome) (updated_at_client : bool) (s : lstate) : lstate * (option (list Q) + lexn) :=
    let o := set_steps P (o_steps P (l_ado s) + 1) (l_ado s) in
    let '(o, e) := set_prior nsum P o in
    let s := on_ado o s in
    match e with
    | Some e => (s, inr (Raised e))
    | None =>
        if o_steps P o <? c_start cfg then                                                                      (* 233-248 *)
          let s := add_entry None s in
          if o_steps P o mod 5000 =? 0 then let '(s, e) := write_logs w s in match e with Some e => (s, inr e) | None => (s, inl None) end
          else (s, inl None)
        else
          let o := set_h P (match o_h P o with Some h => Some h | None => o_mu P o end) (o_lastupd P o) o in     (* 251 *)
          let s := on_ado o s in
          match refit_due cfg (o_steps P o) with
          | Err e => (s, inr (Raised e))
          | Ok refit =>
              let '(s, e) := if refit then log_fit s else (s, None) in                                           (* 253-259 *)
              let o := l_ado s in
              match e with
              | Some e => (s, inr (Raised e))
              | None =>
                  match c_variant cfg, o_handed P o with
                  | AdjustedV3, true =>                                                                          (* 261-281 *)
                      let o := if updated_at_client then set_next P (Some (o_steps P o + 15)) o else o in
                      let s := on_ado o s in
                      if match o_next P o with Some n => o_steps P o =? n | None => false end || refit then log_mix updated_at_client true w s
                      else (s, inl None)
                  | _, _ => log_mix updated_at_client false w s
                  end
              end
          end
    end.

  (** dynamic_mixing.py 39-45 process_losses. *)
  Definition log_process (f : fb) (w : outcome) (s : lstate) : lstate * (option (list Q) + lexn) :=
    let flag := o_last P (l_ado s) <? fb_mixture f in
    let s := if flag then on_ado (set_olast P (fb_mixture f) (l_ado s)) s else s in
    let '(s, e) := log_update (fb_losses f) (fb_counts f) s in
    match e with Some e => (s, inr (Raised e)) | None => log_calc w flag s end.

  (** Feedback, or a write asked for by a checkpoint or by the cache (query_result.py 687, chunk_distributor.py 389). *)
  Inductive levent := Reports (f : fb) (w : outcome) | Saves (w : outcome).
  (** What happens to the object; chunk_distributor.py 388-389, dynamic_mixture.py 84-107. *)
  Definition log_step (e : levent) (s : lstate) : lstate * (option (list Q) + lexn) :=
    match e with
    | Reports f w => log_process f w s
    | Saves w => let '(s, e) := write_logs w s in match e with Some e => (s, inr e) | None => (s, inl None) end
    end.
  (** A history; an exception leaves the object as it is then; dynamic_mixture.py 84-107. *)
  Fixpoint log_run (es : list levent) (s : lstate) : lstate :=
    match es with [] => s | e :: es' => log_run es' (fst (log_step e s)) end.
End Log.
