(** Model of dynamic mixing: mixtera/core/algo/dynamic_mixing/dynamic_mixing.py, algo/loss_avg/loss_avg.py,
    algo/ado/ado.py (everything but the curve fitting itself and the logging) and query/mixture/dynamic_mixture.py.

    Floats are rationals; [fl] is the rounding of one array operation and [nsum] is numpy's sum of a float array.  Not
    modelled: nan and infinities (so losses are finite), integer overflow of the int64 counts, numpy dtypes (a feedback
    array whose dtype cannot be added in place is refused by numpy before any effect).  Where numpy would divide by a zero
    sum and carry on with nan, the model stops with ZeroDivisionError; the theorems show when that is not reached. *)
From Verif Require Import Base MixtureKeyModel UtilsModel ChunkGenModel MixtureModel.
From Coq Require Import QArith Qabs Qminmax.
Open Scope Z_scope.

(** [np.isclose(a, b)]: |a - b| <= 1e-8 + 1e-5 * |b| *)
Definition np_isclose (a b : Q) : bool := Qle_bool (Qabs (a - b)) ((1 # 100000000) + (1 # 100000) * Qabs b).

(** numpy [x > 0], ado.py 508-587. *)
Definition qpos (x : Q) : bool := negb (Qle_bool x 0).

Section Dyn.
  Variable fl : Q -> Q.
  Variable nsum : list Q -> Q.

  (** ** dynamic_mixing.py *)
  (** [a[:n] += x] for an array [x] of length [n]. *)
  (** dynamic_mixing.py 66-67. *)
  Fixpoint add_front {A} (f : A -> A -> A) (acc xs : list A) : list A :=
    match acc, xs with
    | a :: acc', x :: xs' => f a x :: add_front f acc' xs'
    | _, _ => acc
    end.
  (** [np.concatenate([l, np.zeros(k)])] *)
  (** dynamic_mixing.py 62-63, ado.py 588-645. *)
  Definition grow {A} (z : A) (k : nat) (l : list A) : list A := l ++ repeat z k.
  (** numpy broadcasting of an array to length [n] (the target of an in-place operation). *)
  (** dynamic_mixing.py 66-67. *)
  Definition to_length {A} (n : nat) (l : list A) : option (list A) :=
    if Nat.eqb (length l) n then Some l else match l with [x] => Some (repeat x n) | _ => None end.

  (** dynamic_mixing.py 22-23: self.losses, self.counts. *)
  Record acc := mkAcc { a_losses : list Q; a_counts : list Z }.
  (** dynamic_mixing.py 18-26 __init__ *)
  Definition acc0 : acc := mkAcc [] [].

  (** dynamic_mixing.py 47-67 _update_state; the losses are already added when the counts are refused. *)
  Definition update_state (losses : list Q) (counts : list Z) (a : acc) : acc * option exn :=
    let n_in := length losses in
    let n := length (a_losses a) in
    let diff := (Nat.max n_in n - n)%nat in                                               (* 55-61 *)
    let ls := add_front (fun x y => fl (x + y)%Q) (grow 0%Q diff (a_losses a)) losses in    (* 62, 66 *)
    let cs := grow 0 diff (a_counts a) in                                                 (* 63 *)
    match to_length n_in counts with
    | Some c => (mkAcc ls (add_front Z.add cs c), None)                                   (* 67 *)
    | None => (mkAcc ls cs, Some ValueError)
    end.

  (** dynamic_mixing.py 39-45: process_losses of an algorithm with state [S]: the flag, then _update_state, then
      calc_mixture. *)
  Definition process_losses {S} (last : S -> Z) (set_last : Z -> S -> S) (upd : list Q -> list Z -> S -> S * option exn)
      (calc : bool -> S -> S * (option (list Q) + exn)) (losses : list Q) (counts : list Z) (mixture_id : Z) (s : S)
      : S * (option (list Q) + exn) :=
    let flag := last s <? mixture_id in
    let s1 := if flag then set_last mixture_id s else s in
    let '(s2, e) := upd losses counts s1 in
    match e with Some e => (s2, inr e) | None => calc flag s2 end.

  (** ** loss_avg.py *)
  (** loss_avg.py 6-13: the accumulators and last_received_mixture. *)
  Record savg := mkSavg { s_acc : acc; s_last : Z }.
  (** dynamic_mixing.py 18-26. *)
  Definition savg0 : savg := mkSavg acc0 (-1).

  (** loss_avg.py 14-48 calc_mixture *)
  Definition avg_mixture (a : acc) : option (list Q) :=
    let mask := map (fun c => 0 <? c) (a_counts a) in
    if negb (existsb (fun b => b) mask) then None                                                              (* 24-26 *)
    else
      let lc := combine (a_losses a) (a_counts a) in
      let avg := map (fun p => if 0 <? snd p then fl (fst p / inject_Z (snd p))%Q else 0%Q) lc in               (* 29-30 *)
      let m := combine avg mask in
      let total := nsum (map fst (filter snd m)) in                                                            (* 33 *)
      let mix := if Qeq_bool total 0
                 then map (fun p : Q * bool => if snd p then fl (1 / inject_Z (Z.of_nat (length (filter (fun b => b) mask))))%Q else 0%Q) m
                 else map (fun p : Q * bool => if snd p then fl (fst p / total)%Q else 0%Q) m in                            (* 34-41 *)
      let s := nsum mix in
      Some (if Qeq_bool s 0 then mix else map (fun x => fl (x / s)%Q) mix).                                    (* 44-48 *)
  (** loss_avg.py 14-48. *)
  Definition avg_calc (updated_at_client : bool) (s : savg) : savg * (option (list Q) + exn) := (s, inl (avg_mixture (s_acc s))).
  (** dynamic_mixing.py 47-67. *)
  Definition avg_update (losses : list Q) (counts : list Z) (s : savg) : savg * option exn :=
    let '(a, e) := update_state losses counts (s_acc s) in (mkSavg a (s_last s), e).
  (** dynamic_mixing.py 28-45 with loss_avg.py 14-48. *)
  Definition avg_process : list Q -> list Z -> Z -> savg -> savg * (option (list Q) + exn) :=
    process_losses s_last (fun i s => mkSavg (s_acc s) i) avg_update avg_calc.

  (** ** ado.py *)
  (** ado.py 39, 76. *)
  Inductive variant := Vanilla | AdjustedV1 | AdjustedV2 | AdjustedV3 | OtherVariant.
  (** ado.py 37-91 (the parameters of the fit itself left out). *)
  Record config := mkConfig {
    c_variant : variant; c_gamma1 : Q; c_gamma2 : Q; c_delta_min : Q; c_interval : Z; c_start : Z; c_same_step : bool;
    c_normalizer : option Z
  }.
  Variable cfg : config.
  (** Parameters of a fitted scaling law, the fit of one domain from the history (648-815: arbitrary), the zero
      parameters, the derivative at [n > 0] tokens (500-506: arbitrary), and [h ** s] (513: arbitrary). *)
  Variable P : Type.
  Variable p_zero : P.
  Variable fit1 : list (list Z) -> list (list Q) -> Z -> nat -> res P.
  Variable deriv : P -> Q -> Q.
  Variable pow_s : Q -> Q.

  (** ado.py 93-113 and dynamic_mixing.py 22-25. *)
  Record ado := mkAdo {
    o_acc : acc; o_last : Z; o_initial : list Q; o_steps : Z; o_lastupd : Z; o_h : option (list Q); o_pi : option (list Q);
    o_pibar : option (list Q); o_rho : list Q; o_params : option (list P); o_psc : list (list Z); o_psl : list (list Q);
    o_mu : option (list Q); o_next : option Z; o_handed : bool
  }.
  (** Record update; attributes of ado.py 93-113. *)
  Definition set_acc x o := mkAdo x (o_last o) (o_initial o) (o_steps o) (o_lastupd o) (o_h o) (o_pi o) (o_pibar o) (o_rho o) (o_params o) (o_psc o) (o_psl o) (o_mu o) (o_next o) (o_handed o).
  (** Record update; attributes of ado.py 93-113. *)
  Definition set_olast x o := mkAdo (o_acc o) x (o_initial o) (o_steps o) (o_lastupd o) (o_h o) (o_pi o) (o_pibar o) (o_rho o) (o_params o) (o_psc o) (o_psl o) (o_mu o) (o_next o) (o_handed o).
  (** Record update; attributes of ado.py 93-113. *)
  Definition set_steps x o := mkAdo (o_acc o) (o_last o) (o_initial o) x (o_lastupd o) (o_h o) (o_pi o) (o_pibar o) (o_rho o) (o_params o) (o_psc o) (o_psl o) (o_mu o) (o_next o) (o_handed o).
  (** Record update; attributes of ado.py 93-113. *)
  Definition set_h x u o := mkAdo (o_acc o) (o_last o) (o_initial o) (o_steps o) u x (o_pi o) (o_pibar o) (o_rho o) (o_params o) (o_psc o) (o_psl o) (o_mu o) (o_next o) (o_handed o).
  (** Record update; attributes of ado.py 93-113. *)
  Definition set_pi x o := mkAdo (o_acc o) (o_last o) (o_initial o) (o_steps o) (o_lastupd o) (o_h o) x (o_pibar o) (o_rho o) (o_params o) (o_psc o) (o_psl o) (o_mu o) (o_next o) (o_handed o).
  (** Record update; attributes of ado.py 93-113. *)
  Definition set_pibar x o := mkAdo (o_acc o) (o_last o) (o_initial o) (o_steps o) (o_lastupd o) (o_h o) (o_pi o) x (o_rho o) (o_params o) (o_psc o) (o_psl o) (o_mu o) (o_next o) (o_handed o).
  (** Record update; attributes of ado.py 93-113. *)
  Definition set_rho x o := mkAdo (o_acc o) (o_last o) (o_initial o) (o_steps o) (o_lastupd o) (o_h o) (o_pi o) (o_pibar o) x (o_params o) (o_psc o) (o_psl o) (o_mu o) (o_next o) (o_handed o).
  (** Record update; attributes of ado.py 93-113. *)
  Definition set_params x o := mkAdo (o_acc o) (o_last o) (o_initial o) (o_steps o) (o_lastupd o) (o_h o) (o_pi o) (o_pibar o) (o_rho o) x (o_psc o) (o_psl o) (o_mu o) (o_next o) (o_handed o).
  (** Record update; attributes of ado.py 93-113. *)
  Definition set_ps c l o := mkAdo (o_acc o) (o_last o) (o_initial o) (o_steps o) (o_lastupd o) (o_h o) (o_pi o) (o_pibar o) (o_rho o) (o_params o) c l (o_mu o) (o_next o) (o_handed o).
  (** Record update; attributes of ado.py 93-113. *)
  Definition set_mu x o := mkAdo (o_acc o) (o_last o) (o_initial o) (o_steps o) (o_lastupd o) (o_h o) (o_pi o) (o_pibar o) (o_rho o) (o_params o) (o_psc o) (o_psl o) x (o_next o) (o_handed o).
  (** Record update; attributes of ado.py 93-113. *)
  Definition set_next x o := mkAdo (o_acc o) (o_last o) (o_initial o) (o_steps o) (o_lastupd o) (o_h o) (o_pi o) (o_pibar o) (o_rho o) (o_params o) (o_psc o) (o_psl o) (o_mu o) x (o_handed o).
  (** Record update; attributes of ado.py 93-113. *)
  Definition set_handed x o := mkAdo (o_acc o) (o_last o) (o_initial o) (o_steps o) (o_lastupd o) (o_h o) (o_pi o) (o_pibar o) (o_rho o) (o_params o) (o_psc o) (o_psl o) (o_mu o) (o_next o) x.
  (** ado.py 74-110 __init__, with the initial mixture the DynamicMixture reports (dynamic_mixture.py 81). *)
  Definition ado0 (initial : list Q) : ado := mkAdo acc0 (-1) initial 0 0 None None None [] None [] [] None None false.

  (** dynamic_mixture.py 81: the attribute the DynamicMixture sets; ADO reads it, averaging does not. *)
  Definition ado_inform (m : list Q) (o : ado) : ado := mkAdo (o_acc o) (o_last o) m (o_steps o) (o_lastupd o) (o_h o) (o_pi o) (o_pibar o) (o_rho o) (o_params o) (o_psc o) (o_psl o) (o_mu o) (o_next o) (o_handed o).
  (** dynamic_mixture.py 81: not read by loss_avg.py 14-48. *)
  Definition avg_inform (m : list Q) (s : savg) : savg := s.

  (** A binary array operation: equal lengths, or one array of length one. *)
  (** numpy broadcasting in ado.py 340-357, 508-587. *)
  Definition bop (f : Q -> Q -> Q) (a b : list Q) : res (list Q) :=
    if Nat.eqb (length a) (length b) then Ok (map (fun p => f (fst p) (snd p)) (combine a b))
    else match a, b with
         | [x], _ => Ok (map (f x) b)
         | _, [y] => Ok (map (fun x => f x y) a)
         | _, _ => Err ValueError
         end.
  (** [a / np.sum(a)] *)
  (** ado.py 520-587. *)
  Definition normalise (a : list Q) : res (list Q) := let s := nsum a in if Qeq_bool s 0 then Err ZeroDivisionError else Ok (map (fun x => fl (x / s)%Q) a).
  (** ado.py 358-380: np.array of the per-step lists. *)
  Definition same_length {A} (l : list (list A)) : bool := match l with [] => true | x :: l' => forallb (fun y => Nat.eqb (length y) (length x)) l' end.

  (** ado.py 588-645 _update_state (the log of counts is left out). *)
  Definition ado_update (losses : list Q) (counts : list Z) (o : ado) : ado * option exn :=
    let n_in := length losses in
    let n := length (a_losses (o_acc o)) in
    let '(a, e) := update_state losses counts (o_acc o) in                                                     (* 602 *)
    let o := set_acc a o in
    match e with
    | Some e => (o, Some e)
    | None =>
        let k := (n_in - n)%nat in
        let g := option_map (grow 0%Q k) in
        let o := set_h (g (o_h o)) (o_lastupd o) (set_mu (g (o_mu o)) (set_pi (g (o_pi o)) (set_pibar (g (o_pibar o)) o))) in   (* 604-618 *)
        let psc := map (fun c => grow 0 (n_in - length c) c) (o_psc o) in
        let psl := map (fun p : list Q * nat => grow 0%Q (snd p) (fst p)) (combine (o_psl o) (map (fun c : list Z => (n_in - length c)%nat) (o_psc o)))
                   ++ skipn (length (o_psc o)) (o_psl o) in                                                    (* 622-630 *)
        let cs := match to_length n_in counts with Some c => c | None => counts end in
        let loss_step := map (fun p => if snd p =? 0 then 0%Q else fl (fst p / inject_Z (snd p))%Q) (combine losses cs) in       (* 633 *)
        let o := set_ps psc (psl ++ [loss_step]) o in
        if c_same_step cfg then
          if negb (existsb (fun c => 0 <? c) (a_counts a)) then (o, Some AssertionError)                       (* 638-639 *)
          else if negb (Nat.eqb (length counts) (length (a_counts a))) then (o, Some IndexError)               (* 642 *)
          else (set_ps (psc ++ [map (fun c => if 0 <? c then zsum counts else 0) (a_counts a)]) (psl ++ [loss_step]) o, None)
        else (set_ps (psc ++ [counts]) (psl ++ [loss_step]) o, None)
    end.

  (** ado.py 358-423 fit_scaling_laws: the fits of all domains, in a pool; ragged histories do not form an array. *)
  Definition fit_scaling_laws (o : ado) : ado * option exn :=
    let nd := length (a_counts (o_acc o)) in
    let o0 := set_params (Some (repeat p_zero nd)) o in                                                         (* 364 *)
    if negb (same_length (o_psc o)) || negb (same_length (o_psl o)) then (o0, Some ValueError)                  (* 368-369 *)
    else
      match (fix go (ks : list nat) : res (list P) :=
               match ks with
               | [] => Ok []
               | k :: ks' => match fit1 (o_psc o) (o_psl o) (o_steps o) k with
                             | Err e => Err e
                             | Ok p => match go ks' with Ok ps => Ok (p :: ps) | Err e => Err e end
                             end
               end) (seq 0 nd) with
      | Ok ps => (set_params (Some ps) o, None)
      | Err e => (o0, Some e)
      end.

  (** ado.py 470-506 compute_loss_derivative *)
  Definition column_sums (rows : list (list Z)) : list Z :=
    match rows with [] => [] | r :: rows' => fold_left (fun acc x => map (fun p => fst p + snd p) (combine acc x)) rows' r end.
  Definition loss_derivative (o : ado) (params : list P) : res (list Q) :=
    let n_k := if c_same_step cfg then if same_length (o_psc o) then Ok (column_sums (o_psc o)) else Err ValueError
               else Ok (a_counts (o_acc o)) in
    match n_k with
    | Err e => Err e
    | Ok n_k =>
        let n_k := match c_normalizer cfg with
                   | Some d => if 1 <? d then map (fun n => fl (inject_Z n / inject_Z d)%Q) n_k else map inject_Z n_k
                   | None => map inject_Z n_k
                   end in
        if negb (Nat.eqb (length params) (length n_k)) then Err IndexError                                      (* 500: boolean index *)
        else Ok (map (fun p : P * Q => if qpos (snd p) then deriv (fst p) (snd p) else 0%Q) (combine params n_k))
    end.

  (** ado.py 508-529 compute_rho_t *)
  Definition compute_rho (h mu dl : list Q) (nd : nat) : res (list Q) :=
    match bop (fun m l => fl (m * l)%Q) mu (map pow_s h) with
    | Err e => Err e
    | Ok ml => match bop (fun x d => Qmax (fl (x * - d)%Q) 0) ml dl with
               | Err e => Err e
               | Ok num => let den := nsum num in
                           if qpos den then Ok (map (fun x => fl (x / den)%Q) num)
                           else Ok (map (fun m => fl (m / inject_Z (Z.of_nat nd))%Q) mu)
               end
    end.

  (** [g * a + (1 - g) * b] *)
  Definition blend (g : Q) (a b : list Q) : res (list Q) := bop (fun x y => fl (fl (g * x) + fl (fl (1 - g) * y))%Q) a b.

  (** ado.py 544-575 enforce_min_probability *)
  Definition enforce_min (pi mu : list Q) (counts : list Z) : res (list Q) :=
    if negb (Nat.eqb (length pi) (length counts)) then Err IndexError
    else
      let adj := map (fun p => if 0 <? snd p then Qmax (fst p) (c_delta_min cfg) else fst p) (combine pi counts) in
      let total := nsum adj in
      if qpos total then Ok (map (fun x => fl (x / total)%Q) adj)
      else Ok (map (fun m => fl (m / inject_Z (Z.of_nat (length counts)))%Q) mu).

  (** ado.py 340-356 update_h_t *)
  Definition update_h (elapsed : Z) (o : ado) : ado * option exn :=
    match o_h o, o_pi o with
    | Some h, Some pi =>
        let g := match c_variant cfg with
                 | AdjustedV2 => if 1 <? elapsed then fl (1 - fl (Qpower (fl (1 - c_gamma1 cfg)) elapsed))%Q else c_gamma1 cfg
                 | _ => c_gamma1 cfg
                 end in
        match blend g pi h with Ok h' => (set_h (Some h') (o_steps o) o, None) | Err e => (o, Some e) end
    | _, _ => (o, Some AssertionError)
    end.

  (** ado.py 284-338: from the derivative to the new mixture. *)
  Definition ado_mix (updated_at_client : bool) (o : ado) : ado * (option (list Q) + exn) :=
    match o_params o, o_h o, o_mu o with
    | Some params, Some h, Some mu =>
        match loss_derivative o params with
        | Err e => (o, inr e)
        | Ok dl =>
            match compute_rho h mu dl (length (a_counts (o_acc o))) with
            | Err e => (o, inr e)
            | Ok rho =>
                let pibar := match o_pibar o with Some b => b | None => mu end in
                let o := set_pibar (Some pibar) (set_rho rho o) in
                match blend (c_gamma2 cfg) rho pibar with                                                        (* 531-542 *)
                | Err e => (o, inr e)
                | Ok pi0 =>
                    match normalise pi0 with
                    | Err e => (o, inr e)
                    | Ok pi1 =>
                        let o := set_pi (Some pi1) o in
                        match enforce_min pi1 mu (a_counts (o_acc o)) with
                        | Err e => (o, inr e)
                        | Ok pi =>
                            let o := set_pi (Some pi) o in
                            let '(o, e) := match c_variant cfg with                                              (* 298-312 *)
                                           | Vanilla | AdjustedV3 => update_h 1 o
                                           | AdjustedV1 => if updated_at_client then update_h 1 o else (o, None)
                                           | AdjustedV2 => if updated_at_client then update_h (o_steps o - o_lastupd o) o else (o, None)
                                           | OtherVariant => (o, Some ValueError)
                                           end in
                            match e with
                            | Some e => (o, inr e)
                            | None =>
                                let w := fl (1 / fl (inject_Z (o_steps o) + 1))%Q in                              (* 577-586 *)
                                match blend w rho pibar with
                                | Err e => (o, inr e)
                                | Ok b0 =>
                                    match normalise b0 with
                                    | Err e => (set_pibar (Some b0) o, inr e)
                                    | Ok b => (set_handed true (set_pibar (Some b) o), inl (Some pi))
                                    end
                                end
                            end
                        end
                    end
                end
            end
        end
    | _, _, _ => (o, inr AssertionError)                                                                         (* 284 *)
    end.

  (** ado.py 214-281: prior, warm-up, refitting, and the throttling of adjusted_v3. *)
  Definition set_prior (o : ado) : ado * option exn :=
    let nd := length (a_counts (o_acc o)) in
    match o_mu o with
    | Some _ => (o, None)
    | None =>
        let mu := grow 0%Q (nd - length (o_initial o)) (o_initial o) in
        let o := set_mu (Some mu) o in
        if Nat.ltb nd (length (o_initial o)) then (o, Some AssertionError)                                       (* 226 *)
        else if negb (np_isclose 1 (nsum mu)) then (o, Some AssertionError)                                      (* 228 *)
        else (o, None)
    end.
  (** ado.py 253-259. *)
  Definition refit_due (steps : Z) : res bool :=
    if steps =? c_start cfg then Ok true
    else if c_interval cfg =? 0 then Err ZeroDivisionError else Ok ((steps - c_start cfg) mod c_interval cfg =? 0).
  (** ado.py 203-338 calc_mixture. *)
  Definition ado_calc (updated_at_client : bool) (o : ado) : ado * (option (list Q) + exn) :=
    let o := set_steps (o_steps o + 1) o in
    let '(o, e) := set_prior o in
    match e with
    | Some e => (o, inr e)
    | None =>
        if o_steps o <? c_start cfg then (o, inl None)                                                           (* 233-248 *)
        else
          let o := set_h (match o_h o with Some h => Some h | None => o_mu o end) (o_lastupd o) o in             (* 251 *)
          match refit_due (o_steps o) with
          | Err e => (o, inr e)
          | Ok refit =>
              let '(o, e) := if refit then fit_scaling_laws o else (o, None) in                                  (* 253-259 *)
              match e with
              | Some e => (o, inr e)
              | None =>
                  match c_variant cfg, o_handed o with
                  | AdjustedV3, true =>                                                                          (* 261-281 *)
                      let o := if updated_at_client then set_next (Some (o_steps o + 15)) o else o in
                      if match o_next o with Some n => o_steps o =? n | None => false end || refit then ado_mix updated_at_client o else (o, inl None)
                  | _, _ => ado_mix updated_at_client o
                  end
              end
          end
    end.
  (** dynamic_mixing.py 28-45 with ado.py 203-338, 588-645. *)
  Definition ado_process : list Q -> list Z -> Z -> ado -> ado * (option (list Q) + exn) :=
    process_losses o_last set_olast ado_update ado_calc.

  (** ** dynamic_mixture.py *)
  (** The mixture object over an algorithm with state [S]; [dy_rows] is [mixture_in_rows()] of the current mixture. *)
  (** dynamic_mixture.py 18-43. *)
  Record dyn {S : Type} := mkDyn {
    dy_size : Z; dy_rows : list (mkey * Z); dy_alg : S; dy_informed : bool; dy_keys : option (list (mkey * Z)); dy_ids : list (Z * mkey)
  }.
  Arguments dyn : clear implicits.
  (** Dictionary lookup; dynamic_mixture.py 87-105. *)
  Definition Zget {V} (i : Z) (l : list (Z * V)) : option V := aget Z.eqb i l.

  (** dynamic_mixture.py 74-79: the initial mixture as an array indexed by key id. *)
  Fixpoint set_nth {A} (i : nat) (x : A) (l : list A) : list A :=
    match l, i with [], _ => [] | _ :: l', O => x :: l' | y :: l', S j => y :: set_nth j x l' end.
  Definition initial_array (key_id : list (mkey * Z)) (rows : list (mkey * Z)) : res (list Q) :=
    match key_id with
    | [] => Err ValueError                                                                                       (* max() of nothing *)
    | _ =>
        let top := fold_left Z.max (map snd key_id) 0 in
        match fold_left (fun r kv => match r with
                                     | Err e => Err e
                                     | Ok l => match aget mkey_eqb (fst kv) key_id with
                                               | Some i => Ok (set_nth (Z.to_nat i) (fl (inject_Z (snd kv))) l)
                                               | None => Err KeyError
                                               end
                                     end) rows (Ok (repeat 0%Q (Z.to_nat top + 1))) with
        | Err e => Err e
        | Ok l => match normalise l with
                  | Err _ => Err AssertionError                                                                  (* nan is not close to 1 *)
                  | Ok m => if np_isclose (nsum m) 1 then Ok m else Err AssertionError
                  end
        end
    end.
  (** dynamic_mixture.py 63-85 process_id_map *)
  Definition process_id_map {S} (inform : list Q -> S -> S) (key_id : list (mkey * Z)) (d : dyn S) : dyn S * option exn :=
    let d := mkDyn S (dy_size d) (dy_rows d) (dy_alg d) (dy_informed d) (Some key_id) (map (fun kv => (snd kv, fst kv)) key_id) in
    if dy_informed d then (d, None)
    else match initial_array key_id (dy_rows d) with
         | Err e => (d, Some e)
         | Ok m => (mkDyn S (dy_size d) (dy_rows d) (inform m (dy_alg d)) true (dy_keys d) (dy_ids d), None)
         end.
  (** dynamic_mixture.py 102 *)
  Fixpoint weight_map (ids : list (Z * mkey)) (i : Z) (mix : list Q) (acc : list (mkey * Q)) : res (list (mkey * Q)) :=
    match mix with
    | [] => Ok acc
    | v :: mix' => if qpos v then match Zget i ids with
                                  | Some k => weight_map ids (i + 1) mix' (aset mkey_eqb k v acc)
                                  | None => Err KeyError
                                  end
                   else weight_map ids (i + 1) mix' acc
    end.
  (** dynamic_mixture.py 87-105 _process_losses *)
  Definition dyn_losses {S} (process : list Q -> list Z -> Z -> S -> S * (option (list Q) + exn))
      (losses : list Q) (counts : list Z) (mixture_id : Z) (d : dyn S) : dyn S * option exn :=
    if match dy_keys d with None => true | Some _ => negb (dy_informed d) end || (mixture_id <? 0) then (d, Some AssertionError)
    else
      let '(s, r) := process losses counts mixture_id (dy_alg d) in
      let d := mkDyn S (dy_size d) (dy_rows d) s (dy_informed d) (dy_keys d) (dy_ids d) in
      match r with
      | inr e => (d, Some e)
      | inl None => (d, None)
      | inl (Some mix) =>
          if negb (np_isclose (nsum mix) 1) then (d, Some AssertionError)
          else match weight_map (dy_ids d) 0 mix [] with
               | Err e => (d, Some e)
               | Ok w => match static_mixture fl (dy_size d) w with
                         | Err e => (d, Some e)
                         | Ok rows => (mkDyn S (dy_size d) rows s (dy_informed d) (dy_keys d) (dy_ids d), None)
                         end
               end
      end.
End Dyn.
Arguments dyn : clear implicits.
