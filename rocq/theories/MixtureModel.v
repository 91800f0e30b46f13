(** Model of mixtera/core/query/mixture/: StaticMixture, HierarchicalStaticMixture, InferringMixture, ArbitraryMixture,
    MixtureSchedule, the Mixture base class, and index_utils.infer_mixture_from_chunkerindex.

    Floats: every float is a rational.  [fl] is the rounding of one float operation; [fl := fun x => x] gives exact
    arithmetic.  [int(x)] and comparisons are exact in Python as well. *)
From Verif Require Import Base MixtureKeyModel UtilsModel ChunkGenModel.
From Coq Require Import QArith Qabs Qminmax.
Open Scope Z_scope.

(** No rounding; stands for the floats of static_mixture.py 41-70 when they are exact. *)
Definition exactly : Q -> Q := fun x => x.

(** Python [sum] over floats: left to right, starting with 0. *)
Definition fsum (fl : Q -> Q) (l : list Q) : Q := fold_left (fun acc x => fl (acc + x)%Q) l 0%Q.

(** [math.isclose(t, 1.0, rel_tol=1e-3)] *)
Definition isclose1 (t : Q) : bool := Qle_bool (Qabs (t - 1)) ((1 # 1000) * Qmax (Qabs t) 1).

(** static_mixture.py 60-66: unit increments, cyclically over the sorted positions, starting at [index]. *)
Fixpoint cyc_loop (diff : nat) (index : nat) (order : list nat) (counts : list Z) : list Z :=
  match diff with
  | O => counts
  | S d => cyc_loop d (S index) order
             (match nth_error order (index mod length order) with Some i => incr_nth i counts | None => counts end)
  end.

(** static_mixture.py 39-69 parse_user_mixture. *)
Definition parse_user_mixture (fl : Q -> Q) (chunk_size : Z) (um : list (mkey * Q)) : res (list (mkey * Z)) :=
  if negb (forallb (fun kv => Qle_bool 0 (snd kv)) um) then Err AssertionError            (* 43-45 *)
  else
    let ideal := map (fun kv => fl (inject_Z chunk_size * snd kv)%Q) um in                 (* 47 *)
    let floors := map qtrunc ideal in                                                      (* 48 *)
    let fracs := map (fun x => fl (x - inject_Z (qtrunc x))%Q) ideal in                    (* 49 *)
    let diff := chunk_size - zsum floors in                                                (* 52-53 *)
    if diff <? 0 then Err AssertionError                                                   (* 55 *)
    else
      let order := map snd (sort_desc (combine fracs (seq 0 (length fracs)))) in           (* 59 *)
      if (0 <? diff) && Nat.eqb (length order) 0 then Err ZeroDivisionError                (* 63 *)
      else
        let counts := cyc_loop (Z.to_nat diff) 0 order floors in
        if negb (zsum counts =? chunk_size) then Err AssertionError                        (* 68 *)
        else Ok (combine (map fst um) counts).

(** static_mixture.py 14-37 __init__; the value is [mixture_in_rows()] (75-76). *)
Definition static_mixture (fl : Q -> Q) (chunk_size : Z) (mixture : list (mkey * Q)) : res (list (mkey * Z)) :=
  let total := fsum fl (map snd mixture) in
  if negb (isclose1 total) then Err ValueError                                             (* 31-32 *)
  else parse_user_mixture fl chunk_size (map (fun kv => (fst kv, fl (snd kv / total)%Q)) mixture).

(** hierarchical_static_mixture.py 11-21: MixtureNode and Component. *)
Inductive mnode := Node (property_name : str) (components : list mcomp)
with mcomp := Comp (values : list str) (weight : Q) (submixture : option mnode).

(** hierarchical_static_mixture.py 59-69 convert_to_mixture_key_format.  Dicts are keyed by the canonical form. *)
Fixpoint convert (fl : Q -> Q) (n : mnode) : list (mkey * Q) :=
  match n with
  | Node name comps =>
      (fix go (cs : list mcomp) (acc : list (mkey * Q)) : list (mkey * Q) :=
         match cs with
         | [] => acc
         | Comp values weight (Some sub) :: cs' =>
             go cs' (fold_left (fun d kv => aset mkey_eqb (canon (add_property name values (fst kv)))
                                                 (fl (snd kv * weight)%Q) d) (convert fl sub) acc)
         | Comp values weight None :: cs' =>
             go cs' (aset mkey_eqb (canon [(name, values)]) weight acc)
         end) comps []
  end.

(** hierarchical_static_mixture.py 45-57 parse_mixture_node. *)
Definition hierarchical_mixture (fl : Q -> Q) (chunk_size : Z) (n : mnode) : res (list (mkey * Z)) :=
  let um := convert fl n in
  if negb (forallb (fun kv => Qle_bool 0 (snd kv)) um) then Err AssertionError
  else
    let mixture := map (fun kv => (fst kv, qtrunc (fl (inject_Z chunk_size * snd kv)%Q))) um in
    let diff := chunk_size - zsum (map snd mixture) in
    if 0 <? diff then
      match mixture with
      | [] => Err IndexError                                 (* list(...)[0] *)
      | (k, v) :: m => Ok ((k, v + diff) :: m)
      end
    else Ok mixture.

(** index_utils.py 4-32 infer_mixture_from_chunkerindex. *)
Definition part_mass (p : part) : Z :=
  zsum (flat_map (fun df => flat_map (fun fr => map (fun r => snd r - fst r) (snd fr)) (snd df)) p).
(** index_utils.py 4-30. *)
Definition infer_mixture (fl : Q -> Q) (idx : index) : res (Z * list (mkey * Q)) :=
  let masses := map (fun kp => (fst kp, part_mass (snd kp))) idx in
  let total := zsum (map snd masses) in
  match masses with
  | [] => Ok (total, [])
  | _ => if total =? 0 then Err ZeroDivisionError
         else Ok (total, map (fun km => (fst km, fl (inject_Z (snd km) / inject_Z total)%Q)) masses)
  end.

(** inferring_mixture.py 31-51 process_index; the value is the new [_mixture]. *)
Definition infer_rows (fl : Q -> Q) (chunk_size : Z) (idx : index) : res (list (mkey * Z)) :=
  match infer_mixture fl idx with
  | Err e => Err e
  | Ok (total, um) =>
      if total =? 0 then match um with [] => Ok [] | _ => Err AssertionError end
      else if (0 <? total) && negb (Nat.eqb (length um) 0) then parse_user_mixture fl chunk_size um
      else Err AssertionError
  end.

(** ** Mixture objects (mixture.py 13-90, mixture_schedule.py) *)
Inductive mixture :=
| Mixture (chunk_size current_step : Z) (strict : bool) (kind : mkind)
with mkind :=
| KRows (rows : list (mkey * Z))                (** static or hierarchical: fixed rows *)
| KArbitrary
| KInferring (rows : list (mkey * Z))
| KSchedule (entries : list (Z * mixture)).     (** sorted entries (start_step, mixture) *)

(** Attribute access; mixture.py 16-27. *)
Definition mx_csize (m : mixture) : Z := match m with Mixture c _ _ _ => c end.
(** Attribute access; mixture.py 16-27. *)
Definition mx_step (m : mixture) : Z := match m with Mixture _ s _ _ => s end.
(** Attribute access; mixture.py 16-27. *)
Definition mx_strict (m : mixture) : bool := match m with Mixture _ _ b _ => b end.
(** Attribute access; mixture.py 16-27. *)
Definition mx_kind (m : mixture) : mkind := match m with Mixture _ _ _ k => k end.
(** mixture_schedule.py 36-44, dynamic_mixture.py 32-37: chunk_size is assigned. *)
Definition set_csize (c : Z) (m : mixture) : mixture := match m with Mixture _ s b k => Mixture c s b k end.

(** mixture_schedule.py 67-80 current_mixture: last entry (of the sorted list) whose start_step is reached, else the first. *)
Definition pick (step : Z) (entries : list (Z * mixture)) : option (Z * mixture) :=
  match find (fun e => fst e <=? step) (rev entries) with
  | Some e => Some e
  | None => nth_error entries 0
  end.

(** mixture_in_rows of each class. *)
(** mixture_in_rows of each class: mixture_schedule.py 46-53, static_mixture.py 76-77, dynamic_mixture.py 56-57, arbitrary_mixture.py 18-19, inferring_mixture.py 25-26, hierarchical_static_mixture.py 71-72. *)
Fixpoint mixture_in_rows_fuel (fuel : nat) (m : mixture) : list (mkey * Z) :=
  match m with
  | Mixture _ step _ k =>
      match k with
      | KRows rows => rows
      | KArbitrary => []
      | KInferring rows => rows
      | KSchedule entries =>
          match fuel, pick step entries with
          | S fuel', Some (_, e) => mixture_in_rows_fuel fuel' e
          | _, _ => []
          end
      end
  end.

(** Nesting depth of schedules. *)
(** Nesting of mixture objects (mixture_schedule.py 13-44, dynamic_mixture.py 39). *)
Fixpoint depth (m : mixture) : nat :=
  match m with
  | Mixture _ _ _ (KSchedule entries) => S (fold_right (fun e d => Nat.max (depth (snd e)) d) 0%nat entries)
  | _ => 0%nat
  end.
(** mixture.py 33-50 and its overrides. *)
Definition mixture_in_rows (m : mixture) : list (mkey * Z) := mixture_in_rows_fuel (depth m) m.

(** mixture_schedule.py 22-45 MixtureSchedule.__init__ *)
Definition schedule_init (chunk_size : Z) (schedule : list (Z * mixture)) : res mixture :=
  match schedule with
  | [] => Err RuntimeError                                                (* 31-32 *)
  | _ =>
      let adj := map (fun e => (fst e, if mx_csize (snd e) =? chunk_size then snd e else set_csize chunk_size (snd e))) schedule in
      Ok (Mixture chunk_size 0 true (KSchedule (isort (fun a b => fst a <? fst b) adj)))
  end.

(** mixture.py 60-79 process_client_feedback (losses are ignored by all classes but DynamicMixture). *)
Definition feedback (m : mixture) (training_steps : Z) : mixture :=
  match m with Mixture c s b k => Mixture c (Z.max s training_steps) b k end.

(** process_index of each class; a schedule informs only its current entry (mixture_schedule.py 57-64). *)
Fixpoint replace_nth (e' : Z * mixture) (pos : nat) (l : list (Z * mixture)) : list (Z * mixture) :=
  match l, pos with
  | [], _ => []
  | _ :: l', O => e' :: l'
  | x :: l', S p => x :: replace_nth e' p l'
  end.
(** Position of the entry [pick] returns. *)
(** mixture_schedule.py 65-77. *)
Definition pick_pos (step : Z) (entries : list (Z * mixture)) : nat :=
  let fix go (i : nat) (l : list (Z * mixture)) (best : nat) : nat :=
    match l with [] => best | e :: l' => go (S i) l' (if fst e <=? step then i else best) end in
  go 0%nat entries 0%nat.
(** mixture_schedule.py 55-63, inferring_mixture.py 32-50, dynamic_mixture.py 59-61, static_mixture.py 79-80, arbitrary_mixture.py 25-26, hierarchical_static_mixture.py 74-75. *)
Fixpoint process_index (fuel : nat) (fl : Q -> Q) (idx : index) (m : mixture) : res mixture :=
  match m with
  | Mixture c s b k =>
      match k with
      | KRows _ | KArbitrary => Ok m
      | KInferring _ => match infer_rows fl c idx with Ok rows => Ok (Mixture c s b (KInferring rows)) | Err e => Err e end
      | KSchedule entries =>
          match fuel, nth_error entries (pick_pos s entries) with
          | S fuel', Some (st, e) =>
              match process_index fuel' fl idx e with
              | Ok e' => Ok (Mixture c s b (KSchedule (replace_nth (st, e') (pick_pos s entries) entries)))
              | Err x => Err x
              end
          | _, _ => Err OutOfFuel
          end
      end
  end.
