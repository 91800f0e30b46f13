(** Model of mixtera/core/query/query_result.py: component coroutines, chunk generator, QueryResult iteration.

    Conventions.  A MixtureKey is represented by its canonical form (MixtureKeyModel.canon), so dict identity of keys
    is Leibniz equality ([mkey_eqb]); xxh64 is assumed collision free.  A coroutine is the state it is suspended in.
    A Python exception is a value of [exn]; [OutOfFuel] marks a loop that did not end within the given fuel. *)
From Verif Require Import Base MixtureKeyModel UtilsModel.
From Coq Require Import QArith.
Open Scope Z_scope.

(** Exceptions raised by query_result.py 183-600 (asserts, arithmetic, lookups); not distinguished further. *)
Inductive exn := AssertionError | ZeroDivisionError | ValueError | KeyError | IndexError | TypeError | RuntimeError | NotImplementedError | OutOfFuel.
(** A call of query_result.py 183-600 that returns or raises. *)
Inductive res (A : Type) := Ok (a : A) | Err (e : exn).
Arguments Ok {A}. Arguments Err {A}.

(** ** Index and chunks *)
(** dataset id -> file id -> ranges (index/index.py ChunkerIndexDatasetEntries) *)
(** index/index.py 4-16, as used by query_result.py 183-260: datasets, their files, their ranges. *)
Definition part := list (Z * list (Z * list range)).
(** mixture key -> entries (ChunkerIndex) *)
(** index/index.py 4-16, query_result.py 60-75 _chunker_index. *)
Definition index := list (mkey * part).

(** A range with its place: ((dataset, file), (start, end)). *)
(** query_result.py 226-230: loop variables dataset_id, file_id, and the interval. *)
Definition frange := ((Z * Z) * range)%type.

(** ** Component coroutine: query_result.py 182-260 *)

(** query_result.py 226-228: traversal order of the three nested loops (datasets sorted, files sorted, ranges). *)
Definition flatten (p : part) : list frange :=
  flat_map (fun df => flat_map (fun fr => map (fun r => ((fst df, fst fr), r)) (snd fr))
                               (isort (fun a b => fst a <? fst b) (snd df)))
           (isort (fun a b => fst a <? fst b) p).

(** query_result.py 237/246: [current_partition[dataset_id][file_id].append(r)] on nested defaultdicts. *)
Definition padd (d f : Z) (r : range) (p : part) : part :=
  let files := match aget Z.eqb d p with Some fs => fs | None => [] end in
  let rs := match aget Z.eqb f files with Some rs => rs | None => [] end in
  aset Z.eqb d (aset Z.eqb f (rs ++ [r]) files) p.

(** query_result.py 219-260: [send(n)] to a component coroutine.  The state of the suspended coroutine is the list of
    ranges not handed out yet; [None] = StopIteration.  [acc]/[cur] are current_partition/current_cardinality. *)
Fixpoint comp_take (rest : list frange) (acc : part) (cur n : Z) : option (part * list frange) :=
  match rest with
  | [] => if 0 <? cur then Some (acc, []) else None                        (* 257-260 *)
  | ((d, f), (s, e)) :: rest' =>
      if s <? e then                                                        (* 230, 255 *)
        if cur + (e - s) <? n then                                          (* 233 *)
          comp_take rest' (padd d f (s, e) acc) (cur + (e - s)) n           (* 237-239 *)
        else
          let diff := cur + (e - s) - n in                                  (* 245 *)
          Some (padd d f (s, e - diff) acc, ((d, f), (e - diff, e)) :: rest')  (* 246-252 *)
      else comp_take rest' acc cur n
  end.
(** query_result.py 219-260: one send to a component, starting with an empty partition. *)
Definition comp_send (rest : list frange) (n : Z) : option (part * list frange) := comp_take rest [] 0 n.

(** query_result.py 372-376 (size of a component chunk). *)
Definition part_size (p : part) : Z :=
  zsum (map (fun df => zsum (map (fun fr => zsum (map (fun r => snd r - fst r) (snd fr))) (snd df))) p).

(** query_result.py 390-397: [chunk[mk][d][f] = ranges] or merged into the existing list. *)
Definition file_put (d f : Z) (rs : list range) (p : part) : part :=
  let files := match aget Z.eqb d p with Some fs => fs | None => [] end in
  let rs' := match aget Z.eqb f files with Some old => merge_sorted_lists old rs | None => rs end in
  aset Z.eqb d (aset Z.eqb f rs' files) p.
(** query_result.py 388-389: loops over datasets and files of the component chunk. *)
Definition part_merge (p q : part) : part :=
  fold_left (fun acc df => fold_left (fun acc fr => file_put (fst df) (fst fr) (snd fr) acc) (snd df) acc) q p.
(** query_result.py 378-397: the component chunk goes below its mixture key. *)
Definition chunk_merge (mk : mkey) (q : part) (c : index) : index :=
  aset mkey_eqb mk (part_merge (match aget mkey_eqb mk c with Some p => p | None => [] end) q) c.

(** ** One attempt to build a chunk for a mixture: query_result.py 349-478 *)
Record att := mkAtt {
  a_comps : list (mkey * list frange);   (** component_iterators and what they still hold *)
  a_chunk : index;
  a_rem : list (mkey * Z);               (** remaining_sizes *)
  a_mix : list (mkey * Z);               (** mixture (adjusted by best effort) *)
  a_prog : bool                          (** global_progress_made *)
}.

(** [d[k]] for a key the code knows to be present. *)
(** query_result.py 363-410: dictionary accesses [remaining_sizes[...]], [mixture[...]]. *)
Definition lookup0 (k : mkey) (l : list (mkey * Z)) : Z :=
  match aget mkey_eqb k l with Some v => v | None => 0 end.

(** query_result.py 363-410: offer [mk] to the (sorted) components. *)
Fixpoint serve (mk : mkey) (cks : list mkey) (a : att) : res att :=
  match cks with
  | [] => Ok a
  | ck :: cks' =>
      if key_eq mk ck then                                                  (* 365 *)
        match aget mkey_eqb ck (a_comps a) with
        | None => Err KeyError
        | Some st =>
            match comp_send st (lookup0 mk (a_rem a)) with
            | None => serve mk cks' a                                       (* 409-410 *)
            | Some (p, st') =>
                let sz := part_size p in
                if lookup0 mk (a_rem a) <? sz then Err AssertionError       (* 378-380 *)
                else
                  let a' := {| a_comps := aset mkey_eqb ck st' (a_comps a);
                               a_chunk := chunk_merge mk p (a_chunk a);
                               a_rem := aset mkey_eqb mk (lookup0 mk (a_rem a) - sz) (a_rem a);
                               a_mix := a_mix a;
                               a_prog := a_prog a || (0 <? sz) |} in        (* 403 *)
                  if lookup0 mk (a_rem a') =? 0 then Ok a' else serve mk cks' a'  (* 405-407 *)
            end
        end
      else serve mk cks' a
  end.

(** query_result.py 459-462 *)
Definition add_each (kds : list (mkey * Z)) (l : list (mkey * Z)) : list (mkey * Z) :=
  fold_left (fun l kd => aset mkey_eqb (fst kd) (lookup0 (fst kd) l + snd kd) l) kds l.

(** query_result.py 417-475: best-effort redistribution of what is missing for [mk]. *)
Definition best_effort (mk : mkey) (a : att) : res att :=
  let missing := lookup0 mk (a_rem a) in
  let rem1 := adel mkey_eqb mk (a_rem a) in                                 (* 419 *)
  if lookup0 mk (a_mix a) <? missing then Err AssertionError                (* 423-426 *)
  else
    let mix1 := if missing =? lookup0 mk (a_mix a) then adel mkey_eqb mk (a_mix a)   (* 431-432 *)
                else aset mkey_eqb mk (lookup0 mk (a_mix a) - missing) (a_mix a) in  (* 438 *)
    match rem1 with
    | [] => Ok (mkAtt (a_comps a) (a_chunk a) rem1 mix1 (a_prog a))          (* 440-441 *)
    | _ =>
        let target := ksort (map fst rem1) in                               (* 446 *)
        let total := zsum (map (fun k => lookup0 k mix1) target) in         (* 449 *)
        if total =? 0 then Err ZeroDivisionError                            (* 451 *)
        else
          let ratios := map (fun k => (inject_Z (lookup0 k mix1) / inject_Z total)%Q) target in
          match distribute_by_ratio missing ratios with                     (* 453 *)
          | None => Err ValueError
          | Some ds =>
              if negb (zsum ds =? missing) then Err AssertionError          (* 455-457 *)
              else
                let rem2 := add_each (combine target ds) rem1 in
                let mix2 := add_each (combine target ds) mix1 in
                if negb (zsum (map snd (a_mix a)) =? zsum (map snd mix2)) then Err AssertionError (* 464-469 *)
                else Ok (mkAtt (a_comps a) (a_chunk a) rem2 mix2 true)      (* 473 *)
          end
    end.

(** query_result.py 360-475: one pass over the sorted mixture keys; best effort leaves the loop (475). *)
Fixpoint serve_keys (strict : bool) (cks mks : list mkey) (a : att) : res att :=
  match mks with
  | [] => Ok a
  | mk :: mks' =>
      match serve mk cks a with
      | Err e => Err e
      | Ok a' =>
          if 0 <? lookup0 mk (a_rem a') then                                (* 413 *)
            if strict then serve_keys strict cks mks' a'                    (* 415-416 *)
            else best_effort mk a'
          else serve_keys strict cks mks' a'
      end
  end.

(** query_result.py 356-357: the while loop. *)
Fixpoint attempt_loop (fuel : nat) (strict : bool) (a : att) : res att :=
  if a_prog a && existsb (fun kv => negb (snd kv =? 0)) (a_rem a) then
    match fuel with
    | O => Err OutOfFuel
    | S fuel' =>
        match serve_keys strict (ksort (map fst (a_comps a))) (ksort (map fst (a_rem a)))
                         (mkAtt (a_comps a) (a_chunk a) (a_rem a) (a_mix a) false) with
        | Err e => Err e
        | Ok a' => attempt_loop fuel' strict a'
        end
    end
  else Ok a.

(** query_result.py 349-355: initial values; the number of passes never exceeds the fuel (proved). *)
Definition run_attempt (strict : bool) (comps : list (mkey * list frange)) (mixture : list (mkey * Z)) : res att :=
  attempt_loop (S (S (length mixture))) strict (mkAtt comps [] mixture mixture true).

(** query_result.py 478 *)
Definition att_success (a : att) : bool :=
  match a_rem a with [] => false | _ => forallb (fun kv => snd kv =? 0) (a_rem a) end.

(** ** The generator *)
(** Snapshot of a Mixture object as the generator sees it. *)
(** query_result.py 313-324: what is read of a Mixture (mixture.py 16-27, 33-40). *)
Record mixobj := mkMix { m_rows : list (mkey * Z); m_strict : bool; m_csize : Z }.
(** Mixture objects are shared by reference; [heap] gives their contents at the time of the call. *)
(** query_result.py 76, 262-276: a mixture object's identity. *)
Definition ref := Z.
(** query_result.py 313-324: contents of the mixture objects when the generator runs. *)
Definition heap := ref -> mixobj.

(** An entry of _mixture_log: a deep copy (344) or the object itself (510). *)
Inductive logged := LSnap (m : mixobj) | LRef (r : ref).

(** The attributes of QueryResult the generator uses. *)
(** query_result.py 43-92. *)
Record qself := mkSelf {
  s_log : list (Z * logged);        (** _mixture_log *)
  s_kid : list (mkey * Z);          (** _key_id_map *)
  s_mix : ref;                      (** _mixture *)
  s_replay : bool                   (** _is_replay *)
}.

(** query_result.py 479-495, 530-540: the ResultChunk(...) built (result_chunk.py 89-138); paths and parsing functions left out. *)
Record rchunk := mkChunk {
  rc_index : index; rc_csize : Z; rc_kid : list (mkey * Z); rc_mid : Z;
  rc_mix : option (list (mkey * Z)); rc_strict : bool
}.

(** query_result.py 288-311: the generator's local variables. *)
Record gstate := mkG {
  g_keys : list mkey;                        (** chunker_index_keys after the shuffle *)
  g_comps : list (mkey * list frange);
  g_cur : Z;                                 (** current_chunk_index *)
  g_mid : Z;                                 (** mixture_id *)
  g_kidx : Z;                                (** chunker_index_keys_idx *)
  g_empty : list Z;                          (** empty_key_idx *)
  g_prev : option (list (mkey * Z));         (** previous_mixture *)
  g_fail : Z;                                (** no_success_counter *)
  g_base : ref;                              (** base_mixture *)
  g_target : Z                               (** target_chunk_index *)
}.

(** Suspension points: at [yield chunk] (or the initial yield, 310) the sent pair is assigned; at [yield None] (503)
    it is discarded; [GDone] = the generator returned or raised. *)
Inductive gen := GChunk (g : gstate) | GNone (g : gstate) | GDone.

(** query_result.py 479-548: what the generator yields, or how it ends. *)
Inductive gout := YChunk (c : rchunk) | YNone | YStop | YErr (e : exn).

(** Python dict equality. *)
(** query_result.py 326: [previous_mixture != mixture] on dicts. *)
Definition dict_eqb (a b : list (mkey * Z)) : bool :=
  Nat.eqb (length a) (length b) &&
  forallb (fun kv => match aget mkey_eqb (fst kv) b with Some v => v =? snd kv | None => false end) a.

(** query_result.py 326. *)
Definition prev_differs (prev : option (list (mkey * Z))) (m : list (mkey * Z)) : bool :=
  match prev with None => true | Some p => negb (dict_eqb p m) end.

(** query_result.py 103: [max(self._key_id_map.values())]. *)
Definition zmax_list (l : list Z) : Z := fold_right Z.max (-1) l.

(** query_result.py 104-109: ids for the sorted new keys. *)
Fixpoint assign_ids (keys : list mkey) (cur : Z) (kid : list (mkey * Z)) : list (mkey * Z) :=
  match keys with
  | [] => kid
  | k :: keys' => if amem mkey_eqb k kid then assign_ids keys' cur kid
                  else assign_ids keys' (cur + 1) (aset mkey_eqb k cur kid)
  end.
(** Python [set(l)] followed by [sorted]: duplicates removed. *)
(** query_result.py 97-104. *)
Fixpoint dedup (l : list mkey) : list mkey :=
  match l with
  | [] => []
  | x :: l' => if existsb (mkey_eqb x) l' then dedup l' else x :: dedup l'
  end.
(** query_result.py 94-114 _update_key_id_map (the call to mixture.process_id_map is not part of this state). *)
Definition update_key_id_map (idx : index) (rows : list (mkey * Z)) (kid : list (mkey * Z)) : list (mkey * Z) :=
  match kid with
  | [] => assign_ids (ksort (dedup (map fst rows ++ map fst idx))) 0 []
  | _ => assign_ids (ksort (dedup (map fst rows))) (zmax_list (map snd kid) + 1) kid
  end.

(** query_result.py 326-347: bookkeeping when the (non-empty) mixture differs from the previous one. *)
Definition note_mixture (idx : index) (h : heap) (g : gstate) (sf : qself) (m : mixobj) : gstate * qself :=
  if prev_differs (g_prev g) (m_rows m) then
    (mkG (g_keys g) (g_comps g) (g_cur g) (g_mid g + 1) (g_kidx g) (g_empty g) (Some (m_rows m)) (g_fail g)
         (g_base g) (g_target g),
     mkSelf (if s_replay sf then s_log sf else s_log sf ++ [(g_cur g, LSnap m)])
            (update_key_id_map idx (m_rows (h (s_mix sf))) (s_kid sf)) (s_mix sf) (s_replay sf))
  else (g, sf).

(** query_result.py 505-511: bookkeeping for the arbitrary (empty) mixture. *)
Definition note_arbitrary (g : gstate) (sf : qself) : gstate * qself :=
  if (match g_prev g with Some _ => true | None => false end) || (g_cur g =? 0) then
    (mkG (g_keys g) (g_comps g) (g_cur g) (g_mid g + 1) (g_kidx g) (g_empty g) None (g_fail g)
         (g_base g) (g_target g),
     mkSelf (if s_replay sf then s_log sf else s_log sf ++ [(g_cur g, LRef (g_base g))])
            (s_kid sf) (s_mix sf) (s_replay sf))
  else (g, sf).

(** query_result.py 521: [chunker_index_keys[chunker_index_keys_idx]]. *)
Definition nth_key (i : Z) (l : list mkey) : option mkey := nth_error l (Z.to_nat i).
(** query_result.py 516: [in empty_key_idx]. *)
Definition zmem (x : Z) (l : list Z) : bool := existsb (Z.eqb x) l.

(** query_result.py 514-526: how the search for a non-empty component ends. *)
Inductive rr_out := RFound (key : mkey) (p : part) | RExhausted | RErr (e : exn).

(** query_result.py 514-526: round robin over the shuffled keys. Returns components, kidx, empty set, outcome. *)
Fixpoint round_robin (fuel : nat) (keys : list mkey) (csize : Z)
         (comps : list (mkey * list frange)) (kidx : Z) (empty : list Z)
  : list (mkey * list frange) * Z * list Z * rr_out :=
  if Nat.ltb (length empty) (length keys) then
    match fuel with
    | O => (comps, kidx, empty, RErr OutOfFuel)
    | S fuel' =>
        let n := Z.of_nat (length keys) in
        let kidx1 := (kidx + 1) mod n in                                    (* 515 *)
        if zmem kidx1 empty then                                            (* 516 *)
          round_robin fuel' keys csize comps ((kidx1 + 1) mod n) empty      (* 518-519 *)
        else
          match nth_key kidx1 keys with
          | None => (comps, kidx1, empty, RErr KeyError)
          | Some key =>
              match aget mkey_eqb key comps with
              | None => (comps, kidx1, empty, RErr KeyError)
              | Some st =>
                  match comp_send st csize with                             (* 523 *)
                  | None => round_robin fuel' keys csize comps kidx1 (kidx1 :: empty)  (* 524-526 *)
                  | Some (p, st') => (aset mkey_eqb key st' comps, kidx1, empty, RFound key p)
                  end
              end
          end
    end
  else (comps, kidx, empty, RExhausted).

(** result_chunk.py 112-115: constructor assertion. *)
Definition keys_known (c : index) (kid : list (mkey * Z)) : bool :=
  forallb (fun k => amem mkey_eqb k kid) (map fst c).

(** query_result.py 316-547: the main loop, from the top of [while True] to the next suspension. *)
Fixpoint gen_loop (fuel : nat) (idx : index) (h : heap) (g : gstate) (sf : qself) : gen * qself * gout :=
  match fuel with
  | O => (GDone, sf, YErr OutOfFuel)
  | S fuel' =>
      if 10 <? g_fail g then (GDone, sf, YStop)                             (* 317-319 *)
      else
        let m := h (g_base g) in
        match m_rows m with
        | _ :: _ =>
            let '(g1, sf1) := note_mixture idx h g sf m in
            match run_attempt (m_strict m) (g_comps g1) (m_rows m) with
            | Err e => (GDone, sf1, YErr e)
            | Ok a =>
                let mk fail cur :=
                  mkG (g_keys g1) (a_comps a) cur (g_mid g1) (g_kidx g1) (g_empty g1) (g_prev g1) fail
                      (g_base g1) (g_target g1) in
                if att_success a then                                       (* 478-480 *)
                  if g_cur g1 =? g_target g1 then                           (* 481 *)
                    if keys_known (a_chunk a) (s_kid sf1) then
                      (GChunk (mk 0 (g_cur g1 + 1)), sf1,
                       YChunk (mkChunk (a_chunk a) (m_csize m) (s_kid sf1) (g_mid g1) (Some (a_mix a)) (m_strict m)))
                    else (GDone, sf1, YErr AssertionError)
                  else gen_loop fuel' idx h (mk 0 (g_cur g1 + 1)) sf1       (* 495-498, 546-547 *)
                else (GNone (mk (g_fail g1 + 1) (g_cur g1)), sf1, YNone)    (* 500-503 *)
            end
        | [] =>
            let '(g1, sf1) := note_arbitrary g sf in
            let '(comps', kidx', empty', out) :=
              round_robin fuel (g_keys g1) (m_csize m) (g_comps g1) (g_kidx g1) (g_empty g1) in
            let mk cur :=
              mkG (g_keys g1) comps' cur (g_mid g1) kidx' empty' (g_prev g1) (g_fail g1)
                  (g_base g1) (g_target g1) in
            match out with
            | RErr e => (GDone, sf1, YErr e)
            | RExhausted => (GDone, sf1, YStop)                             (* 528-529 *)
            | RFound key p =>
                if g_cur g1 =? g_target g1 then                             (* 532 *)
                  if keys_known [(key, p)] (s_kid sf1) then
                    (GChunk (mk (g_cur g1 + 1)), sf1,
                     YChunk (mkChunk [(key, p)] (m_csize m) (s_kid sf1) (g_mid g1) None true))
                  else (GDone, sf1, YErr AssertionError)
                else gen_loop fuel' idx h (mk (g_cur g1 + 1)) sf1
            end
        end
  end.

(** query_result.py 288-310: creation and priming; [order] is the shuffled list of the index keys. *)
Definition gen_init (idx : index) (order : list mkey) : gen :=
  GChunk (mkG order
              (map (fun k => (k, match aget mkey_eqb k idx with Some p => flatten p | None => [] end)) order)
              0 (-1) 0 [] None 0 0 0).

(** [generator.send((mixture, target))] *)
(** query_result.py 580-581 with 310, 495, 503, 540: the pair sent is assigned at a yield of a chunk and dropped at [yield None]. *)
Definition gen_send (fuel : nat) (idx : index) (h : heap) (gn : gen) (sf : qself) (r : ref) (target : Z)
  : gen * qself * gout :=
  match gn with
  | GDone => (GDone, sf, YStop)
  | GChunk g =>
      gen_loop fuel idx h
        (mkG (g_keys g) (g_comps g) (g_cur g) (g_mid g) (g_kidx g) (g_empty g) (g_prev g) (g_fail g) r target) sf
  | GNone g => gen_loop fuel idx h g sf
  end.

(** ** QueryResult *)
Record qr := mkQR {
  q_idx : index;                 (** _chunker_index *)
  q_order : list mkey;           (** result of the seeded shuffle of the sorted index keys (292-297) *)
  q_self : qself;
  q_count : Z;                   (** _index (shared counter) *)
  q_gen : option gen;            (** _generator *)
  q_nret : Z;                    (** _num_returns_gen *)
  q_son : bool                   (** stop_on_none *)
}.

(** query_result.py 568-598: outcome of __next__. *)
Inductive nout := NChunk (c : rchunk) | NNone | NStop | NErr (e : exn).

(** query_result.py 43-92 __init__ (index, mixture and stop_on_none given). *)
Definition qr_init (idx : index) (order : list mkey) (h : heap) (mix : ref) (son : bool) : qr :=
  mkQR idx order (mkSelf [] (update_key_id_map idx (m_rows (h mix)) []) mix false) 0 None 0 son.

(** query_result.py 262-276 update_mixture (process_index acts on the mixture object, i.e. on the heap). *)
Definition qr_update_mixture (h : heap) (mix : ref) (q : qr) : qr :=
  mkQR (q_idx q) (q_order q)
       (mkSelf (s_log (q_self q)) (update_key_id_map (q_idx q) (m_rows (h mix)) (s_kid (q_self q))) mix
               (s_replay (q_self q)))
       (q_count q) (q_gen q) (q_nret q) (q_son q).

(** query_result.py 568-596 __next__. *)
Definition qr_next (fuel : nat) (h : heap) (q : qr) : qr * nout :=
  let target := q_count q in
  let count1 := q_count q + 1 in
  let gn := match q_gen q with Some g => g | None => gen_init (q_idx q) (q_order q) end in
  if (match q_gen q with None => true | Some _ => false end) && negb (q_nret q =? 0)
  then (mkQR (q_idx q) (q_order q) (q_self q) count1 (Some gn) (q_nret q) (q_son q), NErr AssertionError)  (* 581-583 *)
  else
    let '(gn', sf', out) := gen_send fuel (q_idx q) h gn (q_self q) (s_mix (q_self q)) target in
    let mk count := mkQR (q_idx q) (q_order q) sf' count (Some gn') (q_nret q + 1) (q_son q) in
    match out with
    | YChunk c => (mk count1, NChunk c)
    | YNone => (mk (count1 - 1), if q_son q then NStop else NNone)          (* 587-594 *)
    | YStop => (mk count1, NStop)
    | YErr e => (mk count1, NErr e)
    end.
