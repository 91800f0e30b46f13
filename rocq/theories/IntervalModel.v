(** Model of the outer query of mixtera/core/query/query.py 104-157: the selected samples are turned into intervals.

    A selected row is its group columns [g] (dataset, file and all property columns, query.py 112-114) and its
    sample id.  [geqb] is the equality PARTITION BY and GROUP BY use (NULLs are equal), [glt] the order of ORDER BY on
    the group columns.  What the window functions and GROUP BY compute is written out per common table expression. *)
From Verif Require Import Base.
Open Scope Z_scope.

Section Intervals.
  Context {G : Type}.
  Variable geqb : G -> G -> bool.
  Variable glt : G -> G -> bool.

  (** base_data: query.py 122-124 *)
  Definition row : Type := G * Z.
  (** the partition of one group, in the order of sample_id *)
  (** query.py 128-129, 136-137: PARTITION BY ... ORDER BY sample_id. *)
  Definition part (g : G) (rows : list row) : list Z := isort Z.ltb (map snd (filter (fun r => geqb g (fst r)) rows)).

  (** grouped_samples, query.py 125-131: sample_id - LAG(sample_id, 1, sample_id) *)
  Fixpoint with_diff (prev : option Z) (l : list Z) : list (Z * Z) :=
    match l with
    | [] => []
    | s :: l' => (s - match prev with Some p => p | None => s end, s) :: with_diff (Some s) l'
    end.
  (** query.py 141: equality of the GROUP BY columns. *)
  Definition pair_eqb (a b : Z * Z) : bool := (fst a =? fst b) && (snd a =? snd b).
  (** query.py 141, 149: GROUP BY keeps one row per group. *)
  Fixpoint dedup {A} (eqb : A -> A -> bool) (l : list A) : list A :=
    match l with [] => [] | x :: l' => x :: filter (fun y => negb (eqb x y)) (dedup eqb l') end.
  (** intervals, query.py 132-142: GROUP BY partition, diff, sample_id ... *)
  Definition grouped (g : G) (rows : list row) : list (Z * Z) := dedup pair_eqb (with_diff None (part g rows)).
  (** ... and SUM(CASE WHEN diff != 1 ...) OVER (PARTITION BY .. ORDER BY sample_id): the sum over all rows whose
      sample_id is not larger. *)
  Definition group_id (l : list (Z * Z)) (s : Z) : Z :=
    fold_right Z.add 0 (map (fun r => if (snd r <=? s) && negb (fst r =? 1) then 1 else 0) l).
  (** (group_id, interval_start, interval_end) *)
  (** query.py 133-142. *)
  Definition intervals (g : G) (rows : list row) : list (Z * (Z * Z)) :=
    let l := grouped g rows in map (fun r => (group_id l (snd r), (snd r, snd r + 1))) l.
  (** query.py 146: MIN. *)
  Definition list_min (d : Z) (l : list Z) : Z := fold_right Z.min d l.
  (** query.py 147: MAX. *)
  Definition list_max (d : Z) (l : list Z) : Z := fold_right Z.max d l.
  (** the final SELECT, query.py 143-150: GROUP BY partition, group_id with MIN and MAX, ORDER BY .., interval_start *)
  Definition final_group (g : G) (rows : list row) : list (Z * Z) :=
    let l := intervals g rows in
    let one (id : Z) : Z * Z :=
      match filter (fun r => fst r =? id) l with
      | [] => (0, 0)
      | r :: rs => (list_min (fst (snd r)) (map (fun r => fst (snd r)) rs), list_max (snd (snd r)) (map (fun r => snd (snd r)) rs))
      end in
    isort (fun a b => fst a <? fst b) (map one (dedup Z.eqb (map fst l))).
  (** query.py 121-151. *)
  Definition query_intervals (rows : list row) : list (G * (Z * Z)) :=
    flat_map (fun g => map (fun i => (g, i)) (final_group g rows)) (isort glt (dedup geqb (map fst rows))).
End Intervals.
