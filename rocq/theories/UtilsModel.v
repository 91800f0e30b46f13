(** Model of mixtera/utils/utils.py: merge_sorted_lists and distribute_by_ratio. *)
From Verif Require Import Base.
From Coq Require Import QArith Qabs.
Open Scope Z_scope.

(** utils.py 190: a (start, end) tuple. *)
Definition range := (Z * Z)%type.   (** half-open row interval [start, end) *)

(** utils.py 189-220 merge_sorted_lists: two-finger merge on the first tuple element, left list first on ties. *)
Fixpoint merge_sorted_lists (l1 : list range) : list range -> list range :=
  fix inner (l2 : list range) : list range :=
    match l1, l2 with
    | [], _ => l2
    | _, [] => l1
    | x :: l1', y :: l2' =>
        if fst x <=? fst y then x :: merge_sorted_lists l1' l2 else y :: inner l2'
    end.

(** utils.py 250: sum(ratios). *)
Definition qsum (l : list Q) : Q := fold_right Qplus 0%Q l.

(** Python [int(x)] on a float: truncation towards zero. *)
(** utils.py 258: int(x). *)
Definition qtrunc (x : Q) : Z := Z.quot (Qnum x) (Zpos (Qden x)).

(** utils.py 267: comparing floats. *)
Definition qltb (a b : Q) : bool := match Qcompare a b with Lt => true | _ => false end.

(** [assigned[i] += 1] *)
Fixpoint incr_nth (i : nat) (l : list Z) : list Z :=
  match l, i with
  | [], _ => []
  | x :: l', O => (x + 1) :: l'
  | x :: l', S i' => x :: incr_nth i' l'
  end.

(** utils.py 268-273: one unit to each bucket in order of decreasing fractional part. *)
Fixpoint dist_loop (remainder : Z) (fp : list (Q * nat)) (assigned : list Z) : list Z :=
  match fp with
  | [] => assigned
  | (_, i) :: fp' => if 0 <? remainder then dist_loop (remainder - 1) fp' (incr_nth i assigned) else assigned
  end.

(** [sort(key=..., reverse=True)] on the fractional part, stable. *)
(** utils.py 267: sort by decreasing fractional part (stable). *)
Definition sort_desc (l : list (Q * nat)) : list (Q * nat) := isort (fun a b => qltb (fst b) (fst a)) l.

(** utils.py 236-277 distribute_by_ratio.  [None] = ValueError.  Simplification: exact rationals for floats. *)
Definition distribute_by_ratio (n : Z) (ratios : list Q) : option (list Z) :=
  match ratios with
  | [] => Some []                                                          (* 249-250 *)
  | _ =>
      let dev := Qabs (qsum ratios - 1) in
      if qltb (1 # 1000000000) dev then None                               (* 251-252 *)
      else
        let exact := map (fun r => (r * inject_Z n)%Q) ratios in           (* 258 *)
        let assigned := map qtrunc exact in                                (* 259-260 *)
        let fp := combine (map (fun x => (x - inject_Z (qtrunc x))%Q) exact) (seq 0 (length exact)) in (* 261 *)
        let remainder := n - zsum assigned in                              (* 264-265 *)
        Some (dist_loop remainder (sort_desc fp) assigned)
  end.
