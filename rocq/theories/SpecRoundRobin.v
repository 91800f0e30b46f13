(** Specification: reading several lists in turns. *)
From Verif Require Import Base.
Local Open Scope nat_scope.

Definition opt_to_list {B} (o : option B) : list B := match o with Some x => [x] | None => [] end.

(** The [j]-th items of the lists that are long enough, in list order. *)
Definition column {B} (ls : list (list B)) (j : nat) : list B := flat_map (fun l => opt_to_list (nth_error l j)) ls.

(** First items of all lists, then second items of all lists that have one, and so on. *)
Definition round_robin {B} (ls : list (list B)) : list B := flat_map (column ls) (seq 0 (list_max (map (@length B) ls))).
