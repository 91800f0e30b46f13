(** Model of the order in which a query considers the keys of its index (mixtera/core/query/query_result.py 290-297): the
    part of QueryResult that ChunkGenModel leaves open as [order].

    Simplifications.  xxh64 is any function from texts to integers; random.shuffle right after random.seed(s) is any
    function of the seed and the list that permutes the list. *)
From Verif Require Import Base MixtureKeyModel ChunkGenModel.
Open Scope Z_scope.

(** utils.py 105-106: ["\0".join(l)]. *)
Fixpoint join_nul (l : list str) : str :=
  match l with
  | [] => []
  | [x] => x
  | x :: l' => x ++ 0 :: join_nul l'
  end.
Section Order.
  Variable xxh64 : str -> Z.
  Variable shuffle : Z -> list mkey -> list mkey.
  (** utils.py 92-112 hash_list, 150-160 seed_everything_from_list, 163-178 seed_everything: the seed for a list of keys. *)
  Definition seed_of (keys : list mkey) : Z := xxh64 (join_nul (isort str_ltb (map key_str keys))) mod 2 ^ 32.
  (** query_result.py 290-297: the keys of the index, sorted and shuffled with a seed made of all of them. *)
  Definition key_order (idx : index) : list mkey := shuffle (seed_of (map fst idx)) (ksort (map fst idx)).
End Order.
