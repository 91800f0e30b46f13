(** Specification vocabulary for streaming the samples of a chunk (C21-C24). *)
From Verif Require Import Base MixtureKeyModel UtilsModel ChunkGenModel SpecRoundRobin TokenModel.
Local Open Scope nat_scope.

(** The samples of one key of a chunk: what the reader returns for its files, one after the other. *)
Definition part_samples {A} (read : Z -> Z -> list range -> stream A) (p : part) : list A :=
  flat_map (fun df => flat_map (fun fr => fst (read (fst df) (fst fr) (snd fr))) (snd df)) p.

(** No read of the chunk fails. *)
Definition reads_ok {A} (read : Z -> Z -> list range -> stream A) (idx : index) : Prop :=
  forall k p d fs f rs, In (k, p) idx -> In (d, fs) p -> In (f, rs) fs -> snd (read d f rs) = None.

(** The id handed out with the samples of a key. *)
Definition key_id (kid : list (mkey * Z)) (k : mkey) : Z := match aget mkey_eqb k kid with Some i => i | None => 0%Z end.
Definition ids_known (kid : list (mkey * Z)) (idx : index) : Prop := forall k, In k (map fst idx) -> In k (map fst kid).
Definition ids_distinct (kid : list (mkey * Z)) (idx : index) : Prop :=
  forall k k', In k (map fst idx) -> In k' (map fst idx) -> key_id kid k = key_id kid k' -> k = k'.

(** All samples of a chunk, each with the id of its key. *)
Definition all_samples {A} (read : Z -> Z -> list range -> stream A) (kid : list (mkey * Z)) (idx : index) : list (Z * A) :=
  flat_map (fun kp => map (pair (key_id kid (fst kp))) (part_samples read (snd kp))) idx.

(** [v]-th group of [n] items. *)
Definition share {B} (n v : nat) (l : list B) : list B := firstn n (skipn (v * n) l).
(** The [v]-th window: in turns over the keys, the [v]-th group of [n k] items of every key [k], as far as there are some. *)
Definition window_at {B} (order : list mkey) (tag : mkey -> Z) (n : mkey -> nat) (items : mkey -> list B) (v : nat) : list (Z * B) :=
  round_robin (map (fun k => map (pair (tag k)) (share (n k) v (items k))) order).

(** After [v] windows the iteration is over: every key has run dry in or before them; without best effort: one key. *)
Definition dry {B} (items : mkey -> list B) (n : mkey -> nat) (v : nat) (k : mkey) : Prop := length (items k) < v * n k.
Definition over {B} (best : bool) (order : list mkey) (items : mkey -> list B) (n : mkey -> nat) (v : nat) : Prop :=
  (forall k, In k order -> dry items n v k) \/ (best = false /\ exists k, In k order /\ dry items n v k).
Definition first_over {B} (best : bool) (order : list mkey) (items : mkey -> list B) (n : mkey -> nat) (v : nat) : Prop :=
  over best order items n v /\ forall u, u < v -> ~ over best order items n u.
