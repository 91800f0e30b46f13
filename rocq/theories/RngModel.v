(** Model of what streaming samples does to the random number generators of the process that consumes them.

    mixtera/utils/utils.py 150-178 seed_everything_from_list, seed_everything; mixtera/core/query/result_chunk.py 259-274,
    397-399, 451-453, 601-621; mixtera/core/client/mixtera_client.py 266-293 stream_results.

    The global generators ([random], [numpy.random]) are arbitrary state machines; seeding sets the state to a function of
    the seed, shuffling [n] elements draws from [random] only.  xxh64 is any function from texts to integers.

    Simplifications: what a chunk delivers is given ([samples], it is [iterate] of ResultChunkModel.v); chunks that raise
    are left out; reader processes have generators of their own and are left out; str() of a (key, count) pair is a
    parameter. *)
From Verif Require Import Base MixtureKeyModel ChunkGenModel ReproModel ResultChunkModel.
Open Scope Z_scope.

Section Rng.
  Context {G N X : Type}.                   (* states of random and of numpy.random; samples *)
  Variable py_seed : Z -> G.
  Variable np_seed : Z -> N.
  Variable py_shuffled : nat -> G -> G.
  Variable py_rand : G -> Z * G.
  Variable np_rand : N -> Z * N.
  Variable xxh64 : str -> Z.
  Variable count_str : mkey * Z -> str.

  (** utils.py 163-178 seed_everything: both generators. *)
  Definition seed_everything (s : Z) (_ : G * N) : G * N := (py_seed s, np_seed s).
  (** random.shuffle of [n] elements; result_chunk.py 399, 453, 619. *)
  Definition shuffle_n (n : nat) (w : G * N) : G * N := (py_shuffled n (fst w), snd w).

  (** result_chunk.py 123-127: the order of the keys: simple (overall), or per window with these counts. *)
  Inductive cmode := Overall | Window (counts : list (mkey * Z)).
  (** result_chunk.py 88-120: a chunk, as far as it matters here, and the samples it delivers. *)
  Record schunk := mkSC { sc_index : index; sc_mode : cmode; sc_samples : list X }.

  (** result_chunk.py 609-621: one property combination of _prepare_workloads. *)
  Definition prepare_one (w : G * N) (kp : mkey * part) : G * N :=
    shuffle_n (length (flat_work (snd kp))) (seed_everything (seed_of xxh64 [fst kp]) w).

  (** result_chunk.py 259-274, 601-621, then 451-453 or 397-399: the start of the iteration of a chunk. *)
  Definition start_chunk (c : schunk) (w : G * N) : G * N :=
    let w1 := fold_left prepare_one (sc_index c) w in
    match sc_mode c with
    | Overall => shuffle_n (length (sc_index c)) (seed_everything (seed_of xxh64 (map fst (sc_index c))) w1)
    | Window counts =>
        shuffle_n (length counts) (seed_everything (xxh64 (join_nul (isort str_ltb (map count_str counts))) mod 2 ^ 32) w1)
    end.

  (** mixtera_client.py 266-293: the stream: samples left of the current chunk, chunks to come; and the generators. *)
  Record sstate := mkSS { s_rng : G * N; s_cur : list X; s_rest : list schunk }.

  (** mixtera_client.py 266-293: the consumer takes a sample, or uses a random number. *)
  Inductive sevent := TakeSample | DrawPy | DrawNp.
  (** mixtera_client.py 266-293. *)
  Inductive sout := Sample (x : X) | Ended | DrewPy (z : Z) | DrewNp (z : Z).

  (** mixtera_client.py 278-290: the next chunk with a sample. *)
  Fixpoint next_sample (w : G * N) (rest : list schunk) : sstate * sout :=
    match rest with
    | [] => (mkSS w [] [], Ended)
    | c :: rest' => let w' := start_chunk c w in
                    match sc_samples c with
                    | [] => next_sample w' rest'
                    | x :: xs => (mkSS w' xs rest', Sample x)
                    end
    end.

  (** mixtera_client.py 278-290, and calls of random.random() and numpy.random.rand() by the consumer. *)
  Definition sstep (ev : sevent) (s : sstate) : sstate * sout :=
    match ev with
    | TakeSample => match s_cur s with
                    | x :: xs => (mkSS (s_rng s) xs (s_rest s), Sample x)
                    | [] => next_sample (s_rng s) (s_rest s)
                    end
    | DrawPy => let '(z, g) := py_rand (fst (s_rng s)) in (mkSS (g, snd (s_rng s)) (s_cur s) (s_rest s), DrewPy z)
    | DrawNp => let '(z, n) := np_rand (snd (s_rng s)) in (mkSS (fst (s_rng s), n) (s_cur s) (s_rest s), DrewNp z)
    end.

  (** mixtera_client.py 278-290: a history of the consumer. *)
  Fixpoint srun (evs : list sevent) (s : sstate) : list sout :=
    match evs with
    | [] => []
    | ev :: evs' => let '(s', o) := sstep ev s in o :: srun evs' s'
    end.
End Rng.
