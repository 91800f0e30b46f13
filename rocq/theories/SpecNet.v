(** Specification vocabulary for the network helpers (C29, C41). *)
From Verif Require Import Base NetModel.
Open Scope Z_scope.

(** No read times out. *)
Definition timely (fr : list (option nat)) : Prop := ~ In None fr.

(** Whatever follows on the connection and however the network splits the bytes, [m] reads exactly [bytes], returns
    [a], and leaves what follows; or it times out, which happens only if the network is late. *)
Definition reads_back {A} (m : reader -> reader * (A + nexn)) (bytes : list Z) (a : A) : Prop :=
  forall rest op fr r' res, m (mkReader (bytes ++ rest) op fr) = (r', res) ->
    (res = inl a /\ rd_data r' = rest /\ rd_open r' = op /\ (timely fr -> timely (rd_frags r')))
    \/ (res = inr TimeoutError /\ ~ timely fr).

(** If the connection breaks in the middle of [bytes], [m] raises or returns None, however the bytes are split. *)
Definition cut_is_noticed {A} (m : reader -> reader * (option A + nexn)) (bytes : list Z) : Prop :=
  forall part lost fr r' res, bytes = part ++ lost -> lost <> [] -> m (mkReader part false fr) = (r', res) ->
    res = inl None \/ exists e, res = inr e.

(** Strings that Python can encode: code points without surrogates. *)
Definition encodable (s : list Z) : Prop := Forall (fun c => 0 <= c < 55296 \/ 57344 <= c < 1114112) s.

(** Sizes a [k]-byte header can express: the header is written unsigned but read signed. *)
Definition fits (k : nat) (size : Z) : Prop := size < 256 ^ Z.of_nat k / 2.
