(** Specification vocabulary for the request protocol and the server (C41, C42, C48). *)
From Verif Require Import Base MixtureKeyModel NetModel SpecNet ProtoModel ServerModel.
Open Scope Z_scope.

Definition ostr_dec (a b : option str) : {a = b} + {a <> b}.
Proof. repeat decide equality. Defined.
Global Arguments ostr_dec : simpl never.

Section SpecProto.
  Context {Ob Ar : Type}.
  Variable dumps : Ob -> list Z.
  Variable loads : list Z -> option Ob.
  Variable save : Ar -> list Z.
  Variable load : list Z -> option Ar.
  Variable job_of : Ob -> str.

  (** The request as the handler sees it: every field as the client wrote it. *)
  Definition seen (q : creq Ob Ar) : sreq Ob Ar :=
    match q with
    | CRegisterQuery m dp nd w query => SRegisterQuery (Some m) (Some dp) (Some nd) (Some w) (Some query)
    | CQueryStatus job => SQueryStatus (Some job)
    | CReadFile path => SReadFile (Some path)
    | CMeta job => SMeta (Some job)
    | CNextChunk job dp nd w => SNextChunk (Some job) (Some dp) (Some nd) (Some w)
    | CRegisterDataset i l t f p => SRegisterDataset (Some i) (Some l) t (Some f) (Some p)
    | CDatasetStatus job => SDatasetStatus (Some job)
    | CRegisterParser i s => SRegisterParser (Some i) (Some s)
    | CDatasetExists i => SDatasetExists (Some i)
    | CListDatasets => SListDatasets
    | CRemoveDataset i => SRemoveDataset (Some i)
    | CAddProperty n s c m t mn mx bu ba d p => SAddProperty (Some n) (Some s) (Some c) m t (Some mn) (Some mx) (Some bu) (Some ba) (Some d) (Some (if p then 1 else 0))
    | CCheckpoint job dp nd ws => SCheckpoint (Some job) (Some dp) (Some nd) (map Some ws)
    | CCheckpointCompleted job chk b => SCheckpointCompleted (Some job) (Some chk) b
    | CRestore job chk => SRestore (Some job) (Some chk)
    | CFeedback job st mid l c => SFeedback (Some job) (Some st) (Some mid) l c
    end.

  (** Values that can be sent: strings without surrogates, sizes below half of what the header could count, objects
      that survive pickling, doubles of 64 bits, arrays that survive np.save. *)
  Definition str_ok (k : nat) (s : str) : Prop := encodable s /\ forall x, utf8_encode s = inl x -> fits k (Z.of_nat (length x)).
  Definition obj_ok (o : Ob) : Prop := loads (dumps o) = Some o /\ fits SZN (Z.of_nat (length (dumps o))).
  Definition float_ok (v : Z) : Prop := 0 <= v < 2 ^ 64.
  Definition array_ok (a : option Ar) : Prop :=
    match a with Some x => load (save x) = Some x /\ save x <> [] /\ fits SZN (Z.of_nat (length (save x))) | None => True end.
  Definition sent_ok (q : creq Ob Ar) : Prop :=
    match q with
    | CRegisterQuery m _ _ _ query => obj_ok m /\ obj_ok query
    | CQueryStatus s | CReadFile s | CMeta s | CNextChunk s _ _ _ | CDatasetStatus s | CDatasetExists s | CRemoveDataset s | CCheckpoint s _ _ _ => str_ok IDN s
    | CRegisterDataset i l t f p => str_ok IDN i /\ str_ok IDN l /\ In t [0; 1; 3; 4] /\ obj_ok f /\ str_ok IDN p
    | CRegisterParser i s => str_ok IDN i /\ str_ok SZN s
    | CListDatasets => True
    | CAddProperty n s c m t mn mx _ _ _ _ => str_ok IDN n /\ obj_ok s /\ obj_ok c /\ In m [1; 2] /\ In t [1; 2] /\ float_ok mn /\ float_ok mx
    | CCheckpointCompleted a b _ | CRestore a b => str_ok IDN a /\ str_ok IDN b
    | CFeedback s _ _ l c => str_ok IDN s /\ array_ok l /\ array_ok c
    end.

  (** [x] is what was sent, or missing. *)
  Definition maybe {A} (x : option A) (a : A) : Prop := x = None \/ x = Some a.
  (** What a handler may see of a request whose connection broke: every field is what the client sent, or missing. *)
  Definition partly (q : creq Ob Ar) (sq : sreq Ob Ar) : Prop :=
    match q, sq with
    | CRegisterQuery m dp nd w query, SRegisterQuery m' dp' nd' w' query' => maybe m' m /\ maybe dp' dp /\ maybe nd' nd /\ maybe w' w /\ maybe query' query
    | CQueryStatus s, SQueryStatus s' | CReadFile s, SReadFile s' | CMeta s, SMeta s' | CDatasetStatus s, SDatasetStatus s'
    | CDatasetExists s, SDatasetExists s' | CRemoveDataset s, SRemoveDataset s' => maybe s' s
    | CNextChunk s a b c, SNextChunk s' a' b' c' => maybe s' s /\ maybe a' a /\ maybe b' b /\ maybe c' c
    | CRegisterDataset i l t f p, SRegisterDataset i' l' t' f' p' => maybe i' i /\ maybe l' l /\ t' = t /\ maybe f' f /\ maybe p' p
    | CRegisterParser i s, SRegisterParser i' s' => maybe i' i /\ maybe s' s
    | CListDatasets, SListDatasets => True
    | CAddProperty n s c m t mn mx bu ba d p, SAddProperty n' s' c' m' t' mn' mx' bu' ba' d' p' =>
        maybe n' n /\ maybe s' s /\ maybe c' c /\ m' = m /\ t' = t /\ maybe mn' mn /\ maybe mx' mx /\ maybe bu' bu /\ maybe ba' ba /\ maybe d' d
        /\ maybe p' (if p then 1 else 0)
    | CCheckpoint s a b ws, SCheckpoint s' a' b' ws' => maybe s' s /\ maybe a' a /\ maybe b' b /\ Forall2 maybe ws' ws
    | CCheckpointCompleted s c b, SCheckpointCompleted s' c' b' => maybe s' s /\ maybe c' c /\ (b' = b \/ b' = false)
    | CRestore s c, SRestore s' c' => maybe s' s /\ maybe c' c
    | CFeedback s a b l c, SFeedback s' a' b' l' c' => maybe s' s /\ maybe a' a /\ maybe b' b /\ l' = l /\ c' = c
    | _, _ => False
    end.

  (** What the client's method returns if the server closed the connection without an answer. *)
  Definition no_answer (q : creq Ob Ar) : cres Ob + nexn :=
    match q with
    | CRegisterQuery _ _ _ _ _ | CRegisterParser _ _ | CDatasetExists _ | CRemoveDataset _ | CAddProperty _ _ _ _ _ _ _ _ _ _ _
    | CCheckpointCompleted _ _ _ | CFeedback _ _ _ _ _ => inl (RBool false)
    | CQueryStatus _ | CDatasetStatus _ => inl (RInt None)
    | CReadFile _ | CRegisterDataset _ _ _ _ _ | CCheckpoint _ _ _ _ => inl (RStr None)
    | CMeta _ => inr OtherError
    | CNextChunk _ _ _ _ | CListDatasets => inl (RObj None)
    | CRestore _ _ => inl RUnit
    end.
  (** ... and if the server's handler decided on this answer. *)
  Definition result (q : creq Ob Ar) (a : answer Ob) : cres Ob + nexn :=
    match q, a with
    | CRegisterQuery _ _ _ _ query, AStr _ s => inl (RBool (str_eqb s (job_of query)))
    | (CQueryStatus _ | CDatasetStatus _), AInt v => inl (RInt (Some v))
    | (CReadFile _ | CRegisterDataset _ _ _ _ _ | CCheckpoint _ _ _ _), AStr _ s => inl (RStr (Some s))
    | (CMeta _ | CListDatasets), AObj o => inl (RObj (Some o))
    | CNextChunk _ _ _ _, ABytes (Some b) => match loads b with Some o => inl (RObj (Some o)) | None => inr UnpickleError end
    | CNextChunk _ _ _ _, ABytes None => inl (RObj None)
    | (CRegisterParser _ _ | CDatasetExists _ | CRemoveDataset _ | CAddProperty _ _ _ _ _ _ _ _ _ _ _ | CCheckpointCompleted _ _ _ | CFeedback _ _ _ _ _), AInt v =>
        inl (RBool (negb (v =? 0)))
    | CRestore _ _, AStr _ _ => inl RUnit
    | _, _ => no_answer q
    end.
  Definition answer_ok (a : answer Ob) : Prop :=
    match a with
    | AInt _ | ANone => True
    | AStr k s => str_ok k s
    | AObj o => obj_ok o
    | ABytes (Some b) => b <> [] /\ fits SZN (Z.of_nat (length b))
    | ABytes None => True
    end.

  (** ** Status of background registrations (C42) *)
  Context {St D : Type}.
  Notation label := (label Ob St).
  (** The result of the last registration or restore of [job] that ended, forgotten when a restore is requested. *)
  Fixpoint last_result (job : option str) (ls : list label) (acc : option bool) : option bool :=
    match ls with
    | [] => acc
    | LEnd j b :: ls' => last_result job ls' (if ostr_dec j job then Some b else acc)
    | LStart j true :: ls' => last_result job ls' (if ostr_dec j job then None else acc)
    | _ :: ls' => last_result job ls' acc
    end.
  (** The result of the last dataset registration with this id that ended. *)
  Fixpoint last_dresult (uuid : option str) (ls : list label) (acc : option bool) : option bool :=
    match ls with
    | [] => acc
    | LDEnd u b :: ls' => last_dresult uuid ls' (if ostr_dec (Some u) uuid then Some b else acc)
    | _ :: ls' => last_dresult uuid ls' acc
    end.
  (** How many registrations and restores of [job] were accepted. *)
  Definition starts (job : option str) (ls : list label) : nat :=
    length (filter (fun l => match l with LStart j _ => if ostr_dec j job then true else false | _ => false end) ls).
  (** How many dataset registrations with the id [u] were accepted, and how many ended. *)
  Definition dstarts (u : str) (ls : list label) : nat :=
    length (filter (fun l => match l with LDStart j => if list_eq_dec Z.eq_dec j u then true else false | _ => false end) ls).
  Definition dends (u : str) (ls : list label) : nat :=
    length (filter (fun l => match l with LDEnd j _ => if list_eq_dec Z.eq_dec j u then true else false | _ => false end) ls).
  (** 0 in progress, 1 succeeded, 2 failed *)
  Definition code_of (o : option bool) : Z := match o with None => 0 | Some true => 1 | Some false => 2 end.
  (** What the thread of a background task did: the query was executed and accepted, the checkpoint restored. *)
  Definition worked (ops : stub Ob Ar St D) (t : qtask Ob) (st : St) : Prop :=
    match t with
    | TRegister query mixture dp nodes workers => snd (so_execute ops query mixture dp nodes workers st) = inl true
    | TRestore job chk => snd (so_restore ops job chk st) = inl tt
    end.
End SpecProto.
