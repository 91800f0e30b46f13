(** Model of mixtera/network/network_utils.py.

    Bytes are integers 0..255.  A connection's reading side is the list of bytes that will arrive, whether the peer
    stays connected after them, and how the network splits them: every [reader.read(n)] consumes one fragment
    ([Some k]: at most [max 1 k] bytes are there; [None]: nothing arrives before the timeout).  After the listed
    fragments everything that is left is there at once.
    Strings are lists of code points.  A double is identified with its 64 bits.  dill.dumps/dill.loads and
    np.save/np.load are parameters. *)
From Verif Require Import Base.
Open Scope Z_scope.

(** network_utils.py 10-49 and what int.to_bytes, str.encode, dill and np.load raise. *)
Inductive nexn := ConnectionError | TimeoutError | OverflowError | UnicodeError | UnpickleError | AssertError | OtherError.

(** asyncio.StreamReader as network_utils.py 10-49 sees it: the bytes not read yet, whether the peer may send more, and how they arrive. *)
Record reader := mkReader { rd_data : list Z; rd_open : bool; rd_frags : list (option nat) }.

(** asyncio.StreamReader.read(n) for n > 0 under asyncio.wait_for: [None] = timeout, [Some []] = end of stream. *)
Definition read1 (n : nat) (r : reader) : reader * option (list Z) :=
  let rest := match rd_frags r with [] => [] | _ :: fr => fr end in
  match rd_frags r with
  | None :: _ => (mkReader (rd_data r) (rd_open r) rest, None)
  | fr =>
      let k := match fr with Some k :: _ => Nat.max 1 k | _ => length (rd_data r) end in
      match rd_data r with
      | [] => (mkReader [] (rd_open r) rest, if rd_open r then None else Some [])
      | d => let m := Nat.min n k in (mkReader (skipn m d) (rd_open r) rest, Some (firstn m d))
      end
  end.

(** network_utils.py 10-48 read_bytes.  [fuel]: every round reads at least one byte or ends. *)
Fixpoint read_loop (fuel : nat) (num : Z) (buf : list Z) (r : reader) : reader * (option (list Z) + nexn) :=
  if Z.of_nat (length buf) <? num then                                            (* 29 *)
    match fuel with
    | O => (r, inr TimeoutError)
    | S fuel' =>
        match read1 (Z.to_nat num - length buf) r with                            (* 36 *)
        | (r', None) => (r', inr TimeoutError)
        | (r', Some []) => (r', match buf with [] => inl None | _ => inr ConnectionError end)    (* 39-48 *)
        | (r', Some chunk) => read_loop fuel' num (buf ++ chunk) r'
        end
    end
  else (r, inl (Some buf)).
(** network_utils.py 10-49 read_bytes. *)
Definition read_bytes (num : Z) (r : reader) : reader * (option (list Z) + nexn) := read_loop (S (Z.to_nat num)) num [] r.

(** ** Integers: int.to_bytes / int.from_bytes, big endian *)
(** int.to_bytes(_, "big"); network_utils.py 51-81, 133-144. *)
Fixpoint be (n : nat) (v : Z) : list Z := match n with O => [] | S n' => be n' (v / 256) ++ [v mod 256] end.
(** int.from_bytes(_, "big"); network_utils.py 113-130. *)
Definition from_be (l : list Z) : Z := fold_left (fun a b => a * 256 + b) l 0.
(** int.to_bytes unsigned; network_utils.py 70-75. *)
Definition to_bytes (n : nat) (v : Z) : list Z + nexn :=
  if (0 <=? v) && (v <? 256 ^ Z.of_nat n) then inl (be n v) else inr OverflowError.
(** int.to_bytes signed; network_utils.py 133-144. *)
Definition to_bytes_signed (n : nat) (v : Z) : list Z + nexn :=
  if (- (256 ^ Z.of_nat n / 2) <=? v) && (v <? 256 ^ Z.of_nat n / 2) then inl (be n (v mod 256 ^ Z.of_nat n)) else inr OverflowError.
(** int.from_bytes signed; network_utils.py 113-130. *)
Definition from_bytes_signed (l : list Z) : Z :=
  let u := from_be l in if 256 ^ Z.of_nat (length l) / 2 <=? u then u - 256 ^ Z.of_nat (length l) else u.

(** Sequencing of writes: the bytes written before an exception are lost with the connection. *)
(** Two writes one after the other; network_utils.py 51-81. *)
Definition wseq (a b : list Z + nexn) : list Z + nexn :=
  match a with inr e => inr e | inl x => match b with inr e => inr e | inl y => inl (x ++ y) end end.
Infix "+w+" := wseq (at level 60, right associativity).
(** Sequencing of reads. *)
(** Two reads one after the other; network_utils.py 84-110. *)
Definition rbind {A B} (m : reader * (A + nexn)) (f : A -> reader -> reader * (B + nexn)) : reader * (B + nexn) :=
  match m with (r, inl a) => f a r | (r, inr e) => (r, inr e) end.

(** network_utils.py 133-144 write_int; 113-130 read_int. *)
Definition write_int (v : Z) (n : nat) : list Z + nexn := to_bytes_signed n v.
(** network_utils.py 113-130 read_int. *)
Definition read_int (n : nat) (r : reader) : reader * (option Z + nexn) :=
  rbind (read_bytes (Z.of_nat n) r) (fun o r => (r, inl (match o with Some l => Some (from_bytes_signed l) | None => None end))).

(** network_utils.py 51-81 write_bytes_obj; 84-110 read_bytes_obj. *)
Definition write_bytes_obj (data : option (list Z)) (k : nat) : list Z + nexn :=
  match data with
  | None => to_bytes k 0
  | Some d => to_bytes k (Z.of_nat (length d)) +w+ inl d
  end.
(** network_utils.py 84-110 read_bytes_obj. *)
Definition read_bytes_obj (k : nat) (r : reader) : reader * (option (list Z) + nexn) :=
  rbind (read_int k r) (fun o r =>
    match o with
    | None => (r, inl None)
    | Some size => if size =? 0 then (r, inl None) else read_bytes size r
    end).

(** ** UTF-8: str.encode / bytes.decode (strict) *)
Definition utf8_cp (c : Z) : option (list Z) :=
  if c <? 0 then None
  else if c <? 128 then Some [c]
  else if c <? 2048 then Some [192 + c / 64; 128 + c mod 64]
  else if c <? 65536 then if (55296 <=? c) && (c <? 57344) then None
                          else Some [224 + c / 4096; 128 + (c / 64) mod 64; 128 + c mod 64]
  else if c <? 1114112 then Some [240 + c / 262144; 128 + (c / 4096) mod 64; 128 + (c / 64) mod 64; 128 + c mod 64]
  else None.
(** str.encode; network_utils.py 164-179. *)
Fixpoint utf8_encode (s : list Z) : list Z + nexn :=
  match s with
  | [] => inl []
  | c :: s' => match utf8_cp c with Some b => inl b +w+ utf8_encode s' | None => inr UnicodeError end
  end.
(** A continuation byte of UTF-8; network_utils.py 147-161. *)
Definition cont (b : Z) : bool := (128 <=? b) && (b <? 192).
(** bytes.decode; network_utils.py 147-161. *)
Fixpoint utf8_decode (l : list Z) : list Z + nexn :=
  let cons c x := match x with inl s => inl (c :: s) | inr e => inr e end in
  match l with
  | [] => inl []
  | b0 :: l1 =>
      if (0 <=? b0) && (b0 <? 128) then cons b0 (utf8_decode l1)
      else if (192 <=? b0) && (b0 <? 224) then
        match l1 with
        | b1 :: l2 => let c := (b0 - 192) * 64 + (b1 - 128) in
                      if cont b1 && (128 <=? c) then cons c (utf8_decode l2) else inr UnicodeError
        | _ => inr UnicodeError end
      else if (224 <=? b0) && (b0 <? 240) then
        match l1 with
        | b1 :: b2 :: l3 => let c := (b0 - 224) * 4096 + (b1 - 128) * 64 + (b2 - 128) in
                      if cont b1 && cont b2 && (2048 <=? c) && negb ((55296 <=? c) && (c <? 57344)) then cons c (utf8_decode l3) else inr UnicodeError
        | _ => inr UnicodeError end
      else if (240 <=? b0) && (b0 <? 248) then
        match l1 with
        | b1 :: b2 :: b3 :: l4 => let c := (b0 - 240) * 262144 + (b1 - 128) * 4096 + (b2 - 128) * 64 + (b3 - 128) in
                      if cont b1 && cont b2 && cont b3 && (65536 <=? c) && (c <? 1114112) then cons c (utf8_decode l4) else inr UnicodeError
        | _ => inr UnicodeError end
      else inr UnicodeError
  end.

(** network_utils.py 165-179 write_utf8_string; 147-162 read_utf8_string. *)
Definition write_utf8 (s : list Z) (k : nat) : list Z + nexn :=
  match utf8_encode s with
  | inr e => inr e
  | inl b => to_bytes k (Z.of_nat (length b)) +w+ inl b
  end.
(** network_utils.py 147-161 read_utf8_string. *)
Definition read_utf8 (k : nat) (r : reader) : reader * (option (list Z) + nexn) :=
  rbind (read_int k r) (fun o r =>
    match o with
    | None => (r, inl None)
    | Some size => rbind (read_bytes size r) (fun o r =>
        match o with
        | None => (r, inl None)
        | Some b => (r, match utf8_decode b with inl s => inl (Some s) | inr e => inr e end)
        end)
    end).

(** network_utils.py 216-229 write_float; 232-252 read_float.  A double is its 64 bits as a number. *)
Definition write_float (bits : Z) : list Z + nexn := inl (be 8 bits).
(** network_utils.py 234-252 read_float. *)
Definition read_float (r : reader) : reader * (option Z + nexn) :=
  rbind (read_bytes 8 r) (fun o r =>
    (r, inl (match o with Some l => if Nat.eqb (length l) 8 then Some (from_be l) else None | None => None end))).

Section Objects.
  Context {O N : Type}.
  (** dill.dumps, dill.loads ([None]: raises) *)
  Variable dumps : O -> list Z.
  Variable loads : list Z -> option O.
  (** np.save into a buffer, np.load ([None]: raises) *)
  Variable save : N -> list Z.
  Variable load : list Z -> option N.

  (** network_utils.py 182-196 write_pickeled_object; 199-213 read_pickeled_object. *)
  Definition write_obj (o : O) (k : nat) : list Z + nexn := to_bytes k (Z.of_nat (length (dumps o))) +w+ inl (dumps o).
  (** network_utils.py 199-213 read_pickeled_object. *)
  Definition read_obj (k : nat) (r : reader) : reader * (option O + nexn) :=
    rbind (read_int k r) (fun o r =>
      match o with
      | None => (r, inl None)
      | Some size => rbind (read_bytes size r) (fun o r =>
          match o with
          | None => (r, inl None)
          | Some b => (r, match loads b with Some x => inl (Some x) | None => inr UnpickleError end)
          end)
      end).

  (** network_utils.py 255-270 write_numpy_array; 273-281 read_numpy_array. *)
  Definition write_array (a : option N) (i k : nat) : list Z + nexn :=
    match a with
    | None => write_int 0 i
    | Some x => write_int 1 i +w+ write_bytes_obj (Some (save x)) k
    end.
  (** network_utils.py 272-281 read_numpy_array. *)
  Definition read_array (i k : nat) (r : reader) : reader * (option N + nexn) :=
    rbind (read_int i r) (fun flag r =>
      if match flag with Some 0 => true | _ => false end then (r, inl None)
      else rbind (read_bytes_obj k r) (fun o r =>
        (r, match o with
            | None => inr AssertError
            | Some b => match load b with Some x => inl (Some x) | None => inr UnpickleError end
            end))).
End Objects.
