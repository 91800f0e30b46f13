(** C29: network messages survive any fragmentation; a truncated message is never returned as a complete one.
    [reads_back], [cut_is_noticed], [fits], [encodable] are in SpecNet.v. *)
From Verif Require Import Base NetModel SpecNet NetProofs NetProofs2.
Open Scope Z_scope.

(** Integers: every integer that could be written. *)
Theorem C29_int n v b : (1 <= n)%nat -> write_int v n = inl b ->
  reads_back (read_int n) b (Some v) /\ cut_is_noticed (read_int n) b.
Proof. intros Hn H. destruct (int_back n v b Hn H) as [A B]. split; [exact A|apply cut_end_noticed, B]. Qed.
(** ... and exactly the integers of the signed range can be written; the others raise. *)
Theorem C29_int_range n v : (1 <= n)%nat -> ((exists b, write_int v n = inl b) <-> - (256 ^ Z.of_nat n / 2) <= v < 256 ^ Z.of_nat n / 2).
Proof.
  intros Hn. split; [|apply int_ok]. intros [b H]. unfold write_int, to_bytes_signed in H.
  destruct (Z.leb_spec (- (256 ^ Z.of_nat n / 2)) v); [|discriminate]. destruct (Z.ltb_spec v (256 ^ Z.of_nat n / 2)); [|discriminate]. auto.
Qed.

(** Byte strings: partial, because an empty byte string and sizes with the header's top bit set are excluded, and
    because a cut is reported as None, which is also a message (see the refutations below). *)
Theorem C29_bytes_partial k d b : (1 <= k)%nat -> d <> [] -> fits k (Z.of_nat (length d)) -> write_bytes_obj (Some d) k = inl b ->
  reads_back (read_bytes_obj k) b (Some d) /\ cut_is_noticed (read_bytes_obj k) b.
Proof. intros Hk Hd Hf H. destruct (bytes_back k d b Hk Hd Hf H) as [A B]. split; [exact A|apply cut_end_noticed, B]. Qed.
Theorem C29_bytes_none k b : (1 <= k)%nat -> write_bytes_obj None k = inl b -> reads_back (read_bytes_obj k) b None.
Proof. apply bytes_none_back. Qed.

Theorem C29_utf8 k s b : (1 <= k)%nat -> encodable s -> write_utf8 s k = inl b -> (forall x, utf8_encode s = inl x -> fits k (Z.of_nat (length x))) ->
  reads_back (read_utf8 k) b (Some s) /\ cut_is_noticed (read_utf8 k) b.
Proof. intros Hk Hs H Hf. destruct (utf8_back k s b Hk Hs H Hf) as [A B]. split; [exact A|apply cut_end_noticed, B]. Qed.
(** Every string of code points that are not surrogates has an encoding. *)
Theorem C29_utf8_total s : encodable s -> exists x, utf8_encode s = inl x /\ utf8_decode x = inl s.
Proof. apply utf8_roundtrip. Qed.

Theorem C29_float v b : 0 <= v < 2 ^ 64 -> write_float v = inl b -> reads_back read_float b (Some v) /\ cut_is_noticed read_float b.
Proof. intros Hv H. destruct (float_back v Hv b H) as [A B]. split; [exact A|apply cut_end_noticed, B]. Qed.

Theorem C29_object {O} (dumps : O -> list Z) (loads : list Z -> option O) k o b :
  (1 <= k)%nat -> loads (dumps o) = Some o -> fits k (Z.of_nat (length (dumps o))) -> write_obj dumps o k = inl b ->
  reads_back (read_obj loads k) b (Some o) /\ cut_is_noticed (read_obj loads k) b.
Proof. intros Hk Hl Hf H. destruct (obj_back dumps loads k o b Hk Hl Hf H) as [A B]. split; [exact A|apply cut_end_noticed, B]. Qed.

Theorem C29_array {N} (save : N -> list Z) (load : list Z -> option N) i k a b : (1 <= i)%nat -> (1 <= k)%nat ->
  match a with Some x => load (save x) = Some x /\ save x <> [] /\ fits k (Z.of_nat (length (save x))) | None => True end ->
  write_array save a i k = inl b ->
  reads_back (read_array load i k) b a /\ (a <> None -> cut_is_noticed (read_array load i k) b).
Proof.
  intros Hi Hk Ha H. destruct (array_back (fun _ => None : option unit) save load i k a b Hi Hk Ha H) as [A B]. split; [exact A|].
  intros Hn. destruct a as [x|]; [|congruence]. apply cut_end_noticed. exact (B x eq_refl).
Qed.

(** Two messages in a row arrive as two messages: reading stops exactly at the boundary.  (A consequence of
    [reads_back] leaving [rest]; stated because it is what callers rely on.) *)
Theorem C29_sequence {A B} (m1 : reader -> reader * (A + nexn)) (m2 : reader -> reader * (B + nexn)) b1 b2 x y :
  reads_back m1 b1 x -> reads_back m2 b2 y -> reads_back (fun r => rbind (m1 r) (fun a r => rbind (m2 r) (fun c r => (r, inl (a, c))))) (b1 ++ b2) (x, y).
Proof.
  intros H1 H2. eapply reads_back_bind; [exact H1|]. rewrite <- (app_nil_r b2). eapply reads_back_bind; [exact H2|]. apply reads_back_ret.
Qed.

(** ** What is false of the code *)
(** An empty byte string is read as "nothing". *)
Theorem C29_empty_bytes_refuted : exists b, write_bytes_obj (Some []) 16 = inl b
  /\ read_bytes_obj 16 (mkReader b true []) = (mkReader [] true [], inl None) /\ write_bytes_obj None 16 = inl b.
Proof. eexists. split; [reflexivity|]. split; [vm_compute; reflexivity|reflexivity]. Qed.
(** A message whose connection breaks at the start, or between header and payload, is returned as the complete
    message None. *)
Theorem C29_cut_refuted : exists b part lost, write_bytes_obj (Some [7; 8; 9]) 8 = inl b /\ b = part ++ lost /\ lost <> [] /\ part <> []
  /\ snd (read_bytes_obj 8 (mkReader part false [])) = inl None
  /\ (exists none, write_bytes_obj None 8 = inl none /\ snd (read_bytes_obj 8 (mkReader none false [])) = inl None).
Proof.
  exists [0;0;0;0;0;0;0;3;7;8;9], [0;0;0;0;0;0;0;3], [7;8;9]. split; [reflexivity|]. split; [reflexivity|]. split; [discriminate|]. split; [discriminate|].
  split; [vm_compute; reflexivity|]. eexists. split; [reflexivity|]. vm_compute. reflexivity.
Qed.
(** A payload whose size has the header's top bit set is written, but read as the empty string, and its bytes are
    left in the stream to be read as the next message. *)
Theorem C29_large_header_refuted : exists s b, encodable s /\ write_utf8 s 1 = inl b
  /\ snd (read_utf8 1 (mkReader b true [])) = inl (Some []) /\ rd_data (fst (read_utf8 1 (mkReader b true []))) = s /\ s <> [].
Proof.
  exists (repeat 65 200), (200 :: repeat 65 200). split; [|split; [vm_compute; reflexivity|split; [vm_compute; reflexivity|split; [vm_compute; reflexivity|discriminate]]]].
  apply Forall_forall. intros x Hx. apply repeat_spec in Hx. subst. left. split; [discriminate|reflexivity].
Qed.

(** ** The hypotheses are met by concrete messages *)
Example C29_ex_int : write_int (-2) 4 = inl [255; 255; 255; 254]
  /\ read_int 4 (mkReader [255; 255; 255; 254; 9] true [Some 1%nat; Some 2%nat; Some 5%nat]) = (mkReader [9] true [], inl (Some (-2)))
  /\ snd (read_int 4 (mkReader [255; 255] false [])) = inr ConnectionError.
Proof. repeat split; vm_compute; reflexivity. Qed.
Example C29_ex_utf8 : encodable [72; 228; 8364; 128512] /\ write_utf8 [72; 228; 8364; 128512] 2 = inl [0; 10; 72; 195; 164; 226; 130; 172; 240; 159; 152; 128]
  /\ read_utf8 2 (mkReader [0; 10; 72; 195; 164; 226; 130; 172; 240; 159; 152; 128; 1] true [Some 1%nat; Some 1%nat; Some 3%nat]) = (mkReader [1] true [], inl (Some [72; 228; 8364; 128512])).
Proof.
  split; [|split; vm_compute; reflexivity]. repeat (apply Forall_cons; [vm_compute; intuition congruence|]). apply Forall_nil.
Qed.
Example C29_ex_bytes : fits 8 3 /\ write_bytes_obj (Some [7; 8; 9]) 8 = inl [0;0;0;0;0;0;0;3;7;8;9]
  /\ read_bytes_obj 8 (mkReader [0;0;0;0;0;0;0;3;7;8;9;5] true [Some 0%nat; Some 20%nat; Some 2%nat]) = (mkReader [5] true [], inl (Some [7; 8; 9]))
  /\ snd (read_bytes_obj 8 (mkReader [0;0;0;0;0;0;0;3;7] false [])) = inr ConnectionError.
Proof. repeat split; vm_compute; reflexivity. Qed.
(** A toy pickle: the identity on byte strings with a marker. *)
Example C29_ex_object : let dumps (o : list Z) := 128 :: o in let loads b := match b with 128 :: o => Some o | _ => None end in
  loads (dumps [1; 2]) = Some [1; 2] /\ fits 16 (Z.of_nat (length (dumps [1; 2])))
  /\ (exists b, write_obj dumps [1; 2] 16 = inl b /\ snd (read_obj loads 16 (mkReader b true [Some 1%nat])) = inl (Some [1; 2]))
  /\ (exists b, write_array dumps (Some [1; 2]) 8 16 = inl b /\ snd (read_array loads 8 16 (mkReader b true [Some 1%nat])) = inl (Some [1; 2])).
Proof. cbv zeta. split; [reflexivity|]. split; [vm_compute; reflexivity|]. split; eexists; split; try reflexivity; vm_compute; reflexivity. Qed.

Print Assumptions C29_int.
Print Assumptions C29_int_range.
Print Assumptions C29_bytes_partial.
Print Assumptions C29_bytes_none.
Print Assumptions C29_utf8.
Print Assumptions C29_utf8_total.
Print Assumptions C29_float.
Print Assumptions C29_object.
Print Assumptions C29_array.
Print Assumptions C29_sequence.
Print Assumptions C29_empty_bytes_refuted.
Print Assumptions C29_cut_refuted.
Print Assumptions C29_large_header_refuted.
