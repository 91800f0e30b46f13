From Verif Require Import Base NetModel SpecNet NetProofs.
From Coq Require Import ZifyBool ZifyNat.
Open Scope Z_scope.

Lemma to_bytes_ok k v : (1 <= k)%nat -> 0 <= v -> fits k v -> to_bytes k v = inl (be k v) /\ reads_back (read_int k) (be k v) (Some v).
Proof.
  intros Hk Hv Hf. unfold fits in Hf. destruct (pow256_even k Hk) as (h & E & Eh & Hh). unfold to_bytes.
  replace ((0 <=? v) && (v <? 256 ^ Z.of_nat k)) with true by lia. split; [reflexivity|].
  rewrite <- (from_unsigned k v Hk) at 2 by lia. apply read_int_back, be_length.
Qed.

Lemma int_back n v b : (1 <= n)%nat -> write_int v n = inl b -> reads_back (read_int n) b (Some v) /\ cut_end (read_int n) b.
Proof.
  intros Hn H. unfold write_int, to_bytes_signed in H. destruct ((- (256 ^ Z.of_nat n / 2) <=? v) && (v <? 256 ^ Z.of_nat n / 2)) eqn:E; [|discriminate].
  injection H as <-. split.
  - rewrite <- (from_signed n v Hn) at 2 by lia. apply read_int_back, be_length.
  - apply read_int_cut, be_length.
Qed.
Lemma int_ok n v : - (256 ^ Z.of_nat n / 2) <= v < 256 ^ Z.of_nat n / 2 -> exists b, write_int v n = inl b.
Proof. intros H. unfold write_int, to_bytes_signed. replace (_ && _) with true by lia. eauto. Qed.

Lemma header_payload {A} k (d : list Z) (g : option (list Z) -> option A + nexn) (a : A) (dec : option Z -> reader -> reader * (option A + nexn)) b :
  (1 <= k)%nat -> fits k (Z.of_nat (length d)) -> to_bytes k (Z.of_nat (length d)) +w+ inl d = inl b ->
  (forall r, dec (Some (Z.of_nat (length d))) r = rbind (read_bytes (Z.of_nat (length d)) r) (fun o r => (r, g o))) ->
  (forall r, dec None r = (r, inl None)) ->
  g (Some d) = inl (Some a) -> (g None = inl None \/ exists e, g None = inr e) ->
  reads_back (fun r => rbind (read_int k r) dec) b (Some a) /\ cut_end (fun r => rbind (read_int k r) dec) b.
Proof.
  intros Hk Hf Hb Hd HdN Hg HgN. destruct (to_bytes_ok k (Z.of_nat (length d)) Hk ltac:(lia) Hf) as [E Hr]. rewrite E in Hb. cbn [wseq] in Hb. injection Hb as <-.
  split.
  - eapply reads_back_bind; [exact Hr|]. apply reads_back_ext with (m := fun r => rbind (read_bytes (Z.of_nat (length d)) r) (fun o r => (r, g o))); [intros r; symmetry; apply Hd|].
    assert (Hx : reads_back (fun r => rbind (read_bytes (Z.of_nat (length d)) r) (fun o r => (r, g o))) (d ++ []) (Some a)); [|rewrite app_nil_r in Hx; exact Hx].
    eapply reads_back_bind; [apply read_bytes_back; reflexivity|]. rewrite Hg. apply reads_back_ret.
  - eapply cut_bind; [exact Hr|apply read_int_cut, be_length| |].
    + intros part lost fr r' res E1 Hne Hx. rewrite Hd in Hx. eapply (cut_map (read_bytes (Z.of_nat (length d))) g); [apply read_bytes_cut; reflexivity|exact HgN|exact E1|exact Hne|exact Hx].
    + intros fr r' res Hx. rewrite HdN in Hx. injection Hx as <- <-. left. auto.
Qed.

Lemma bytes_back k d b : (1 <= k)%nat -> d <> [] -> fits k (Z.of_nat (length d)) -> write_bytes_obj (Some d) k = inl b ->
  reads_back (read_bytes_obj k) b (Some d) /\ cut_end (read_bytes_obj k) b.
Proof.
  intros Hk Hd Hf Hb. unfold read_bytes_obj. eapply (header_payload k d (fun o => inl o) d); [exact Hk|exact Hf|exact Hb| |reflexivity|reflexivity|left; reflexivity].
  intros r. replace (Z.of_nat (length d) =? 0) with false by (destruct d; [congruence|cbn [length]; lia]).
  destruct (read_bytes (Z.of_nat (length d)) r) as [r1 [o|e]]; reflexivity.
Qed.
Lemma bytes_none_back k b : (1 <= k)%nat -> write_bytes_obj None k = inl b -> reads_back (read_bytes_obj k) b None.
Proof.
  intros Hk Hb. assert (Hf : fits k 0) by (unfold fits; destruct (pow256_even k Hk) as (h & E & Eh & Hh); lia).
  destruct (to_bytes_ok k 0 Hk ltac:(lia) Hf) as [E Hr]. unfold write_bytes_obj in Hb. rewrite E in Hb. injection Hb as <-.
  rewrite <- (app_nil_r (be k 0)). eapply reads_back_bind; [exact Hr|]. cbn. apply reads_back_ret.
Qed.
Lemma utf8_back k s b : (1 <= k)%nat -> encodable s -> write_utf8 s k = inl b -> (forall x, utf8_encode s = inl x -> fits k (Z.of_nat (length x))) ->
  reads_back (read_utf8 k) b (Some s) /\ cut_end (read_utf8 k) b.
Proof.
  intros Hk Hs Hb Hf. destruct (utf8_roundtrip s Hs) as (x & E1 & E2). unfold write_utf8 in Hb. rewrite E1 in Hb. specialize (Hf x E1). unfold read_utf8.
  eapply (header_payload k x (fun o => match o with None => inl None | Some b => match utf8_decode b with inl s => inl (Some s) | inr e => inr e end end) s);
    [exact Hk|exact Hf|exact Hb| |reflexivity|cbn; rewrite E2; reflexivity|left; reflexivity].
  intros r. destruct (read_bytes (Z.of_nat (length x)) r) as [r1 [[o|]|e]]; reflexivity.
Qed.
Lemma float_back v : 0 <= v < 2 ^ 64 -> forall b, write_float v = inl b -> reads_back read_float b (Some v) /\ cut_end read_float b.
Proof.
  intros Hv b Hb. unfold write_float in Hb. assert (Eb : b = be 8 v) by congruence. clear Hb. subst b. pose proof (be_length 8 v) as L8.
  assert (E8 : 8 = Z.of_nat (length (be 8 v))) by (rewrite L8; reflexivity). split.
  - unfold read_float. pose proof (reads_back_map (read_bytes 8) (fun o => match o with Some l => if Nat.eqb (length l) 8 then Some (from_be l) else None | None => None end) (be 8 v) (Some (be 8 v))) as H.
    cbv beta iota in H. rewrite L8, from_be_be in H by (change (256 ^ Z.of_nat 8) with (2 ^ 64); exact Hv). apply H. apply read_bytes_back, E8.
  - unfold read_float. apply (cut_map (read_bytes 8) (fun o => inl (match o with Some l => if Nat.eqb (length l) 8 then Some (from_be l) else None | None => None end))).
    + apply read_bytes_cut, E8.
    + left. reflexivity.
Qed.

Section Objects.
  Context {O N : Type} (dumps : O -> list Z) (loads : list Z -> option O) (save : N -> list Z) (load : list Z -> option N).

  Lemma obj_back k o b : (1 <= k)%nat -> loads (dumps o) = Some o -> fits k (Z.of_nat (length (dumps o))) -> write_obj dumps o k = inl b ->
    reads_back (read_obj loads k) b (Some o) /\ cut_end (read_obj loads k) b.
  Proof.
    intros Hk Hl Hf Hb. unfold read_obj.
    eapply (header_payload k (dumps o) (fun x => match x with None => inl None | Some b => match loads b with Some x => inl (Some x) | None => inr UnpickleError end end) o);
      [exact Hk|exact Hf|exact Hb| |reflexivity|cbn; rewrite Hl; reflexivity|left; reflexivity].
    intros r. destruct (read_bytes (Z.of_nat (length (dumps o))) r) as [r1 [[x|]|e]]; reflexivity.
  Qed.
  Lemma wseq_inv a c b : a +w+ c = inl b -> exists x y, a = inl x /\ c = inl y /\ b = x ++ y.
  Proof. destruct a as [x|]; [|discriminate]. destruct c as [y|]; [|discriminate]. intros [= <-]. eauto. Qed.

  Lemma array_back i k a b : (1 <= i)%nat -> (1 <= k)%nat ->
    match a with Some x => load (save x) = Some x /\ save x <> [] /\ fits k (Z.of_nat (length (save x))) | None => True end ->
    write_array save a i k = inl b ->
    reads_back (read_array load i k) b a
    /\ (forall x, a = Some x -> cut_end (read_array load i k) b).
  Proof.
    intros Hi Hk Ha Hb. destruct a as [x|].
    - destruct Ha as (Hl & Hne & Hf). cbn [write_array] in Hb. apply wseq_inv in Hb as (b1 & b2 & E1 & E2 & ->).
      destruct (int_back i 1 b1 Hi E1) as [R1 C1]. destruct (bytes_back k (save x) b2 Hk Hne Hf E2) as [R2 C2].
      set (g := fun (o : option (list Z)) => match o with None => inr AssertError | Some b => match load b with Some x => inl (Some x) | None => inr UnpickleError end end : option N + nexn).
      split.
      + unfold read_array. eapply reads_back_bind; [exact R1|]. cbv beta iota.
        assert (Hx : reads_back (fun r => rbind (read_bytes_obj k r) (fun o r => (r, g o))) (b2 ++ []) (Some x)); [|rewrite app_nil_r in Hx; exact Hx].
        eapply reads_back_bind; [exact R2|]. unfold g. rewrite Hl. apply reads_back_ret.
      + intros _ _. unfold read_array. eapply cut_bind; [exact R1|exact C1| |].
        * cbv beta iota. apply (cut_map (read_bytes_obj k) g); [exact C2|]. right. exists AssertError. reflexivity.
        * intros fr r' res H. cbv beta iota in H. right.
          destruct (read_bytes_obj k (mkReader [] false fr)) as [r1 o] eqn:E.
          assert (Ho : o = inl None \/ exists e, o = inr e).
          { destruct (C2 [] b2 fr r1 o eq_refl) as [(? & _)|?]; auto. intros ->. cbn [write_bytes_obj] in E2.
            destruct (to_bytes_ok k (Z.of_nat (length (save x))) Hk ltac:(lia) Hf) as [Et _]. rewrite Et in E2. cbn in E2.
            assert (Hz : be k (Z.of_nat (length (save x))) ++ save x = []) by congruence. apply app_eq_nil in Hz as [_ Hz]. contradiction. }
          destruct Ho as [->|[e ->]]; cbn in H; injection H as <- <-; eauto.
    - cbn [write_array] in Hb. destruct (int_back i 0 b Hi Hb) as [R1 C1]. split; [|discriminate].
      assert (Hx : reads_back (read_array load i k) (b ++ []) None); [|rewrite app_nil_r in Hx; exact Hx].
      unfold read_array. eapply reads_back_bind; [exact R1|]. cbv beta iota. apply reads_back_ret.
  Qed.
End Objects.
