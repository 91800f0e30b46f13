From Verif Require Import Base MixtureKeyModel NetModel SpecNet NetProofs NetProofs2 ProtoModel ServerModel SpecProto ProtoProofs.
Open Scope Z_scope.

Section Proto.
  Context {Ob Ar : Type} (dumps : Ob -> list Z) (loads : list Z -> option Ob) (save : Ar -> list Z) (load : list Z -> option Ar) (job_of : Ob -> str).

  Ltac pieces := repeat match goal with
    | H : _ /\ _ |- _ => destruct H
    | H : _ +w+ _ = inl _ |- _ => apply wseq_inv in H as (? & ? & ? & ? & ->)
    end.
  Ltac fields := repeat match goal with
    | E : write_int ?v IDN = inl ?b |- _ => destruct (int_back IDN v b idn1 E); clear E
    | E : write_utf8 ?s IDN = inl ?b, S : str_ok IDN ?s |- _ => destruct (str_back IDN s b idn1 S E); clear E
    | E : write_utf8 ?s SZN = inl ?b, S : str_ok SZN ?s |- _ => destruct (str_back SZN s b szn1 S E); clear E
    | E : write_obj dumps ?o SZN = inl ?b, S : obj_ok dumps loads ?o |- _ => destruct (objs_back dumps loads o b S E); clear E
    | E : write_float ?v = inl ?b, S : float_ok ?v |- _ => destruct (float_back v S b E); clear E
    | E : write_array save ?a IDN SZN = inl ?b, S : array_ok save load ?a |- _ => lazymatch goal with H : reads_back _ b _ |- _ => fail | _ => destruct (arr_back save load a b S E) end
    end.
  Ltac rb := repeat first
    [ apply reads_back_ret
    | eapply reads_back_bind; [eassumption|cbv beta iota]
    | eapply reads_back_bind_nil; [eassumption|cbv beta iota] ].

  Lemma in4 t : In t [0; 1; 3; 4] -> from_type_id (Some t) = inl t.
  Proof. cbn. intros [<-|[<-|[<-|[<-|[]]]]]; reflexivity. Qed.
  Lemma in2 t : In t [1; 2] -> from_enum12 (Some t) = inl t.
  Proof. cbn. intros [<-|[<-|[]]]; reflexivity. Qed.
  Lemma len_int {A} (l : list A) b : write_int (Z.of_nat (length l)) IDN = inl b -> Z.to_nat (Z.of_nat (length l)) = length l.
  Proof. intros _. lia. Qed.

  Lemma args_back q b : sent_ok dumps loads save load q -> client_args dumps save q = inl b -> reads_back (read_args loads load (task_no q)) b (seen q).
  Proof.
    intros Hs Hb. destruct q; cbn [client_args sent_ok] in *; pieces; cbn [task_no read_args seen]; fields.
    - rb.
    - rb.
    - rb.
    - rb.
    - rb.
    - rb. rewrite in4 by assumption. apply reads_back_lift. rb.
    - rb.
    - rb.
    - rb.
    - injection Hb as <-. apply reads_back_ret.
    - rb.
    - rb. rewrite in2 by assumption. apply reads_back_lift. rb. rewrite in2 by assumption. apply reads_back_lift. rb.
    - rb. rewrite Nat2Z.id. eapply reads_back_bind_nil; [apply ints_back; eassumption|]. apply reads_back_ret.
    - eapply reads_back_bind; [eassumption|]. cbv beta. eapply reads_back_bind; [eassumption|]. cbv beta. eapply reads_back_bind_nil; [eassumption|]. cbv beta iota.
      replace (negb (bool_int on_disk =? 0)) with on_disk by (destruct on_disk; reflexivity). apply reads_back_ret.
    - rb.
    - rb.
  Qed.

  Lemma known q : known_task (task_no (Ob:=Ob) (Ar:=Ar) q) = true.
  Proof. destruct q; reflexivity. Qed.
  Lemma request_back q b : sent_ok dumps loads save load q -> client_write dumps save q = inl b -> reads_back (read_request loads load) b (Some (seen q)).
  Proof.
    intros Hs Hb. unfold client_write in Hb. apply wseq_inv in Hb as (x & y & E1 & E2 & ->). destruct (int_back IDN _ x idn1 E1) as [R _].
    unfold read_request. eapply reads_back_bind; [exact R|]. cbv beta iota. rewrite known.
    eapply reads_back_bind_nil; [apply args_back; eassumption|]. apply reads_back_ret.
  Qed.

  Ltac ends_ := first [apply ends_int, idn1 | apply ends_utf8, idn1 | apply ends_utf8, szn1 | apply ends_obj, szn1 | apply ends_float  ].
  Ltac fz := repeat first
    [ apply fuzzy_ret
    | eapply fuzzy_bind; [eassumption|eassumption|cbv beta iota|cbv beta iota]
    | eapply fuzzy_bind_nil; [eassumption|eassumption|cbv beta iota|cbv beta iota]
    | apply fuzzy_end; [ends_|cbv beta iota]
    | apply fuzzy_lift; cbn [from_type_id from_enum12]; try exact I ].
  Ltac fin := cbn [partly]; unfold maybe; repeat match goal with |- _ /\ _ => split end; auto.

  Lemma args_fuzzy q b : sent_ok dumps loads save load q -> client_args dumps save q = inl b -> fuzzy (read_args loads load (task_no q)) b (partly q).
  Proof.
    intros Hs Hb. destruct q; cbn [client_args sent_ok] in *; pieces; cbn [task_no read_args]; fields.
    - fz; fin.
    - fz; fin.
    - fz; fin.
    - fz; fin.
    - fz; fin.
    - fz; try (destruct ((dtype =? 0) || (dtype =? 1) || (dtype =? 3) || (dtype =? 4)); [|exact I]); fz; fin.
    - fz; fin.
    - fz; fin.
    - fz; fin.
    - fz; fin.
    - fz; fin.
    - fz; try (destruct ((mode =? 1) || (mode =? 2)); [|exact I]); fz; try (destruct ((ptype =? 1) || (ptype =? 2)); [|exact I]); fz; fin; destruct primary; auto.
    - fz; try apply fuzzy_raise.
      rewrite Nat2Z.id. eapply fuzzy_then; [apply ints_fuzzy; eassumption|]. intros l Hl. fin.
    - fz; fin. destruct on_disk; auto.
    - fz; fin.
    - repeat match goal with
      | C : cut_end (read_array load IDN SZN) ?b, E : write_array save ?a IDN SZN = inl ?b |- _ => apply (array_cut_raises save load IDN SZN a b idn1 C) in E; clear C
      end.
      eapply fuzzy_bind; [eassumption|eassumption| |]; cbv beta; [|fz; apply fuzzy_array_end; [apply idn1|apply szn1]].
      eapply fuzzy_bind; [eassumption|eassumption| |]; cbv beta; [|fz; apply fuzzy_array_end; [apply idn1|apply szn1]].
      eapply fuzzy_bind; [eassumption|eassumption| |]; cbv beta; [|fz; apply fuzzy_array_end; [apply idn1|apply szn1]].
      eapply fuzzy_strict; [eassumption|eassumption|]. cbv beta. eapply fuzzy_strict_nil; [eassumption|eassumption|]. apply fuzzy_ret. fin.
  Qed.

  Lemma request_fuzzy q b : sent_ok dumps loads save load q -> client_write dumps save q = inl b ->
    fuzzy (read_request loads load) b (fun o => match o with None => True | Some sq => partly q sq end).
  Proof.
    intros Hs Hb. unfold client_write in Hb. apply wseq_inv in Hb as (x & y & E1 & E2 & ->). destruct (int_back IDN _ x idn1 E1) as [R C].
    unfold read_request. eapply fuzzy_bind; [exact R|exact C| |]; cbv beta iota.
    - rewrite known. apply (fuzzy_then (read_args loads load (task_no q)) Some y (partly q)); [apply args_fuzzy; assumption|]. auto.
    - apply (fuzzy_ret (A:=option (sreq Ob Ar)) None). exact I.
  Qed.

  (** Answers of the kind and width the client expects. *)
  Definition right_kind (q : creq Ob Ar) (a : answer Ob) : Prop :=
    match q, a with
    | (CRegisterQuery _ _ _ _ _ | CRegisterDataset _ _ _ _ _ | CRestore _ _), AStr k _ => k = IDN
    | (CReadFile _ | CCheckpoint _ _ _ _), AStr k _ => k = SZN
    | CReadFile _, ANone => True
    | (CQueryStatus _ | CDatasetStatus _ | CRegisterParser _ _ | CDatasetExists _ | CRemoveDataset _ | CAddProperty _ _ _ _ _ _ _ _ _ _ _
       | CCheckpointCompleted _ _ _ | CFeedback _ _ _ _ _), AInt _ => True
    | (CMeta _ | CListDatasets), AObj _ => True
    | CNextChunk _ _ _ _, ABytes _ => True
    | _, _ => False
    end.

  Definition gives {A} (m : reader -> reader * (A + nexn)) (b : list Z) (v : A + nexn) : Prop :=
    forall fr, timely fr -> snd (m (mkReader b false fr)) = v.
  Lemma back_gives {A} (m : reader -> reader * (A + nexn)) b a : reads_back m b a -> gives m b (inl a).
  Proof.
    intros H fr Ht. destruct (m (mkReader b false fr)) as [r' res] eqn:E. rewrite <- (app_nil_r b) in E. apply H in E. cbn.
    destruct E as [(-> & _)|(_ & Hn)]; [reflexivity|contradiction].
  Qed.
  Lemma back_gives_then {A B} (m : reader -> reader * (A + nexn)) (f : A -> reader -> reader * (B + nexn)) b a v :
    reads_back m b a -> (forall r, snd (f a r) = v) -> gives (fun r => rbind (m r) f) b v.
  Proof.
    intros H Hf fr Ht. destruct (m (mkReader b false fr)) as [r' res] eqn:E. rewrite <- (app_nil_r b) in E. apply H in E.
    destruct E as [(-> & _)|(_ & Hn)]; [cbn; apply Hf|contradiction].
  Qed.
  Lemma read1_timely_end n fr : timely fr -> exists fr', read1 n (mkReader [] false fr) = (mkReader [] false fr', Some []) .
  Proof. intros Ht. unfold read1. cbn. destruct fr as [|[k|] fr]; eauto. exfalso. apply Ht. left. reflexivity. Qed.
  Lemma read_int_end n fr : (1 <= n)%nat -> timely fr -> exists r', read_int n (mkReader [] false fr) = (r', inl None).
  Proof.
    intros Hn Ht. unfold read_int, read_bytes. cbn [read_loop]. replace (Z.of_nat (length (@nil Z)) <? Z.of_nat n) with true by (symmetry; apply Z.ltb_lt; cbn; lia).
    cbn [read_loop]. replace (Z.of_nat (length (@nil Z)) <? Z.of_nat n) with true by (symmetry; apply Z.ltb_lt; cbn; lia).
    destruct (read1_timely_end (Z.to_nat (Z.of_nat n) - length (@nil Z)) fr Ht) as (fr' & ->). cbn. eauto.
  Qed.
  Lemma end_gives {B C} k (f : option Z -> reader -> reader * (B + nexn)) (g : B -> reader -> reader * (C + nexn)) x v : (1 <= k)%nat ->
    (forall r, snd (f None r) = inl x) -> (forall r, snd (g x r) = v) -> gives (fun r => rbind (rbind (read_int k r) f) g) [] v.
  Proof.
    intros Hk Hf Hg fr Ht. destruct (read_int_end k fr Hk Ht) as (r' & ->). cbn [rbind]. specialize (Hf r'). destruct (f None r') as [r2 o]. cbn in Hf. subst o. cbn. apply Hg.
  Qed.

  Lemma client_no_answer (q : creq Ob Ar) : gives (client_read loads job_of q) [] (no_answer q).
  Proof.
    destruct q; cbn [client_read no_answer];
      try (unfold read_utf8; eapply end_gives with (x := None); [apply idn1|reflexivity|reflexivity]);
      try (unfold read_utf8; eapply end_gives with (x := None); [apply szn1|reflexivity|reflexivity]);
      try (unfold read_obj; eapply end_gives with (x := None); [apply szn1|reflexivity|reflexivity]);
      try (unfold read_bytes_obj; eapply end_gives with (x := None); [apply szn1|reflexivity|reflexivity]);
      intros fr Ht; destruct (read_int_end IDN fr idn1 Ht) as (r' & ->); reflexivity.
  Qed.

  Lemma client_answer (q : creq Ob Ar) a b : right_kind q a -> answer_ok dumps loads a -> write_answer dumps a = inl b -> gives (client_read loads job_of q) b (result loads job_of q a).
  Proof.
    intros Hk Ha Hb. destruct a as [v|k s|o|d|]; cbn [write_answer] in Hb.
    - destruct (int_back IDN v b idn1 Hb) as [R _]. destruct q; cbn in Hk; try contradiction; cbn [client_read result]; eapply back_gives_then; try exact R; reflexivity.
    - assert (Hkk : (1 <= k)%nat) by (destruct q; cbn in Hk; try contradiction; subst k; [apply idn1|apply szn1|apply idn1|apply szn1|apply idn1]).
      destruct (str_back k s b Hkk Ha Hb) as [R _].
      destruct q; cbn in Hk; try contradiction; subst k; cbn [client_read result]; eapply back_gives_then; try exact R; reflexivity.
    - destruct (objs_back dumps loads o b Ha Hb) as [R _]. destruct q; cbn in Hk; try contradiction; cbn [client_read result]; eapply back_gives_then; try exact R; reflexivity.
    - destruct q; cbn in Hk; try contradiction. cbn [client_read]. destruct d as [d|].
      + destruct Ha as [Hd Hf]. destruct (bytes_back SZN d b szn1 Hd Hf Hb) as [R _]. cbn [result]. eapply back_gives_then; [exact R|]. intros r. cbv beta iota.
        destruct (loads d); reflexivity.
      + pose proof (bytes_none_back SZN b szn1 Hb) as R. cbn [result]. eapply back_gives_then; [exact R|]. reflexivity.
    - injection Hb as <-. destruct q; cbn in Hk; try contradiction. cbn [result]. apply client_no_answer.
  Qed.

  Context {St D : Type} (ops : stub Ob Ar St D).
  Notation server := (server Ob St D).

  Lemma handle_kind uuid (q : creq Ob Ar) s s' a : handle job_of ops uuid (seen q) s = (s', inl a) -> right_kind q a.
  Proof.
    intros H. destruct q; cbn [seen handle] in H;
      try (unfold with_stub, pure_stub in H;
           repeat match type of H with context [match ?x with _ => _ end] => destruct x eqn:? end; try discriminate; injection H as <- <-; exact I || reflexivity).
    all: try (injection H as <- <-; reflexivity).
    all: repeat match type of H with context [match ?x with _ => _ end] => destruct x eqn:? end; try discriminate.
    all: try (injection H as <- <-; exact I).
    all: unfold with_stub, pure_stub in H.
    all: repeat match type of H with context [match ?x with _ => _ end] => destruct x eqn:? end; try discriminate.
    all: injection H as <- <-; exact I || reflexivity.
  Qed.

  Lemma serve_handles uuid q b fr op s : sent_ok dumps loads save load q -> client_write dumps save q = inl b -> timely fr ->
    serve dumps loads load job_of ops uuid (mkReader b op fr) s
    = match handle job_of ops uuid (seen q) s with
      | (s', inl a) => (s', match write_answer dumps a with inl b => b | inr _ => [] end)
      | (s', inr _) => (s', [])
      end.
  Proof.
    intros Hs Hb Ht. unfold serve. destruct (read_request loads load (mkReader b op fr)) as [r' res] eqn:E. rewrite <- (app_nil_r b) in E.
    apply (request_back q b Hs Hb) in E. destruct E as [(-> & _)|(_ & Hn)]; [reflexivity|contradiction].
  Qed.
End Proto.
