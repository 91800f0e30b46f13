From Verif Require Import Base MixtureKeyModel NetModel SpecNet NetProofs NetProofs2 ProtoModel ServerModel SpecProto.
Open Scope Z_scope.

Lemma reads_back_bind_nil {A B} (m : reader -> reader * (A + nexn)) (f : A -> reader -> reader * (B + nexn)) b1 a b :
  reads_back m b1 a -> reads_back (f a) [] b -> reads_back (fun r => rbind (m r) f) b1 b.
Proof. intros H1 H2. rewrite <- (app_nil_r b1). eapply reads_back_bind; eassumption. Qed.
Lemma reads_back_lift {A B} (x : A) (f : A -> reader -> reader * (B + nexn)) b1 b :
  reads_back (f x) b1 b -> reads_back (fun r => rbind (lift (inl x) r) f) b1 b.
Proof. intros H. apply reads_back_ext with (m := f x); [reflexivity|exact H]. Qed.

Definition fuzzy {A} (m : reader -> reader * (A + nexn)) (b : list Z) (Q : A -> Prop) : Prop :=
  forall part lost fr r' res, b = part ++ lost -> m (mkReader part false fr) = (r', res) -> (exists e, res = inr e) \/ exists a, res = inl a /\ Q a.
Definition ends {A} (m : reader -> reader * (option A + nexn)) : Prop :=
  forall fr r' res, m (mkReader [] false fr) = (r', res) -> (res = inl None /\ rd_data r' = [] /\ rd_open r' = false) \/ exists e, res = inr e.

Lemma fuzzy_bind {A B} (m : reader -> reader * (option A + nexn)) (f : option A -> reader -> reader * (B + nexn)) b1 b2 o Q :
  reads_back m b1 o -> cut_end m b1 -> fuzzy (f o) b2 Q -> fuzzy (f None) [] Q -> fuzzy (fun r => rbind (m r) f) (b1 ++ b2) Q.
Proof.
  intros H1 C1 F1 FN part lost fr r' res E H.
  destruct (app_eq_app b1 b2 part lost E) as (x & [[Eb Ex]|[Eb Ex]]).
  - destruct x as [|x0 x].
    + rewrite app_nil_r in Eb. subst part. cbn in Ex. subst lost. destruct (m (mkReader b1 false fr)) as [r1 o1] eqn:Em.
      rewrite <- (app_nil_r b1) in Em. apply H1 in Em. destruct Em as [(-> & D1 & D2 & _)|(-> & _)]; cbn [rbind] in H; [|injection H as <- <-; eauto].
      destruct r1 as [d1 op1 fr1]. cbn in D1, D2. subst d1 op1. eapply (F1 [] b2); [reflexivity|exact H].
    + destruct (m (mkReader part false fr)) as [r1 o1] eqn:Em. apply (C1 part (x0 :: x)) in Em; [|exact Eb|discriminate].
      destruct Em as [(-> & D1 & D2)|[e ->]]; cbn [rbind] in H; [|injection H as <- <-; eauto].
      destruct r1 as [d1 op1 fr1]. cbn in D1, D2. subst d1 op1. eapply (FN [] []); [reflexivity|exact H].
  - subst part. destruct (m (mkReader (b1 ++ x) false fr)) as [r1 o1] eqn:Em. apply H1 in Em.
    destruct Em as [(-> & D1 & D2 & _)|(-> & _)]; cbn [rbind] in H; [|injection H as <- <-; eauto].
    destruct r1 as [d1 op1 fr1]. cbn in D1, D2. subst d1 op1. eapply (F1 x lost); [exact Ex|exact H].
Qed.
Lemma fuzzy_bind_nil {A B} (m : reader -> reader * (option A + nexn)) (f : option A -> reader -> reader * (B + nexn)) b1 o Q :
  reads_back m b1 o -> cut_end m b1 -> fuzzy (f o) [] Q -> fuzzy (f None) [] Q -> fuzzy (fun r => rbind (m r) f) b1 Q.
Proof. intros. rewrite <- (app_nil_r b1). eapply fuzzy_bind; eassumption. Qed.
Lemma fuzzy_end {A B} (m : reader -> reader * (option A + nexn)) (f : option A -> reader -> reader * (B + nexn)) Q :
  ends m -> fuzzy (f None) [] Q -> fuzzy (fun r => rbind (m r) f) [] Q.
Proof.
  intros He FN part lost fr r' res E H. symmetry in E. apply app_eq_nil in E as [-> ->]. destruct (m (mkReader [] false fr)) as [r1 o1] eqn:Em.
  apply He in Em. destruct Em as [(-> & D1 & D2)|[e ->]]; cbn [rbind] in H; [|injection H as <- <-; eauto].
  destruct r1 as [d1 op1 fr1]. cbn in D1, D2. subst d1 op1. eapply (FN [] []); [reflexivity|exact H].
Qed.
Lemma fuzzy_ret {A} (a : A) b (Q : A -> Prop) : Q a -> fuzzy (ret a) b Q.
Proof. intros HQ part lost fr r' res _ [= <- <-]. eauto. Qed.
Lemma fuzzy_raise {A} e b (Q : A -> Prop) : fuzzy (raise e) b Q.
Proof. intros part lost fr r' res _ [= <- <-]. eauto. Qed.
Lemma fuzzy_lift {A B} (x : A + nexn) (f : A -> reader -> reader * (B + nexn)) b Q :
  match x with inl a => fuzzy (f a) b Q | inr _ => True end -> fuzzy (fun r => rbind (lift x r) f) b Q.
Proof.
  intros H part lost fr r' res E Hx. destruct x as [a|e]; cbn in Hx; [eapply H; eassumption|]. injection Hx as <- <-. eauto.
Qed.

Lemma cut_ends {A} (m : reader -> reader * (option A + nexn)) b : b <> [] -> cut_end m b -> ends m.
Proof. intros Hb H fr r' res Hm. apply (H [] b fr r' res eq_refl Hb Hm). Qed.

Lemma ends_int n : (1 <= n)%nat -> ends (read_int n).
Proof.
  intros Hn. apply cut_ends with (b := be n 0); [|apply read_int_cut, be_length].
  intros E. apply (f_equal (@length Z)) in E. rewrite be_length in E. cbn in E. lia.
Qed.
Lemma ends_then {A} k (f : option Z -> reader -> reader * (option A + nexn)) : (1 <= k)%nat -> (forall r, f None r = (r, inl None)) -> ends (fun r => rbind (read_int k r) f).
Proof.
  intros Hk HN fr r' res H. destruct (read_int k (mkReader [] false fr)) as [r1 o] eqn:E. apply (ends_int k Hk) in E.
  destruct E as [(-> & D1 & D2)|[e ->]]; cbn [rbind] in H; [|injection H as <- <-; eauto]. rewrite HN in H. injection H as <- <-. auto.
Qed.
Lemma ends_utf8 k : (1 <= k)%nat -> ends (read_utf8 k).
Proof. intros Hk. apply ends_then; [exact Hk|reflexivity]. Qed.
Lemma ends_bytes k : (1 <= k)%nat -> ends (read_bytes_obj k).
Proof. intros Hk. apply ends_then; [exact Hk|reflexivity]. Qed.
Lemma ends_obj {Ob} (loads : list Z -> option Ob) k : (1 <= k)%nat -> ends (read_obj loads k).
Proof. intros Hk. apply ends_then; [exact Hk|reflexivity]. Qed.
Lemma ends_float : ends read_float.
Proof.
  apply cut_ends with (b := be 8 0); [discriminate|]. destruct (float_back 0) with (b := be 8 0) as [_ H]; [|reflexivity|exact H].
  split; [discriminate|reflexivity].
Qed.
Lemma ends_array {Ar} (load : list Z -> option Ar) i k : (1 <= i)%nat -> (1 <= k)%nat -> ends (read_array load i k).
Proof.
  intros Hi Hk fr r' res H. unfold read_array in H. destruct (read_int i (mkReader [] false fr)) as [r1 o] eqn:E. apply (ends_int i Hi) in E.
  destruct E as [(-> & D1 & D2)|[e ->]]; cbn [rbind] in H; [|injection H as <- <-; eauto].
  destruct r1 as [d1 op1 fr1]. cbn in D1, D2. subst d1 op1. destruct (read_bytes_obj k (mkReader [] false fr1)) as [r2 o2] eqn:E2. apply (ends_bytes k Hk) in E2.
  destruct E2 as [(-> & _)|[e ->]]; cbn [rbind] in H; injection H as <- <-; eauto.
Qed.
Lemma array_none_cut {Ar} (save : Ar -> list Z) (load : list Z -> option Ar) i k b : (1 <= i)%nat -> (1 <= k)%nat -> write_array save None i k = inl b -> cut_end (read_array load i k) b.
Proof.
  intros Hi Hk Hb part lost fr r' res E Hne H. cbn [write_array] in Hb. destruct (int_back i 0 b Hi Hb) as [_ C]. unfold read_array in H.
  destruct (read_int i (mkReader part false fr)) as [r1 o] eqn:Em. apply (C part lost) in Em; [|exact E|exact Hne].
  destruct Em as [(-> & D1 & D2)|[e ->]]; cbn [rbind] in H; [|injection H as <- <-; eauto].
  destruct r1 as [d1 op1 fr1]. cbn in D1, D2. subst d1 op1. destruct (read_bytes_obj k (mkReader [] false fr1)) as [r2 o2] eqn:E2. apply (ends_bytes k Hk) in E2.
  destruct E2 as [(-> & _)|[e ->]]; cbn [rbind] in H; injection H as <- <-; eauto.
Qed.

Lemma array_none_flag {Ar} (load : list Z -> option Ar) i k r r' : read_array load i k r = (r', inl None) -> snd (read_int i r) = inl (Some 0).
Proof.
  unfold read_array. intros H. destruct (read_int i r) as [r1 [o|e]]; cbn [rbind] in H; [|discriminate]. cbn. destruct o as [z|].
  - destruct z; [reflexivity| |]; destruct (read_bytes_obj k r1) as [r2 [[o|]|e]]; cbn [rbind] in H; try discriminate; destruct (load o); discriminate.
  - destruct (read_bytes_obj k r1) as [r2 [[o|]|e]]; cbn [rbind] in H; try discriminate; destruct (load o); discriminate.
Qed.
Definition cut_raises {A} (m : reader -> reader * (A + nexn)) (bytes : list Z) : Prop :=
  forall part lost fr r' res, bytes = part ++ lost -> lost <> [] -> m (mkReader part false fr) = (r', res) -> exists e, res = inr e.
Lemma array_cut_raises {Ar} (save : Ar -> list Z) (load : list Z -> option Ar) i k a b : (1 <= i)%nat ->
  cut_end (read_array load i k) b -> write_array save a i k = inl b -> cut_raises (read_array load i k) b.
Proof.
  intros Hi C Hb part lost fr r' res E Hne H. destruct (C part lost fr r' res E Hne H) as [(-> & _)|?]; [exfalso|assumption].
  apply array_none_flag in H. destruct a as [x|]; cbn [write_array] in Hb.
  - apply wseq_inv in Hb as (b1 & b2 & E1 & E2 & ->). destruct (int_back i 1 b1 Hi E1) as [R C1]. destruct (app_eq_app b1 b2 part lost E) as (y & [[Eb Ex]|[Eb Ex]]).
    + destruct y as [|y0 y].
      * rewrite app_nil_r in Eb. subst part. destruct (read_int i (mkReader b1 false fr)) as [r1 o] eqn:Em. rewrite <- (app_nil_r b1) in Em. apply R in Em. cbn in H.
        destruct Em as [(-> & _)|(-> & _)]; discriminate.
      * destruct (read_int i (mkReader part false fr)) as [r1 o] eqn:Em. apply (C1 part (y0 :: y)) in Em; [|exact Eb|discriminate]. cbn in H.
        destruct Em as [(-> & _)|[e ->]]; discriminate.
    + subst part. destruct (read_int i (mkReader (b1 ++ y) false fr)) as [r1 o] eqn:Em. apply R in Em. cbn in H. destruct Em as [(-> & _)|(-> & _)]; discriminate.
  - destruct (int_back i 0 b Hi Hb) as [_ C1]. destruct (read_int i (mkReader part false fr)) as [r1 o] eqn:Em. apply (C1 part lost) in Em; [|exact E|exact Hne]. cbn in H.
    destruct Em as [(-> & _)|[e ->]]; discriminate.
Qed.
Lemma fuzzy_strict {A B} (m : reader -> reader * (A + nexn)) (f : A -> reader -> reader * (B + nexn)) b1 b2 o Q :
  reads_back m b1 o -> cut_raises m b1 -> fuzzy (f o) b2 Q -> fuzzy (fun r => rbind (m r) f) (b1 ++ b2) Q.
Proof.
  intros H1 C1 F1 part lost fr r' res E H. destruct (app_eq_app b1 b2 part lost E) as (x & [[Eb Ex]|[Eb Ex]]).
  - destruct x as [|x0 x].
    + rewrite app_nil_r in Eb. subst part. cbn in Ex. subst lost. destruct (m (mkReader b1 false fr)) as [r1 o1] eqn:Em.
      rewrite <- (app_nil_r b1) in Em. apply H1 in Em. destruct Em as [(-> & D1 & D2 & _)|(-> & _)]; cbn [rbind] in H; [|injection H as <- <-; eauto].
      destruct r1 as [d1 op1 fr1]. cbn in D1, D2. subst d1 op1. eapply (F1 [] b2); [reflexivity|exact H].
    + destruct (m (mkReader part false fr)) as [r1 o1] eqn:Em. apply (C1 part (x0 :: x)) in Em; [|exact Eb|discriminate].
      destruct Em as [e ->]; cbn [rbind] in H; injection H as <- <-; eauto.
  - subst part. destruct (m (mkReader (b1 ++ x) false fr)) as [r1 o1] eqn:Em. apply H1 in Em.
    destruct Em as [(-> & D1 & D2 & _)|(-> & _)]; cbn [rbind] in H; [|injection H as <- <-; eauto].
    destruct r1 as [d1 op1 fr1]. cbn in D1, D2. subst d1 op1. eapply (F1 x lost); [exact Ex|exact H].
Qed.
Lemma fuzzy_strict_nil {A B} (m : reader -> reader * (A + nexn)) (f : A -> reader -> reader * (B + nexn)) b1 o Q :
  reads_back m b1 o -> cut_raises m b1 -> fuzzy (f o) [] Q -> fuzzy (fun r => rbind (m r) f) b1 Q.
Proof. intros. rewrite <- (app_nil_r b1). eapply fuzzy_strict; eassumption. Qed.
Lemma fuzzy_array_end {Ar B} (load : list Z -> option Ar) i k (f : option Ar -> reader -> reader * (B + nexn)) Q :
  (1 <= i)%nat -> (1 <= k)%nat -> fuzzy (fun r => rbind (read_array load i k r) f) [] Q.
Proof.
  intros Hi Hk part lost fr r' res E H. symmetry in E. apply app_eq_nil in E as [-> ->]. destruct (read_array load i k (mkReader [] false fr)) as [r1 o] eqn:Em.
  destruct (ends_array load i k Hi Hk fr r1 o Em) as [(-> & _)|[e ->]].
  - apply array_none_flag in Em. destruct (read_int i (mkReader [] false fr)) as [r2 o2] eqn:E2. apply (ends_int i Hi) in E2. cbn in Em.
    destruct E2 as [(-> & _)|[e ->]]; discriminate.
  - cbn [rbind] in H. injection H as <- <-. eauto.
Qed.
Lemma idn1 : (1 <= IDN)%nat. Proof. unfold IDN. lia. Qed.
Lemma szn1 : (1 <= SZN)%nat. Proof. unfold SZN. lia. Qed.

Section Proto.
  Context {Ob Ar : Type} (dumps : Ob -> list Z) (loads : list Z -> option Ob) (save : Ar -> list Z) (load : list Z -> option Ar) (job_of : Ob -> str).

  Lemma str_back k s b : (1 <= k)%nat -> str_ok k s -> write_utf8 s k = inl b -> reads_back (read_utf8 k) b (Some s) /\ cut_end (read_utf8 k) b.
  Proof. intros Hk [He Hf] Hb. apply utf8_back; assumption. Qed.
  Lemma objs_back o b : obj_ok dumps loads o -> write_obj dumps o SZN = inl b -> reads_back (read_obj loads SZN) b (Some o) /\ cut_end (read_obj loads SZN) b.
  Proof. intros [He Hf] Hb. eapply obj_back; [apply szn1|exact He|exact Hf|exact Hb]. Qed.
  Lemma arr_back a b : array_ok save load a -> write_array save a IDN SZN = inl b -> reads_back (read_array load IDN SZN) b a /\ cut_end (read_array load IDN SZN) b.
  Proof.
    intros Ha Hb. destruct (array_back (fun _ => None : option unit) save load IDN SZN a b) as [H1 H2]; [apply idn1|apply szn1|exact Ha|exact Hb|].
    split; [exact H1|]. destruct a as [x|]; [eapply H2; reflexivity|]. eapply array_none_cut; [apply idn1|apply szn1|exact Hb].
  Qed.


  Lemma ints_back ws : forall b, write_ints ws = inl b -> reads_back (read_ints (length ws)) b (map Some ws).
  Proof.
    induction ws as [|w ws IH]; intros b H; cbn [write_ints read_ints length map] in *.
    - injection H as <-. apply reads_back_ret.
    - apply wseq_inv in H as (x & y & E1 & E2 & ->). destruct (int_back IDN w x idn1 E1) as [R _].
      eapply reads_back_bind; [exact R|]. cbv beta. eapply reads_back_bind_nil; [apply IH, E2|]. apply reads_back_ret.
  Qed.
  Lemma ints_end ws : fuzzy (read_ints (length ws)) [] (fun l => Forall2 maybe l ws).
  Proof.
    induction ws as [|w ws IH]; cbn [read_ints length].
    - apply fuzzy_ret. constructor.
    - apply fuzzy_end; [apply ends_int, idn1|]. cbv beta. intros part lost fr r' res E H. destruct (read_ints (length ws) (mkReader part false fr)) as [r1 o] eqn:Em.
      apply (IH part lost) in Em; [|exact E]. destruct Em as [[e ->]|(l & -> & Hl)]; cbn [rbind] in H; injection H as <- <-; [eauto|].
      right. eexists. split; [reflexivity|]. constructor; [left; reflexivity|exact Hl].
  Qed.
  Lemma ints_fuzzy ws : forall b, write_ints ws = inl b -> fuzzy (read_ints (length ws)) b (fun l => Forall2 maybe l ws).
  Proof.
    induction ws as [|w ws IH]; intros b H.
    - cbn. apply fuzzy_ret. constructor.
    - cbn [write_ints] in H. apply wseq_inv in H as (x & y & E1 & E2 & ->). destruct (int_back IDN w x idn1 E1) as [R C].
      cbn [read_ints length]. eapply fuzzy_bind; [exact R|exact C| |]; cbv beta.
      + intros part lost fr r' res E H. destruct (read_ints (length ws) (mkReader part false fr)) as [r1 o] eqn:Em.
        apply (IH y E2 part lost) in Em; [|exact E]. destruct Em as [[e ->]|(l & -> & Hl)]; cbn [rbind] in H; injection H as <- <-; [eauto|].
        right. eexists. split; [reflexivity|]. constructor; [right; reflexivity|exact Hl].
      + intros part lost fr r' res E H. destruct (read_ints (length ws) (mkReader part false fr)) as [r1 o] eqn:Em.
        apply (ints_end ws part lost) in Em; [|exact E]. destruct Em as [[e ->]|(l & -> & Hl)]; cbn [rbind] in H; injection H as <- <-; [eauto|].
        right. eexists. split; [reflexivity|]. constructor; [left; reflexivity|exact Hl].
  Qed.
  Lemma fuzzy_then {A B} (m : reader -> reader * (A + nexn)) (g : A -> B) b (P : A -> Prop) (Q : B -> Prop) :
    fuzzy m b P -> (forall a, P a -> Q (g a)) -> fuzzy (fun r => rbind (m r) (fun x => ret (g x))) b Q.
  Proof.
    intros H HP part lost fr r' res E Hm. destruct (m (mkReader part false fr)) as [r1 o] eqn:Em. apply (H part lost) in Em; [|exact E].
    destruct Em as [[e ->]|(a & -> & Ha)]; cbn in Hm; injection Hm as <- <-; eauto.
  Qed.
End Proto.
