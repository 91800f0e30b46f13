(** Lemmas about the query cache. *)
From Verif Require Import Base MixtureKeyModel MixtureKeyProofs ChunkGenModel ChunkerModel ChunkerProofs SerialModel SpecSerial PropertiesSerial SerialCrash
  ParserModel MdcModel SpecMdc MdcProofs PropertiesMdc CacheModel.
Open Scope Z_scope.

Lemma in_aset {K V} (eqb : K -> K -> bool) (spec : forall a b, eqb a b = true <-> a = b) k v (l : list (K * V)) x y :
  In (x, y) (aset eqb k v l) -> (x, y) = (k, v) \/ In (x, y) l.
Proof.
  induction l as [|[k' v'] l IH]; cbn; [intros [E|[]]; auto|]. destruct (eqb k k') eqn:E.
  - apply spec in E. subst k'. intros [[= <- <-]|I]; auto.
  - intros [[= <- <-]|I]; auto. destruct (IH I); auto.
Qed.
Lemma in_adel_ {K V} (eqb : K -> K -> bool) k (l : list (K * V)) e : In e (adel eqb k l) -> In e l.
Proof. induction l as [|[k' v'] l IH]; cbn; [auto|]. destruct (eqb k k'); [auto|]. intros [<-|I]; auto. Qed.
Lemma aget_app_left {V} k (a b : list (Z * V)) : aget Z.eqb k a <> None -> aget Z.eqb k (a ++ b) = aget Z.eqb k a.
Proof. induction a as [|[x v] a IH]; cbn; [congruence|]. destruct (Z.eqb k x); [reflexivity|exact IH]. Qed.
Lemma aget_key_in {V} k (l : list (Z * V)) : In k (map fst l) -> aget Z.eqb k l <> None.
Proof. intros I E. apply (aget_none _ Z.eqb_eq) in E. contradiction. Qed.

(** ** What a query sees does not change before the version does *)
Lemma view_grown s did nm s' : consistent s -> grown s did nm s' -> samples s' = samples s -> columns s' = columns s -> view s' = view s.
Proof.
  intros C (G1 & (fs & G2) & _) ES EC. unfold view. rewrite EC, ES. f_equal. apply map_ext_in. intros [[[d f] i] r] I. cbn [fst snd].
  destruct C as (_ & _ & _ & _ & C5 & C6 & _). destruct (C6 d f i r I) as [l L]. destruct (C5 f d l L) as [D _].
  rewrite G1, G2, !aget_app_left; [reflexivity| |].
  - apply aget_key_in. apply in_map_iff. exists (f, (d, l)). auto.
  - apply aget_key_in, D.
Qed.

Section CacheProofs.
  Context {M query : Type}.
  Variable text : query -> str.
  Variable sha : str -> str.
  Variable executes : view_t -> query -> M * pindex -> Prop.
  Variable castable : list str -> list mprop -> list sample -> bool.
  Variable metadata_of : str -> res (list (Z * record)).
  Notation gets := (@gets M sha).
  Notation hist := (hist text sha executes castable metadata_of).

  Lemma register_view s name info vt fnd schema tr o s' : consistent s ->
    register castable metadata_of s name info vt fnd schema = (tr, o) -> In s' tr ->
    consistent s' /\ version s <= version s' /\ (version s' = version s -> view s' = view s).
  Proof.
    intros C R I. assert (T := register_trace castable metadata_of _ _ _ _ _ _ _ _ C R). rewrite Forall_forall in T.
    destruct (T s' I) as (T1 & T2 & T3 & T4 & T5). split; [exact T1|]. split; [lia|]. intros E.
    apply (view_grown s (next_dataset s) (name, info)); [exact C|exact T2| |].
    - destruct T4; [assumption|lia].
    - destruct T5; [assumption|lia].
  Qed.
  Lemma last_db_in s tr : In (last_db s tr) (s :: tr).
  Proof.
    unfold last_db. destruct tr as [|x t]; [now left|]. right. revert x. induction t as [|y t IH]; intros x; [now left|]. right. apply IH.
  Qed.
  Lemma remove_view s name tr o s' : consistent s -> remove s name = (tr, o) -> In s' (s :: tr) ->
    consistent s' /\ version s <= version s' /\ (s' = last_db s tr -> s' = s \/ version s < version s').
  Proof.
    intros C R I. destruct (exists_dataset s name) eqn:E.
    - apply exists_dataset_in in E. unfold list_datasets in E. apply in_map_iff in E as ([did [n info]] & Q & K). cbn in Q. subst n.
      destruct (C35_remove s name did info C K) as (tr' & R' & F). rewrite R in R'. injection R' as <- ->. cbn zeta in F.
      destruct F as (_ & _ & _ & _ & _ & _ & _ & F). destruct I as [<-|I].
      + split; [exact C|]. split; [lia|auto].
      + destruct (C35_remove_every_point s name tr (Done true) s' did info C K R I) as (X1 & _ & X3). split; [exact X1|]. split; [exact X3|].
        intros ->. now right.
    - unfold remove in R. rewrite E in R. cbn in R. injection R as <- <-. destruct I as [<-|[]]. split; [exact C|]. split; [lia|auto].
  Qed.

  (** ** Entries of a cache *)
  Definition has (c : @cache M) (e : entry) : Prop := exists h l n, In (h, l) c /\ In (n, e) l.
  Lemma has_aget c h l n e : aget str_eqb h c = Some l -> In (n, e) l -> has c e.
  Proof. intros E I. apply (aget_in _ str_eqb_spec) in E. exists h, l, n. auto. Qed.
  Lemma has_adel h c e : has (adel str_eqb h c) e -> has c e.
  Proof. intros (h' & l & n & I & J). apply in_adel_ in I. exists h', l, n. auto. Qed.
  Lemma has_aset h l c e : has (aset str_eqb h l c) e -> (exists n, In (n, e) l) \/ has c e.
  Proof.
    intros (h' & l' & n & I & J). apply (in_aset _ str_eqb_spec) in I as [[= -> ->]|I]; [left; eauto|]. right. exists h', l', n. auto.
  Qed.
  Lemma has_getd h c n e : In (n, e) (getd str_eqb h c) -> has c e.
  Proof. unfold getd. destruct (aget str_eqb h c) eqn:E; [|intros []]. now apply (has_aget _ _ _ _ _ E). Qed.
  Lemma has_drop h n c e : has (drop_entry h n c) e -> has c e.
  Proof.
    unfold drop_entry. set (l := adel Z.eqb n (getd str_eqb h c)).
    assert (S : forall m x, In (m, x) l -> has c x) by (intros m x I; apply in_adel_ in I; now apply (has_getd h c m)).
    destruct l as [|y l']; [apply has_adel|]. intros H. apply has_aset in H as [[m I]|H]; [now apply (S m)|exact H].
  Qed.
  Lemma has_add c t e e' : has (add_entry sha c t e) e' -> e' = e \/ has c e'.
  Proof.
    unfold add_entry. intros H. apply has_aset in H as [[n I]|H]; [|auto]. apply in_app_or in I as [I|[[= _ <-]|[]]]; [|auto].
    right. now apply (has_getd (sha t) c n).
  Qed.
  Definition scan_spec t ver (l : @entries M) (r : found) : Prop := match r with
    | NotFound => True | BadMeta => exists n e, In (n, e) l /\ e_meta e = FTorn
    | Stale n e => exists v, In (n, e) l /\ e_meta e = FFull (v, t) /\ v <> ver
    | Hit e => exists n, In (n, e) l /\ e_meta e = FFull (ver, t) end.
  Lemma scan_in t ver l : scan_spec t ver l (scan t ver l).
  Proof.
    induction l as [|[n e] l IH]; cbn [scan]; [exact I|].
    assert (L : scan_spec t ver ((n, e) :: l) (scan t ver l)).
    { destruct (scan t ver l); cbn [scan_spec In] in *.
      - auto.
      - destruct IH as (n' & e' & I & E). exists n', e'. auto.
      - destruct IH as (v & I & E). exists v. auto.
      - destruct IH as (n' & I & E). exists n'. auto. }
    destruct (e_meta e) as [| |[v t']] eqn:E.
    - exact L.
    - exists n, e. cbn. auto.
    - destruct (str_eqb t' t) eqn:T; [|exact L]. apply str_eqb_spec in T. subst t'. destruct (Z.eqb_spec v ver) as [->|N].
      + exists n. cbn. auto.
      + exists v. cbn. auto.
  Qed.
  (** a lookup never adds an entry, except that an interrupted removal of a stale one can leave a part of it *)
  Lemma gets_has c ver t c' a e : gets c ver t c' a -> has c' e ->
    has c e \/ e_meta e = FMissing \/ exists e0 v, has c e0 /\ e_meta e0 = FFull (v, t) /\ v <> ver /\ e_meta e = FFull (v, t).
  Proof.
    intros G H. destruct G; try (left; exact H).
    - left. now apply has_adel in H.
    - left. now apply has_drop in H.
    - apply has_aset in H as [[m I]|H]; [|auto]. apply (in_aset _ Z.eqb_eq) in I as [[= -> ->]|I]; [|left; eapply has_aget; eassumption].
      right. match goal with X : scan _ _ _ = _ |- _ => rename X into SC end. assert (S := scan_in t ver order). rewrite SC in S.
      destruct S as (v & I & E1 & N). match goal with X : _ \/ _ |- _ => destruct X as [ME|ME]; [right|left; exact ME] end.
      exists e0, v. split; [|rewrite ME; auto].
      match goal with X : aget _ _ _ = Some l, Y : Permutation _ _ |- _ => apply (has_aget _ _ _ n _ X), (Permutation_in _ Y), I end.
  Qed.

  (** ** The invariant *)
  Variables pc : bool.
  Definition entry_ok (s : db) (e : entry) : Prop := match e_meta e with
    | FMissing => True
    | FTorn => pc = true
    | FFull (v, t) => v <= version s /\ (v = version s -> exists q m idx, text q = t /\ executes (view s) q (m, idx) /\
        (put_done v t m idx e \/ pc = true /\ put_crash v t m idx e))
    end.
  Lemma entry_ok_mono s s' e : version s <= version s' -> (version s' = version s -> view s' = view s) -> entry_ok s e -> entry_ok s' e.
  Proof.
    unfold entry_ok. destruct (e_meta e) as [| |[v t]]; auto. intros V W [H1 H2]. split; [lia|]. intros E.
    destruct (H2 ltac:(lia)) as (q & m & idx & A & B & D). exists q, m, idx. rewrite (W ltac:(lia)). auto.
  Qed.
  Definition good (k : @config M query) : Prop :=
    consistent (c_db k) /\ (forall e, has (c_cache k) e -> entry_ok (c_db k) e) /\
    (forall q r, c_pend k = Some (q, r) -> executes (view (c_db k)) q r).
  Lemma gets_ok c s t c' a : gets c (version s) t c' a -> (forall e, has c e -> entry_ok s e) -> forall e, has c' e -> entry_ok s e.
  Proof.
    intros G H e I. destruct (gets_has _ _ _ _ _ _ G I) as [J|[J|(e0 & v & J & E & N & E')]].
    - auto.
    - unfold entry_ok. now rewrite J.
    - specialize (H e0 J). unfold entry_ok in *. rewrite E in H. rewrite E'. destruct H as [H _]. split; [exact H|]. lia.
  Qed.
  Lemma hist_good k : hist false false pc k -> good k.
  Proof.
    induction 1 as [|k H IH|k name info vt fnd schema tr o H IH P R|k name info vt fnd schema tr o s' H IH R I|k name tr o H IH P R|k name tr o s' H IH F|
      k q c' a H IH P G A|k q c' H IH G|k q c' r H IH P G X|k q m idx e H IH P D|k q r H IH F P|k q m idx e H IH F P D]; try discriminate.
    - split; [apply (C35_always_consistent castable metadata_of), HInit|]. split; [intros e (h & l & n & [] & _)|discriminate].
    - destruct IH as (I1 & I2 & I3). split; [exact I1|]. split; [exact I2|discriminate].
    - destruct IH as (I1 & I2 & I3). destruct P as [P|P]; [|discriminate]. unfold good. cbn [c_db c_cache c_pend]. rewrite P.
      destruct (last_db_in (c_db k) tr) as [<-|I]; [split; [exact I1|split; [exact I2|discriminate]]|].
      destruct (register_view _ _ _ _ _ _ _ _ _ I1 R I) as (X1 & X2 & X3). split; [exact X1|]. split; [|discriminate].
      intros e J. apply (entry_ok_mono (c_db k)); auto.
    - destruct IH as (I1 & I2 & I3). destruct (register_view _ _ _ _ _ _ _ _ _ I1 R I) as (X1 & X2 & X3). split; [exact X1|]. split; [|discriminate].
      cbn. intros e J. apply (entry_ok_mono (c_db k)); auto.
    - destruct IH as (I1 & I2 & I3). destruct P as [P|P]; [|discriminate]. unfold good. cbn [c_db c_cache c_pend]. rewrite P.
      destruct (remove_view _ _ _ _ _ I1 R (last_db_in _ _)) as (X1 & X2 & X3). split; [exact X1|]. split; [|discriminate].
      intros e J. apply (entry_ok_mono (c_db k)); auto. intros E. destruct (X3 eq_refl) as [->|]; [reflexivity|lia].
    - destruct IH as (I1 & I2 & I3). split; [exact I1|]. split; [|discriminate]. cbn. intros e J. eapply gets_ok; eassumption.
    - destruct IH as (I1 & I2 & I3). split; [exact I1|]. split; [|discriminate]. cbn. intros e J. eapply gets_ok; eassumption.
    - destruct IH as (I1 & I2 & I3). split; [exact I1|]. split; [|cbn; intros q0 r0 [= <- <-]; exact X]. cbn. intros e J. eapply gets_ok; eassumption.
    - destruct IH as (I1 & I2 & I3). split; [exact I1|]. split; [|discriminate]. cbn. intros e' J. apply has_add in J as [->|J]; [|auto].
      unfold entry_ok. specialize (I3 _ _ P). inversion D; subst. cbn [e_meta]. split; [lia|]. intros _. exists q, m, idx. auto.
    - destruct IH as (I1 & I2 & I3). split; [exact I1|]. split; [|discriminate]. cbn. intros e' J. apply has_aset in J as [[n J]|J]; [|auto].
      apply I2. now apply (has_getd (sha (text q)) _ n).
    - destruct IH as (I1 & I2 & I3). split; [exact I1|]. split; [|discriminate]. cbn. intros e' J. apply has_add in J as [->|J]; [|auto].
      specialize (I3 _ _ P). unfold entry_ok. destruct (e_meta e) as [| |[v t]] eqn:E; auto.
      assert (Q : v = version (c_db k) /\ t = text q) by (inversion D; subst; cbn in E; try discriminate; injection E as <- <-; auto).
      destruct Q as [-> ->]. split; [lia|]. intros _. exists q, m, idx. auto.
  Qed.
  (** without any restriction on what happens: no entry claims a version that has not been reached *)
  Lemma hist_versions conc rmcrash k : hist conc rmcrash pc k -> consistent (c_db k) /\
    forall e v t, has (c_cache k) e -> e_meta e = FFull (v, t) -> v <= version (c_db k).
  Proof.
    assert (GV : forall c s t c' a, gets c (version s) t c' a -> (forall e v t, has c e -> e_meta e = FFull (v, t) -> v <= version s) ->
      forall e v t, has c' e -> e_meta e = FFull (v, t) -> v <= version s).
    { intros c s t c' a G H e v t' I E. destruct (gets_has _ _ _ _ _ _ G I) as [J|[J|(e0 & v0 & J & E0 & N & E')]]; [eauto|congruence|].
      rewrite E in E'. injection E' as <- <-. eauto. }
    induction 1 as [|k H IH|k name info vt fnd schema tr o H IH P R|k name info vt fnd schema tr o s' H IH R I|k name tr o H IH P R|k name tr o s' H IH F R I|
      k q c' a H IH P G A|k q c' H IH G|k q c' r H IH P G X|k q m idx e H IH P D|k q r H IH F P|k q m idx e H IH F P D]; cbn [c_db c_cache].
    - split; [apply (C35_always_consistent castable metadata_of), HInit|]. intros e v t (h & l & n & [] & _).
    - exact IH.
    - destruct IH as (I1 & I2). destruct (last_db_in (c_db k) tr) as [<-|I]; [auto|].
      destruct (register_view _ _ _ _ _ _ _ _ _ I1 R I) as (X1 & X2 & X3). split; [exact X1|]. intros e v t J E. specialize (I2 e v t J E). lia.
    - destruct IH as (I1 & I2). destruct (register_view _ _ _ _ _ _ _ _ _ I1 R I) as (X1 & X2 & X3). split; [exact X1|]. intros e v t J E. specialize (I2 e v t J E). lia.
    - destruct IH as (I1 & I2). destruct (remove_view _ _ _ _ _ I1 R (last_db_in _ _)) as (X1 & X2 & X3). split; [exact X1|]. intros e v t J E. specialize (I2 e v t J E). lia.
    - destruct IH as (I1 & I2). destruct (remove_view _ _ _ _ s' I1 R (or_intror I)) as (X1 & X2 & X3). split; [exact X1|]. intros e v t J E. specialize (I2 e v t J E). lia.
    - destruct IH as (I1 & I2). split; [exact I1|]. eapply GV; eassumption.
    - destruct IH as (I1 & I2). split; [exact I1|]. eapply GV; eassumption.
    - destruct IH as (I1 & I2). split; [exact I1|]. eapply GV; eassumption.
    - destruct IH as (I1 & I2). split; [exact I1|]. intros e' v t J E. apply has_add in J as [->|J]; [|eauto]. inversion D; subst. cbn in E. injection E as <- <-. lia.
    - destruct IH as (I1 & I2). split; [exact I1|]. intros e' v t J E. apply has_aset in J as [[n J]|J]; [|eauto]. apply has_getd in J. eauto.
    - destruct IH as (I1 & I2). split; [exact I1|]. intros e' v t J E. apply has_add in J as [->|J]; [|eauto]. inversion D; subst; cbn in E; try discriminate; injection E as <- <-; lia.
  Qed.
End CacheProofs.
