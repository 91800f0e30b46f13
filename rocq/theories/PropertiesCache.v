(** C34: the query cache never serves stale or foreign results. *)
From Coq Require Import String.
From Verif Require Import Base MixtureKeyModel MixtureKeyProofs ChunkGenModel ChunkerModel ChunkerProofs SerialModel SpecSerial SerialProofs SerialProofs2 PropertiesSerial SerialCrash
  ParserModel MdcModel SpecMdc MdcProofs PropertiesMdc CacheModel SpecCache CacheProofs.
Open Scope Z_scope.

Section Props.
  Context {M query : Type}.
  Variable text : query -> str.
  Variable sha : str -> str.
  Variable executes : view_t -> query -> M * pindex -> Prop.
  Variable castable : list str -> list mprop -> list sample -> bool.
  Variable metadata_of : str -> res (list (Z * record)).
  Notation gets := (@gets M sha).
  Notation hist := (hist text sha executes castable metadata_of).

  Lemma put_done_load v t (m : M) idx (e : entry) r : is_index idx -> no_empty idx -> put_done v t m idx e -> from_cache e r ->
    exists p, r = Some (m, p) /\ akeys p = akeys idx /\ same_index p idx.
  Proof.
    intros W E D F. inversion D as [fs S Q]; subst. inversion F as [X|X|X|fs' X L|m' fs' p X1 X2 X3 L]; cbn in *; try congruence.
    - injection X as <-. destruct (C33_roundtrip idx fs None W E S L) as (p & [=] & _).
    - injection X3 as <-. injection X2 as <-. destruct (C33_roundtrip idx fs (Some p) W E S L) as (p' & [= <-] & A & B). exists p. auto.
  Qed.
  Lemma put_crash_load v t (m : M) idx (e : entry) r : is_index idx -> put_crash v t m idx e -> from_cache e r ->
    r = None \/ exists p, r = Some (m, p) /\ part_of p idx.
  Proof.
    intros W D F. inversion F as [X|X|X|fs' X L|m' fs' p X1 X2 X3 L]; subst; auto.
    right. inversion D as [| | | | | | |fs0 C]; subst; cbn in *; try congruence. injection X3 as <-. injection X2 as <-.
    destruct (load_crashed idx _ _ W C L) as [|(p' & [= <-] & H)]; [discriminate|].
    exists p. split; [reflexivity|]. exact H.
  Qed.

  (** Over every history of registrations, removals and queries, with crashes anywhere except inside a removal or while
      a result is written to the cache, and dataset operations not overlapping with a query: a lookup either misses
      (and the query is run), or serves exactly what running a query with the same text on the present catalogue
      returns.  Hash collisions, the listing order of directories and interrupted clean-ups do no harm. *)
  Theorem C34_served_partial k q c' a : returns_indexes executes -> hist false false false k ->
    gets (c_cache k) (version (c_db k)) (text q) c' (Some a) ->
    a = Miss \/ exists r, a = Served r /\ fresh_answer text executes (c_db k) (text q) r.
  Proof.
    intros RI H G. destruct (hist_good _ _ _ _ _ _ _ H) as (_ & EO & _).
    inversion G as [| | |l order A P S|l order n e A P S|l order e r A P S F|]; subst; auto.
    - assert (X := scan_in (text q) (version (c_db k)) order). rewrite S in X. destruct X as (n & e & I & E).
      specialize (EO e (has_aget _ _ _ _ _ A (Permutation_in _ P I))). unfold entry_ok in EO. rewrite E in EO. discriminate.
    - assert (X := scan_in (text q) (version (c_db k)) order). rewrite S in X. destruct X as (n & I & E).
      specialize (EO e (has_aget _ _ _ _ _ A (Permutation_in _ P I))). unfold entry_ok in EO. rewrite E in EO. destruct EO as [_ EO].
      destruct (EO eq_refl) as (q' & m & idx & T & X & [D|[[=] _]]). destruct (RI _ _ _ _ X) as [W NE].
      destruct (put_done_load _ _ _ _ _ _ W NE D F) as (p & -> & K1 & K2). right. exists (m, p). split; [reflexivity|]. exists q', idx. auto.
  Qed.
  (** If the text determines the query, the answer is that of the very query. *)
  Corollary C34_served_exact_partial k q c' m p : returns_indexes executes -> (forall a b, text a = text b -> a = b) -> hist false false false k ->
    gets (c_cache k) (version (c_db k)) (text q) c' (Some (Served (m, p))) ->
    exists idx, executes (view (c_db k)) q (m, idx) /\ akeys p = akeys idx /\ same_index p idx.
  Proof.
    intros RI Inj H G. destruct (C34_served_partial k q c' _ RI H G) as [[=]|(r & [= <-] & q' & idx & T & X & A & B)].
    apply Inj in T. subst q'. exists idx. auto.
  Qed.
  (** With crashes while results are being written: a lookup may also raise, or serve a part of the right answer; still
      nothing that the right answer does not contain. *)
  Theorem C34_served_with_put_crashes_partial k q c' a : returns_indexes executes -> hist false false true k ->
    gets (c_cache k) (version (c_db k)) (text q) c' (Some a) ->
    a = Miss \/ a = Raises \/ exists r, a = Served r /\ partial_answer text executes (c_db k) (text q) r.
  Proof.
    intros RI H G. destruct (hist_good _ _ _ _ _ _ _ H) as (_ & EO & _).
    inversion G as [| | |l order A P S|l order n e A P S|l order e r A P S F|]; subst; auto.
    assert (X := scan_in (text q) (version (c_db k)) order). rewrite S in X. destruct X as (n & I & E).
    specialize (EO e (has_aget _ _ _ _ _ A (Permutation_in _ P I))). unfold entry_ok in EO. rewrite E in EO. destruct EO as [_ EO].
    destruct (EO eq_refl) as (q' & m & idx & T & X & D). destruct (RI _ _ _ _ X) as [W NE]. destruct D as [D|[_ D]].
    - destruct (put_done_load _ _ _ _ _ _ W NE D F) as (p & -> & K1 & K2). right. right. exists (m, p). split; [reflexivity|]. exists q', idx.
      split; [exact T|]. split; [exact X|]. destruct K2 as (_ & _ & K2). intros kk d f iv Hk. now rewrite <- K2.
    - destruct (put_crash_load _ _ _ _ _ _ W D F) as [->|(p & -> & PO)]; [auto|]. right. right. exists (m, p). split; [reflexivity|]. exists q', idx. auto.
  Qed.
  (** Once a registration or removal has completed, whatever happened before -- crashes anywhere, overlapping operations
      -- no result cached earlier is served, for any query text. *)
  Theorem C34_change_invalidates conc rmcrash putcrash k s' t c' a : hist conc rmcrash putcrash k ->
    (exists name info vt fnd schema tr, register castable metadata_of (c_db k) name info vt fnd schema = (tr, Done true) /\ s' = last_db (c_db k) tr) \/
    (exists name tr, remove (c_db k) name = (tr, Done true) /\ s' = last_db (c_db k) tr) ->
    gets (c_cache k) (version s') t c' (Some a) -> forall r, a <> Served r.
  Proof.
    intros H Ch G r ->. destruct (hist_versions _ _ _ _ _ _ _ _ _ H) as (C & V).
    assert (L : version (c_db k) < version s').
    { destruct Ch as [(name & info & vt & fnd & schema & tr & R & ->)|(name & tr & R & ->)].
      - destruct (register_done castable metadata_of _ _ _ _ _ _ _ C R) as (locs & props & metas & _ & _ & _ & _ & _ & _ & _ & _ & _ & E). lia.
      - destruct (exists_dataset (c_db k) name) eqn:E.
        + apply exists_dataset_in in E. unfold list_datasets in E. apply in_map_iff in E as ([did [n info]] & Q & K). cbn in Q. subst n.
          destruct (C35_remove (c_db k) name did info C K) as (tr' & R' & F). rewrite R in R'. injection R' as <-. cbn zeta in F. apply F.
        + unfold remove in R. rewrite E in R. discriminate. }
    inversion G as [| | | | |l order e r' A P S F Q|]; subst; try congruence.
    assert (X := scan_in t (version s') order). rewrite S in X. destruct X as (n & I & E).
    specialize (V e _ _ (has_aget _ _ _ _ _ A (Permutation_in _ P I)) E). lia.
  Qed.
  (** What is served was cached under the same text at the present version, always. *)
  Theorem C34_same_text_and_version c ver t c' r : gets c ver t c' (Some (Served r)) -> exists e, has c e /\ e_meta e = FFull (ver, t).
  Proof.
    intros G. inversion G as [| | | | |l order e r' A P S F Q|]; subst; try congruence.
    assert (X := scan_in t ver order). rewrite S in X. destruct X as (n & I & E). exists e. split; [|exact E].
    eapply has_aget; [exact A|]. apply (Permutation_in _ P), I.
  Qed.

  (** Every cached result has a directory of its own, so that caching never fails because the directory exists
      (query_dir.mkdir()) and never overwrites another query's result, whatever happened before. *)
  Lemma next_number_fresh (l : @entries M) : ~ In (next_number l) (akeys l).
  Proof.
    assert (Q : forall n, In n (akeys l) -> n < next_number l).
    { intros n H. unfold next_number. induction l as [|[n0 e0] l0 IH]; [destruct H|]. cbn [map fst fold_right] in *. destruct H as [->|H]; [lia|]. specialize (IH H). lia. }
    intros H. specialize (Q _ H). lia.
  Qed.
  Definition own_dirs (c : @cache M) : Prop := forall h l, In (h, l) c -> NoDup (akeys l).
  Lemma own_aset c h l : own_dirs c -> NoDup (akeys l) -> own_dirs (aset str_eqb h l c).
  Proof. intros H N h' l' I. apply (in_aset _ str_eqb_spec) in I as [[= -> ->]|I]; [exact N|apply (H _ _ I)]. Qed.
  Lemma own_adel c h : own_dirs c -> own_dirs (adel str_eqb h c).
  Proof.
    intros H h' l' I. apply (H h'). revert I. clear. induction c as [|[h0 l0] c IH]; [auto|]. cbn [adel]. destruct (str_eqb h h0); [intros I; right; exact I|].
    intros [I|I]; [left; exact I|right; apply IH, I].
  Qed.
  Lemma own_getd c h : own_dirs c -> NoDup (akeys (getd str_eqb h c)).
  Proof. intros H. unfold getd. match goal with |- context [match ?x with _ => _ end] => destruct x eqn:E end; [|constructor]. apply (aget_in _ str_eqb_spec) in E. apply (H _ _ E). Qed.
  Lemma own_add c t (e : entry) : own_dirs c -> own_dirs (add_entry sha c t e).
  Proof.
    intros H. unfold add_entry. apply own_aset; [exact H|]. rewrite map_app. cbn [map fst]. apply NoDup_app_iff. split; [apply own_getd, H|]. split; [repeat constructor; intros []|].
    intros x Hx [<-|[]]. exact (next_number_fresh _ Hx).
  Qed.
  Lemma own_gets c v t c' a : own_dirs c -> gets c v t c' a -> own_dirs c'.
  Proof.
    intros H G. inversion G as [| | | |l order n e A P S| |l order n e e' A P S]; subst; try assumption.
    - apply own_adel, H.
    - unfold drop_entry. assert (N := NoDup_akeys_adel Z.eqb n _ (own_getd c (sha t) H)). match goal with |- context [match ?x with _ => _ end] => destruct x eqn:E1 end; [apply own_adel, H|apply own_aset; [exact H|exact N]].
    - apply own_aset; [exact H|]. apply (NoDup_akeys_aset _ Z.eqb_eq). apply (aget_in _ str_eqb_spec) in A. apply (H _ _ A).
  Qed.
  Theorem C34_own_directories conc rmcrash putcrash k h l : hist conc rmcrash putcrash k -> In (h, l) (c_cache k) ->
    NoDup (akeys l) /\ ~ In (next_number l) (akeys l).
  Proof.
    intros H I. split; [|apply next_number_fresh]. revert h l I. change (own_dirs (c_cache k)). induction H; cbn [c_cache]; try assumption.
    - intros ? ? [].
    - eapply own_gets; eassumption.
    - eapply own_gets; eassumption.
    - eapply own_gets; eassumption.
    - apply own_add. assumption.
    - apply own_aset; [assumption|apply own_getd; assumption].
    - apply own_add. assumption.
  Qed.

  (** ** What goes wrong otherwise *)
  Lemma hit_new c ver t (e : @entry M) r : e_meta e = FFull (ver, t) -> from_cache e r ->
    gets (add_entry sha c t e) ver t (add_entry sha c t e) (Some (match r with Some r => Served r | None => Raises end)).
  Proof.
    intros E F. set (l := getd str_eqb (sha t) c). set (n := next_number l).
    apply (GHit sha _ _ _ (l ++ [(n, e)]) ((n, e) :: l) e r); [|apply Permutation_cons_append| |exact F].
    - unfold add_entry. apply (aget_aset_same _ str_eqb_spec).
    - cbn [scan]. rewrite E, (eqb_refl_ _ str_eqb_spec), Z.eqb_refl. reflexivity.
  Qed.
  Lemma put_done_exists v t (m : M) idx : is_index idx -> no_empty idx -> exists (e : entry) p, put_done v t m idx e /\ e_meta e = FFull (v, t) /\
    from_cache e (Some (m, p)) /\ same_index p idx.
  Proof.
    intros W NE. set (fs := fold_left serialize_file (save_tasks idx) (save_keys idx)).
    assert (S : saved idx None (Some fs)) by apply SavedNew, Permutation_refl.
    assert (L : exists res, loaded fs res).
    { destruct (load_plan fs) as [[keys tasks]|] eqn:E; [|exists None; now apply LoadedErr]. eexists. eapply LoadedOk; [exact E|apply Permutation_refl]. }
    destruct L as [res L]. destruct (C33_roundtrip idx fs res W NE S L) as (p & -> & A & B).
    exists (Entry (FFull (v, t)) (FFull m) (FFull tt) (Some fs)), p. split; [now constructor|]. split; [reflexivity|]. split; [|exact B].
    eapply FcOk; cbn; eauto.
  Qed.
  (** A crash inside remove_dataset after its first statement: the dataset's samples are gone, the version is the old
      one, and after the restart the cached result -- still listing the deleted samples -- is served. *)
  Theorem C34_remove_crash_serves_deleted_refuted conc putcrash k q m idx name did info : returns_indexes executes ->
    hist conc true putcrash k -> c_pend k = Some (q, (m, idx)) -> executes (view (c_db k)) q (m, idx) -> In (did, (name, info)) (datasets (c_db k)) ->
    exists k' c' p, hist conc true putcrash k' /\ (forall f i r, ~ In ((did, f, i), r) (samples (c_db k'))) /\
      gets (c_cache k') (version (c_db k')) (text q) c' (Some (Served (m, p))) /\ same_index p idx.
  Proof.
    intros RI H P X I. destruct (RI _ _ _ _ X) as [W NE]. destruct (hist_versions _ _ _ _ _ _ _ _ _ H) as (C & _).
    destruct (put_done_exists (version (c_db k)) (text q) m idx W NE) as (e & p & D & E & F & B).
    destruct (remove_trace (c_db k) name did info C I) as (s1 & s2 & s3 & R & E1 & _ & _).
    assert (H1 := HPut text sha executes castable metadata_of conc true putcrash k q m idx e H P D).
    set (k1 := Config _ _ _) in H1.
    assert (H2 := HRemCrash text sha executes castable metadata_of conc true putcrash k1 name _ _ s1 H1 eq_refl R (or_introl eq_refl)).
    set (k2 := Config _ _ _) in H2. exists k2, (add_entry sha (c_cache k) (text q) e), p. split; [exact H2|]. split; [|split; [|exact B]].
    - cbn. subst s1. cbn. intros f i r J. apply filter_In in J as [_ J]. cbn in J. lia.
    - cbn. replace (version s1) with (version (c_db k)) by (subst s1; reflexivity). exact (hit_new _ _ _ e (Some (m, p)) E F).
  Qed.
  (** A crash while the arrays of a result are written: after the restart the same query is answered from the cache
      with whatever files were there, without any error. *)
  Theorem C34_put_crash_serves_part_refuted conc rmcrash k q m idx written rest : returns_indexes executes ->
    hist conc rmcrash true k -> c_pend k = Some (q, (m, idx)) -> executes (view (c_db k)) q (m, idx) -> Permutation (written ++ rest) (save_tasks idx) ->
    exists k' c' p, hist conc rmcrash true k' /\ gets (c_cache k') (version (c_db k')) (text q) c' (Some (Served (m, p))) /\
      forall kk d f iv, at_kdf p kk d f = Some iv <-> at_kdf idx kk d f = Some iv /\ exists i, nth_error (akeys idx) i = Some kk /\ In (i, d, f, iv) written.
  Proof.
    intros RI H P X PE. destruct (RI _ _ _ _ X) as [W NE]. set (fs := fold_left serialize_file written (save_keys idx)).
    assert (CS : crashed_save idx fs) by (apply (CrashFiles idx written [] rest); exact PE).
    assert (L : exists res, loaded fs res).
    { destruct (load_plan fs) as [[keys tasks]|] eqn:E; [|exists None; now apply LoadedErr]. eexists. eapply LoadedOk; [exact E|apply Permutation_refl]. }
    destruct L as [res L]. destruct (load_written idx written rest res W PE L) as (p & -> & B).
    set (e := Entry (FFull (version (c_db k), text q)) (FFull m) (FFull tt) (Some fs)).
    assert (H1 := HPutCrash text sha executes castable metadata_of conc rmcrash true k q m idx e H eq_refl P (P7 _ _ _ _ _ CS)).
    eexists. exists (add_entry sha (c_cache k) (text q) e), p. split; [exact H1|]. split; [|exact B].
    apply (hit_new _ _ _ e (Some (m, p)) eq_refl). eapply FcOk; cbn; eauto.
  Qed.
  (** A crash between meta.pkl and pickled.pkl: the query can not be run any more; every attempt raises, and changes
      nothing. *)
  Theorem C34_put_crash_blocks_query_refuted conc rmcrash k q m idx : hist conc rmcrash true k -> c_pend k = Some (q, (m, idx)) ->
    getd str_eqb (sha (text q)) (c_cache k) = [] ->
    exists k', hist conc rmcrash true k' /\ c_db k' = c_db k /\
      (forall c' a, gets (c_cache k') (version (c_db k')) (text q) c' (Some a) -> a = Raises /\ c' = c_cache k') /\
      exists c' a, gets (c_cache k') (version (c_db k')) (text q) c' (Some a).
  Proof.
    intros H P G. set (e := Entry (FFull (version (c_db k), text q)) FMissing FMissing None : @entry M).
    assert (H1 := HPutCrash text sha executes castable metadata_of conc rmcrash true k q m idx e H eq_refl P (P2 _ _ _ _)).
    eexists. split; [exact H1|]. split; [reflexivity|]. cbn [c_cache c_db].
    assert (A : aget str_eqb (sha (text q)) (add_entry sha (c_cache k) (text q) e) = Some [(0, e)]).
    { unfold add_entry. rewrite (aget_aset_same _ str_eqb_spec), G. reflexivity. }
    assert (SC : scan (text q) (version (c_db k)) [(0, e)] = Hit e).
    { cbn [scan]. cbn [e e_meta]. rewrite (eqb_refl_ _ str_eqb_spec), Z.eqb_refl. reflexivity. }
    assert (PS : forall order, Permutation order [(0, e)] -> order = [(0, e)]) by (intros order O; apply Permutation_sym, Permutation_length_1_inv in O; exact O).
    split.
    - intros c' a X. inversion X as [A'|A'|l order A' N O S|l order A' O S|l order n e0 A' O S|l order e0 r A' O S F|]; subst; rewrite A in A'; try discriminate; injection A' as <-;
        apply PS in O; subst order; rewrite SC in S; try discriminate. injection S as <-.
      inversion F; subst; auto; discriminate.
    - eexists. exists Raises. apply (GHit _ _ _ _ _ _ e None A (Permutation_refl _) SC). apply FcNoPickle. discriminate.
  Qed.
  (** A registration that completes while a query is being executed: the result, computed before the change, is cached
      under the new version and served from then on. *)
  Theorem C34_overlap_serves_stale_refuted rmcrash putcrash k q m idx name info vt fnd schema tr : returns_indexes executes ->
    hist true rmcrash putcrash k -> c_pend k = Some (q, (m, idx)) -> executes (view (c_db k)) q (m, idx) ->
    register castable metadata_of (c_db k) name info vt fnd schema = (tr, Done true) ->
    exists k' c' p, hist true rmcrash putcrash k' /\ c_db k' = last_db (c_db k) tr /\
      gets (c_cache k') (version (c_db k')) (text q) c' (Some (Served (m, p))) /\ same_index p idx.
  Proof.
    intros RI H P X R. destruct (RI _ _ _ _ X) as [W NE]. set (s' := last_db (c_db k) tr).
    assert (H1 := HReg text sha executes castable metadata_of true rmcrash putcrash k name info vt fnd schema tr _ H (or_intror eq_refl) R). fold s' in H1.
    set (k1 := Config _ _ _) in H1. destruct (put_done_exists (version s') (text q) m idx W NE) as (e & p & D & E & F & B).
    assert (H2 := HPut text sha executes castable metadata_of true rmcrash putcrash k1 q m idx e H1 P D).
    eexists. exists (add_entry sha (c_cache k) (text q) e), p. split; [exact H2|]. split; [reflexivity|]. split; [|exact B].
    exact (hit_new _ _ _ e (Some (m, p)) E F).
  Qed.
End Props.

(** ** A concrete instance: a query returns the first sample; dataset "a" is registered, the query runs, is cached and
    is served from the cache. *)
Definition first_exec (v : view_t) (_ : unit) (r : unit * pindex) : Prop :=
  r = (tt, match snd v with [] => [] | (((d, f, i), _), _, _) :: _ => [([([97], [[98]])], [(d, [(f, [(i, i + 1)])])])] end).
Lemma first_exec_indexes : returns_indexes first_exec.
Proof.
  intros [cols [|[[[[[d f] i] r] x] y] l]] q m idx E; injection E as _ ->.
  - split; [|intros k ds []]. split; [constructor|]. split; [intros k k' []|]. split; [intros k []|intros k ds []].
  - split.
    + split; [repeat constructor; auto|]. split; [intros k k' [<-|[]] [<-|[]]; auto|]. split; [intros k [<-|[]]; repeat constructor; auto|].
      intros k ds [[= <- <-]|[]]. split; [repeat constructor; auto|]. intros d' fs [[= <- <-]|[]]. repeat constructor; auto.
    + intros k ds [[= <- <-]|[]]. split; [discriminate|]. intros d' fs [[= <- <-]|[]]. discriminate.
Qed.
Notation ex_text := (fun _ : unit => lit "select") (only parsing).
Notation ex_hist := (@hist unit unit ex_text (fun t => t) first_exec (fun _ _ _ => true) ex_meta) (only parsing).
Definition ex_ridx : pindex := [([([97], [[98]])], [(1, [(1, [(0, 1)])])])].
Lemma ex_pending conc rmcrash putcrash : exists k, ex_hist conc rmcrash putcrash k /\ c_pend k = Some (tt, (tt, ex_ridx)) /\
  first_exec (view (c_db k)) tt (tt, ex_ridx) /\ In (1, (lit "a", ex_info (lit "a"))) (datasets (c_db k)) /\
  c_cache k = [] /\ consistent (c_db k).
Proof.
  destruct (ex_reg init_db (lit "a") [lit "f1"; lit "f2"]) as [t1 o1] eqn:R1.
  assert (H1 := HReg ex_text (fun t => t) first_exec (fun _ _ _ => true) ex_meta conc rmcrash putcrash (Config init_db [] None) _ _ _ _ _ _ _
     (HStart _ _ _ _ _ _ _ _) (or_introl eq_refl) R1). cbn [c_db c_cache c_pend] in H1.
  assert (X : first_exec (view (last_db init_db t1)) tt (tt, ex_ridx)) by (vm_compute in R1; injection R1 as <- <-; vm_compute; reflexivity).
  assert (H2 := HExec ex_text (fun t => t) first_exec (fun _ _ _ => true) ex_meta conc rmcrash putcrash _ tt [] _ H1 eq_refl (GNoDir (M := unit) (fun t => t) [] _ (lit "select") eq_refl) X).
  eexists. split; [exact H2|]. cbn [c_db c_cache c_pend]. split; [reflexivity|]. split; [exact X|]. split; [|split; [reflexivity|]].
  - vm_compute in R1. injection R1 as <- <-. vm_compute. auto.
  - apply (hist_versions ex_text (fun t => t) first_exec (fun _ _ _ => true) ex_meta putcrash conc rmcrash _ H2).
Qed.
(** The query is cached and served, and what is served is the fresh answer. *)
Example C34_hypotheses_hold : exists k c' r, ex_hist false false false k /\
  gets (fun t => t) (c_cache k) (version (c_db k)) (lit "select") c' (Some (Served r)) /\ fresh_answer ex_text first_exec (c_db k) (lit "select") r.
Proof.
  destruct (ex_pending false false false) as (k & H & P & X & _). destruct (first_exec_indexes _ _ _ _ X) as [W NE].
  destruct (put_done_exists (M := unit) (version (c_db k)) (lit "select") tt ex_ridx W NE) as (e & p & D & E & F & B).
  assert (H2 := HPut ex_text (fun t => t) first_exec (fun _ _ _ => true) ex_meta false false false k tt tt ex_ridx e H P D).
  assert (G := hit_new (fun t => t) (c_cache k) (version (c_db k)) (lit "select") e (Some (tt, p)) E F).
  eexists. exists (add_entry (fun t => t) (c_cache k) (lit "select") e), (tt, p). split; [exact H2|]. split; [exact G|].
  destruct (C34_served_partial ex_text (fun t => t) first_exec (fun _ _ _ => true) ex_meta _ tt _ _ first_exec_indexes H2 G) as [Q|(r & Q & FA)]; [discriminate Q|].
  injection Q as <-. exact FA.
Qed.
(** A crash during the removal of "a" really makes the cache list a sample that no longer exists. *)
Example C34_stale_sample_served : exists k c' p, ex_hist false true false k /\ (forall f i r, ~ In ((1, f, i), r) (samples (c_db k))) /\
  gets (fun t => t) (c_cache k) (version (c_db k)) (lit "select") c' (Some (Served (tt, p))) /\ at_kdf p [([97], [[98]])] 1 1 = Some [(0, 1)].
Proof.
  destruct (ex_pending false true false) as (k & H & P & X & I & _).
  destruct (C34_remove_crash_serves_deleted_refuted ex_text (fun t => t) first_exec (fun _ _ _ => true) ex_meta false false k tt tt ex_ridx (lit "a") 1 _ first_exec_indexes H P X I)
    as (k' & c' & p & H' & NS & G & S).
  exists k', c', p. split; [exact H'|]. split; [exact NS|]. split; [exact G|]. destruct S as (_ & _ & S). rewrite S. vm_compute. reflexivity.
Qed.
(** A crash before the only array was written: the answer served is empty. *)
Example C34_empty_part_served : exists k c' p, ex_hist false false true k /\
  gets (fun t => t) (c_cache k) (version (c_db k)) (lit "select") c' (Some (Served (tt, p))) /\ forall kk d f, at_kdf p kk d f = None.
Proof.
  destruct (ex_pending false false true) as (k & H & P & X & _).
  destruct (C34_put_crash_serves_part_refuted ex_text (fun t => t) first_exec (fun _ _ _ => true) ex_meta false false k tt tt ex_ridx [] _ first_exec_indexes H P X (Permutation_refl _))
    as (k' & c' & p & H' & G & B).
  exists k', c', p. split; [exact H'|]. split; [exact G|]. intros kk d f. destruct (at_kdf p kk d f) as [iv|] eqn:E; [|reflexivity].
  apply B in E as (_ & i & _ & []).
Qed.
Print Assumptions C34_served_partial.
Print Assumptions C34_served_with_put_crashes_partial.
Print Assumptions C34_change_invalidates.
Print Assumptions C34_same_text_and_version.
Print Assumptions C34_remove_crash_serves_deleted_refuted.
Print Assumptions C34_put_crash_serves_part_refuted.
Print Assumptions C34_put_crash_blocks_query_refuted.
Print Assumptions C34_overlap_serves_stale_refuted.
Print Assumptions C34_own_directories.
