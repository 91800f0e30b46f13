(** C77: the built-in parsers record what the samples say. *)
From Coq Require Import String.
From Verif Require Import Base MixtureKeyModel MixtureKeyProofs ParserModel SpecParser ParserProofs SpecParser2.
Open Scope Z_scope.

(** An outcome of parsing one sample: the documented record is stored, or there is none, an exception is raised and nothing stored. *)
Definition faithful (store : list record) (doc : record -> Prop) (out : list record * option perr) : Prop :=
  (exists r, doc r /\ out = (store ++ [r], None)) \/ ((forall r, ~ doc r) /\ exists e, out = (store, Some e)).

Lemma set_faithful prop known store n payload pm : prop <> lit "sample_id" ->
  pm = [(prop, MProp prop DEnum false false (OSet known))] ->
  faithful store (set_record prop known n payload)
    (match set_name_kwargs prop payload with PErr e => (store, Some e) | POk kw => add_metadata pm store n kw end).
Proof.
  intros NE ->. unfold set_name_kwargs, faithful.
  assert (NO : forall o : list record * option perr, (forall r, ~ set_record prop known n payload r) -> (exists e, o = (store, Some e)) ->
     (exists r, set_record prop known n payload r /\ o = (store ++ [r], None)) \/ ((forall r, ~ set_record prop known n payload r) /\ exists e, o = (store, Some e))) by (intros; right; auto).
  destruct payload as [| | | |d]; try (apply NO; [intros r (? & ? & H & _); discriminate|eexists; reflexivity]).
  cbn [pget pbind]. destruct (aget str_eqb (lit "meta") d) as [meta|] eqn:M.
  2:{ cbn [pget aget pbind]. apply NO; [|eexists; reflexivity]. intros r (meta & s & H & _). cbn [entry] in H. rewrite M in H. discriminate. }
  destruct meta as [| | | |md]; try (apply NO; [intros r (? & ? & H & K & _); cbn [entry] in H; rewrite M in H; injection H as <-; discriminate|eexists; reflexivity]).
  cbn [pget pbind]. destruct (aget str_eqb prop md) as [v|] eqn:V.
  2:{ apply NO; [|eexists; reflexivity]. intros r (meta & s & H & K & _). cbn [entry] in H. rewrite M in H. injection H as <-. cbn [entry] in K. rewrite V in K. discriminate. }
  assert (D : forall r, set_record prop known n (PDict d) r -> exists s, v = PStr s /\ In s known /\ r = [(lit "sample_id", PNum n); (prop, PStr s)]).
  { intros r (meta & s & H & K & I & ->). cbn [entry] in H. rewrite M in H. injection H as <-. cbn [entry] in K. rewrite V in K. injection K as ->. eauto. }
  assert (A : aget str_eqb prop [(prop, v)] = Some v) by (cbn [aget]; now rewrite (eqb_refl_ _ str_eqb_spec)).
  destruct v as [|s|z|l|dd].
  1:{ apply NO; [|eexists; reflexivity]. intros r H. destruct (D r H) as (s & E & _). discriminate. }
  - unfold add_metadata. cbn [add_props add_prop fst snd]. rewrite A. cbn [p_multiple p_nullable check_enum p_dtype p_options contains hashable negb andb].
    destruct (existsb (str_eqb s) known) eqn:E.
    + left. exists [(lit "sample_id", PNum n); (prop, PStr s)]. split.
      * exists (PDict md), s. cbn [entry]. repeat split; [exact M|exact V|now apply existsb_str].
      * f_equal. cbn [aset]. destruct (str_eqb prop sample_id_key) eqn:Q; [apply str_eqb_spec in Q; contradiction NE|reflexivity].
    + apply NO; [|eexists; reflexivity]. intros r H. destruct (D r H) as (s' & [= <-] & I & _). apply existsb_str in I. congruence.
  - unfold add_metadata. cbn [add_props add_prop fst snd]. rewrite A. apply NO; [|eexists; reflexivity]. intros r H. destruct (D r H) as (s & E & _). discriminate.
  - unfold add_metadata. cbn [add_props add_prop fst snd]. rewrite A. apply NO; [|eexists; reflexivity]. intros r H. destruct (D r H) as (s & E & _). discriminate.
  - unfold add_metadata. cbn [add_props add_prop fst snd]. rewrite A. apply NO; [|eexists; reflexivity]. intros r H. destruct (D r H) as (s & E & _). discriminate.
Qed.

Lemma fineweb_faithful store n payload :
  faithful store (fineweb_record n payload)
    (match fineweb_kwargs payload with PErr e => (store, Some e) | POk kw => add_metadata (map (fun p => (p_name p, p)) fineweb_props) store n kw end).
Proof.
  unfold fineweb_kwargs, faithful.
  destruct payload as [| | | |d]; try (right; split; [intros r (dump & H & _); discriminate|eexists; reflexivity]).
  cbn [pget pbind]. destruct (aget str_eqb (lit "dump") d) as [dump|] eqn:M.
  2:{ right. split; [intros r (dump & H & _); cbn [entry] in H; rewrite M in H; discriminate|].
      unfold add_metadata. destruct (add_props _ _ _) eqn:E; [|eauto]. exfalso. vm_compute in E. destruct (aget _ _ d); discriminate. }
  destruct (aget str_eqb (lit "language") d) as [lang|] eqn:L.
  2:{ right. split; [intros r (x & _ & _ & _ & H & _); cbn [entry] in H; rewrite L in H; discriminate|].
      unfold add_metadata. destruct (add_props _ _ _) eqn:E; [|eauto]. exfalso. vm_compute in E. destruct dump; discriminate. }
  assert (D : forall r, fineweb_record n (PDict d) r -> dump <> PNone /\ (forall l, dump <> PList l) /\ lang = PStr (lit "en")).
  { intros r (x & H & A & B & K & _). cbn [entry] in H, K. rewrite M in H. rewrite L in K. injection H as <-. injection K as <-. auto. }
  assert (X : (dump <> PNone /\ (forall l, dump <> PList l) /\ lang = PStr (lit "en")) \/
              ((dump = PNone \/ exists l, dump = PList l) \/ lang <> PStr (lit "en"))).
  { destruct dump; [right; left; now left| | |right; left; right; eauto|];
    (destruct lang as [|q| | |]; [right; right; discriminate| |right; right; discriminate..];
     destruct (str_eqb q (lit "en")) eqn:Q; [apply str_eqb_spec in Q; subst q; left; repeat split; congruence|
       right; right; intros [= ->]; vm_compute in Q; discriminate]). }
  destruct X as [(A & B & ->)|X].
  - left. exists [(lit "sample_id", PNum n); (lit "dump", dump); (lit "language", PStr (lit "en"))]. split.
    + exists dump. cbn [entry]. auto.
    + destruct dump as [| | |l|]; [now contradiction A|reflexivity|reflexivity|now contradiction (B l)|reflexivity].
  - right. split.
    { intros r H. destruct (D r H) as (A & B & C). destruct X as [[X|[l X]]|X]; congruence. }
    unfold add_metadata. destruct (add_props _ _ _) eqn:E; [|eauto]. exfalso.
    destruct X as [[->|[l ->]]|X]; [vm_compute in E; discriminate|vm_compute in E; discriminate|].
    assert (Y : check_enum (MProp (lit "language") DEnum false false (OList [lit "en"])) lang <> POk tt).
    { cbn [check_enum p_dtype p_options p_multiple contains andb]. destruct lang as [|s| | |]; try discriminate.
      cbn [existsb]. destruct (str_eqb s (lit "en")) eqn:Q; [apply str_eqb_spec in Q; congruence|discriminate]. }
    cbn [map add_props fineweb_props p_name] in E. destruct (add_prop _ _ (lit "dump", _)) as [m|] eqn:P1; [|discriminate].
    destruct (add_prop _ m _) as [m'|] eqn:P2; [|discriminate]. clear E.
    unfold add_prop in P2.
    match goal with _ : context [aget str_eqb (lit "language") ?kw] |- _ => replace (aget str_eqb (lit "language") kw) with (Some lang) in P2 by reflexivity end.
    cbn [p_nullable p_multiple] in P2. destruct lang; try discriminate; destruct (check_enum _ _) as [[]|] eqn:Q; try discriminate; now apply Y.
Qed.

Lemma imagenet_faithful to_str store n payload :
  faithful store (imagenet_record to_str n payload)
    (match imagenet_kwargs to_str payload with PErr e => (store, Some e) | POk kw => add_metadata (map (fun p => (p_name p, p)) imagenet_props) store n kw end).
Proof.
  unfold imagenet_kwargs, faithful.
  destruct payload as [| | | |d]; try (right; split; [intros r ([? H] & _); discriminate|eexists; reflexivity]).
  cbn [pget pbind]. left. eexists [_; (_, PStr _)]. split; [|reflexivity].
  split; [eexists; reflexivity|]. eexists. split; [|reflexivity]. cbn [entry].
  destruct (aget str_eqb (lit ".cls") d) as [v|]; [|left; auto]. destruct v; [left; auto| | | |]; right; eexists; repeat split; discriminate.
Qed.
Lemma mscoco_faithful store n payload :
  faithful store (mscoco_record n payload)
    (match mscoco_kwargs n with PErr e => (store, Some e) | POk kw => add_metadata (map (fun p => (p_name p, p)) mscoco_props) store n kw end).
Proof.
  left. eexists [_; (_, PStr _)]. split; [|reflexivity]. eexists. split; [|reflexivity].
  assert (B : 0 <= n mod 3 < 3) by (apply Z.mod_pos_bound; lia).
  assert (C : n mod 3 = 0 \/ n mod 3 = 1 \/ n mod 3 = 2) by lia.
  destruct C as [C|[C|C]]; rewrite C; [left|right; left|right; right]; split; reflexivity.
Qed.

Lemma truthy_absent v : truthy v = false <-> absent v.
Proof.
  unfold absent. destruct v as [|s|z|l|l]; [|destruct s| |destruct l|destruct l]; cbn [truthy]; split; intros H; try discriminate; try tauto.
  all: try (repeat destruct H as [H|H]; discriminate).
  - right. right. right. right. apply negb_false_iff, Z.eqb_eq in H. now rewrite H.
  - repeat destruct H as [H|H]; try discriminate. injection H as ->. reflexivity.
Qed.
Lemma pmap_names l : forall ns, pmap lang_name l = POk ns <-> names_of l ns.
Proof.
  unfold names_of. induction l as [|x l IH]; intros ns; cbn [pmap].
  - split; [intros [= <-]; constructor|]. intros H. inversion H. reflexivity.
  - assert (LN : forall w, lang_name x = POk w <-> entry x (lit "name") = Some w).
    { intros w. unfold lang_name, entry. destruct x; try (split; discriminate). destruct (aget _ _ d); split; congruence. }
    destruct (lang_name x) as [w|e] eqn:E; cbn [pbind].
    + assert (E' := proj1 (LN w) eq_refl). destruct (pmap lang_name l) as [ws|e] eqn:P; cbn [pbind].
      * split; [intros [= <-]; constructor; [exact E'|now apply IH]|]. intros H. inversion H as [|? y ? ys A B]; subst.
        rewrite E' in A. injection A as <-. apply IH in B. congruence.
      * split; [discriminate|]. intros H. inversion H as [|? y ? ys A B]; subst. apply IH in B. discriminate.
    + split; [discriminate|]. intros H. inversion H as [|? y ? ys A B]; subst. apply LN in A. discriminate.
Qed.

(** the two properties of RedPajama *)
Lemma redpajama_add store n lang date :
  (lang = PNone \/ exists ns, lang = PList ns) ->
  forall kw, passed kw (lit "language") = lang -> passed kw (lit "publication_date") = date ->
  add_metadata (map (fun p => (p_name p, p)) redpajama_props) store n kw =
  match date with PList _ => (store, Some RuntimeErr)
  | _ => (store ++ [[(lit "sample_id", PNum n); (lit "language", lang); (lit "publication_date", date)]], None) end.
Proof.
  intros HL kw E1 E2. unfold add_metadata. cbn [map add_props redpajama_props p_name]. unfold add_prop.
  fold (passed kw (lit "language")). fold (passed kw (lit "publication_date")). rewrite E1, E2.
  cbn [p_nullable p_multiple check_enum p_dtype].
  destruct HL as [->|[ns ->]]; destruct date; reflexivity.
Qed.
Lemma redpajama_faithful store n payload :
  faithful store (redpajama_record n payload)
    (match redpajama_kwargs payload with PErr e => (store, Some e) | POk kw => add_metadata (map (fun p => (p_name p, p)) redpajama_props) store n kw end).
Proof.
  unfold redpajama_kwargs, faithful.
  destruct payload as [| | | |d]; try (right; split; [intros r (meta & lang & date & _ & [? H] & _); discriminate|eexists; reflexivity]).
  cbn [pget pbind]. set (m := match aget str_eqb (lit "meta") d with Some v => v | None => PDict [] end).
  assert (HM : forall meta, (entry (PDict d) (lit "meta") = Some meta \/ (entry (PDict d) (lit "meta") = None /\ meta = PDict [])) <-> meta = m).
  { intros meta. cbn [entry]. unfold m. destruct (aget str_eqb (lit "meta") d); split; intros H; try (destruct H as [H|[H1 H2]]; congruence); [left; congruence|right; auto]. }
  clearbody m.
  destruct m as [| | | |md]; try (right; split; [intros r (meta & lang & date & H & _ & [? K] & _); apply HM in H; congruence|eexists; reflexivity]).
  cbn [pget pbind].
  set (lv := match aget str_eqb (lit "language") md with Some v => v | None => PList [] end).
  set (dv := match aget str_eqb (lit "publication_date") md with Some v => v | None => PNone end).
  assert (AL : absent_entry (PDict md) (lit "language") <-> truthy lv = false).
  { unfold absent_entry, lv. cbn [entry]. rewrite truthy_absent. destruct (aget str_eqb (lit "language") md) as [w|].
    - split; [intros [H|(x & E & H)]; [discriminate|injection E as E; rewrite E; exact H]|]. intros H. right. eauto.
    - split; [intros _; right; right; now left|]. auto. }
  assert (AD : absent_entry (PDict md) (lit "publication_date") <-> truthy dv = false).
  { unfold absent_entry, dv. cbn [entry]. rewrite truthy_absent. destruct (aget str_eqb (lit "publication_date") md) as [w|].
    - split; [intros [H|(x & E & H)]; [discriminate|injection E as E; rewrite E; exact H]|]. intros H. right. eauto.
    - split; [intros _; now left|]. auto. }
  assert (LV : forall w, truthy w = true -> entry (PDict md) (lit "language") = Some w <-> lv = w).
  { intros w T. unfold lv. cbn [entry]. destruct (aget str_eqb (lit "language") md); split; intros H; try congruence. rewrite <- H in T. discriminate. }
  assert (DV : forall w, truthy w = true -> entry (PDict md) (lit "publication_date") = Some w <-> dv = w).
  { intros w T. unfold dv. cbn [entry]. destruct (aget str_eqb (lit "publication_date") md); split; intros H; try congruence. rewrite <- H in T. discriminate. }
  clearbody lv dv.
  (* the names *)
  assert (NM : (truthy lv = false /\ forall lang, ((absent_entry (PDict md) (lit "language") /\ lang = PNone) \/
                   (exists x l ns, entry (PDict md) (lit "language") = Some (PList (x :: l)) /\ names_of (x :: l) ns /\ lang = PList ns)) -> lang = PNone) \/
               (exists ns, truthy lv = true /\ lang_names lv = POk ns /\ (exists x l, entry (PDict md) (lit "language") = Some (PList (x :: l)) /\ names_of (x :: l) ns) /\
                  forall lang, ((absent_entry (PDict md) (lit "language") /\ lang = PNone) \/
                   (exists x l ns, entry (PDict md) (lit "language") = Some (PList (x :: l)) /\ names_of (x :: l) ns /\ lang = PList ns)) -> lang = PList ns) \/
               (exists e, truthy lv = true /\ lang_names lv = PErr e /\
                  forall lang, ~ ((absent_entry (PDict md) (lit "language") /\ lang = PNone) \/
                   (exists x l ns, entry (PDict md) (lit "language") = Some (PList (x :: l)) /\ names_of (x :: l) ns /\ lang = PList ns)))).
  { destruct (truthy lv) eqn:T.
    - right. assert (NA : ~ absent_entry (PDict md) (lit "language")) by (rewrite AL; discriminate).
      destruct (lang_names lv) as [ns|e] eqn:N.
      + left. exists ns. split; [reflexivity|]. split; [reflexivity|].
        destruct lv as [| | |[|x l]|]; try discriminate. cbn [lang_names] in N. apply pmap_names in N.
        split; [exists x, l; split; [now apply LV|exact N]|].
        intros lang [[H _]|(x' & l' & ns' & H & K & ->)]; [contradiction|]. apply LV in H; [|reflexivity]. injection H as <- <-.
        apply pmap_names in N. apply pmap_names in K. congruence.
      + right. exists e. split; [reflexivity|]. split; [reflexivity|]. intros lang [[H _]|(x' & l' & ns' & H & K & ->)]; [contradiction|].
        apply LV in H; [|reflexivity]. subst lv. cbn [lang_names] in N. apply pmap_names in K. congruence.
    - left. split; [reflexivity|]. intros lang [[_ H]|(x & l & ns & H & _)]; [exact H|]. apply LV in H; [|reflexivity]. subst lv. discriminate. }
  assert (DT : forall date, ((absent_entry (PDict md) (lit "publication_date") /\ date = PNone) \/
     (entry (PDict md) (lit "publication_date") = Some date /\ ~ absent date /\ forall l, date <> PList l)) <->
     (date = if truthy dv then dv else PNone) /\ forall l, date <> PList l).
  { intros date. destruct (truthy dv) eqn:T.
    - split.
      + intros [[H _]|(H & NA & NL)]; [apply AD in H; discriminate|]. split; [|exact NL]. symmetry. apply DV; [|exact H].
        destruct (truthy date) eqn:Q; [reflexivity|]. apply truthy_absent in Q. contradiction.
      + intros [-> NL]. right. split; [now apply DV|]. split; [|exact NL]. intros A. apply truthy_absent in A. congruence.
    - split.
      + intros [[_ H]|(H & NA & NL)]; [split; congruence|]. exfalso. apply NA. apply truthy_absent.
        destruct (truthy date) eqn:Q; [|reflexivity]. apply DV in H; [|exact Q]. congruence.
      + intros [-> _]. left. split; [now apply AD|reflexivity]. }
  set (dd := if truthy dv then dv else PNone) in *.
  assert (FIN : forall lang kw, ((absent_entry (PDict md) (lit "language") /\ lang = PNone) \/
                   (exists x l ns, entry (PDict md) (lit "language") = Some (PList (x :: l)) /\ names_of (x :: l) ns /\ lang = PList ns)) ->
     (lang = PNone \/ exists ns, lang = PList ns) -> passed kw (lit "language") = lang -> passed kw (lit "publication_date") = dd ->
     (exists r, redpajama_record n (PDict d) r /\ add_metadata (map (fun p => (p_name p, p)) redpajama_props) store n kw = (store ++ [r], None)) \/
     ((forall r, ~ redpajama_record n (PDict d) r) /\ exists e, add_metadata (map (fun p => (p_name p, p)) redpajama_props) store n kw = (store, Some e))).
  { intros lang kw HL HL2 P1 P2. rewrite (redpajama_add store n lang dd HL2 kw P1 P2).
    assert (X : (exists l, dd = PList l) \/ (forall l, dd <> PList l)) by (destruct dd; (right; discriminate) || (left; eauto)).
    destruct X as [[l X]|X].
    - right. rewrite X. split; [|eauto]. intros r (meta & lang' & date & H & _ & _ & _ & H2 & _).
      apply HM in H. subst meta. apply DT in H2. destruct H2 as [H2 H3]. apply (H3 l). congruence.
    - left. exists [(lit "sample_id", PNum n); (lit "language", lang); (lit "publication_date", dd)]. split; [|destruct dd; try reflexivity; exfalso; now apply (X l)].
      exists (PDict md), lang, dd. split; [now apply HM|]. split; [eexists; reflexivity|]. split; [eexists; reflexivity|].
      split; [exact HL|]. split; [apply DT; auto|reflexivity]. }
  destruct NM as [[T U]|[(ns & T & E & (x & l & N1 & N2) & U)|(e & T & E & U)]]; rewrite T.
  - cbn [pbind]. apply (FIN PNone).
    + left. split; [now apply AL|reflexivity].
    + now left.
    + unfold dd. destruct (truthy dv); reflexivity.
    + unfold dd. destruct (truthy dv); reflexivity.
  - rewrite E. cbn [pbind]. apply (FIN (PList ns)).
    + right. exists x, l, ns. auto.
    + right. eauto.
    + unfold dd. destruct (truthy dv); reflexivity.
    + unfold dd. destruct (truthy dv); reflexivity.
  - rewrite E. cbn [pbind]. right. split; [|eauto]. intros r (meta & lang & date & H & _ & _ & H1 & _). apply HM in H. subst meta. now apply (U lang).
Qed.

(** Whatever the sample is: parsing it stores exactly the record documented for the parser, after what was stored before; if there is
    none, an exception is raised and nothing is stored. *)
Theorem C77_records (to_str : pval -> str) name p pm (store : list record) (n : Z) (payload : pval) :
  In (name, p) (builtin to_str) -> parser_init (ps_props p) = POk pm ->
  faithful store (documented to_str name n payload) (parse_one p pm store n payload).
Proof.
  intros H I.
  assert (W : forall doc, (forall r, documented to_str name n payload r <-> doc r) ->
     faithful store doc (parse_one p pm store n payload) -> faithful store (documented to_str name n payload) (parse_one p pm store n payload)).
  { intros doc E [(r & D & O)|[D O]]; [left; exists r; split; [now apply E|exact O]|right; split; [|exact O]]. intros r K. apply (D r). now apply E. }
  unfold documented in *.
  cbn [In builtin] in H.
  destruct H as [H|[H|[H|[H|[H|[H|[]]]]]]]; injection H as <- <-; injection I as <-.
  - apply (W (redpajama_record n payload)).
    { intros r. split; [|auto 12]. intros [[_ H]|[[H _]|[[H _]|[[H _]|[[H _]|[H _]]]]]]; [exact H|vm_compute in H; discriminate..]. }
    exact (redpajama_faithful store n payload).
  - apply (W (set_record (lit "redpajama_set_name") slimpajama_sets n payload)).
    { intros r. split; [|auto 12]. intros [[H _]|[[_ H]|[[H _]|[[H _]|[[H _]|[H _]]]]]]; [vm_compute in H; discriminate|exact H|vm_compute in H; discriminate..]. }
    exact (set_faithful (lit "redpajama_set_name") slimpajama_sets store n payload _ ltac:(vm_compute; discriminate) eq_refl).
  - apply (W (imagenet_record to_str n payload)).
    { intros r. split; [|auto 12]. intros [[H _]|[[H _]|[[_ H]|[[H _]|[[H _]|[H _]]]]]]; try exact H; vm_compute in H; discriminate. }
    exact (imagenet_faithful to_str store n payload).
  - apply (W (fineweb_record n payload)).
    { intros r. split; [|auto 12]. intros [[H _]|[[H _]|[[H _]|[[_ H]|[[H _]|[H _]]]]]]; try exact H; vm_compute in H; discriminate. }
    exact (fineweb_faithful store n payload).
  - apply (W (mscoco_record n payload)).
    { intros r. split; [|auto 12]. intros [[H _]|[[H _]|[[H _]|[[H _]|[[_ H]|[H _]]]]]]; try exact H; vm_compute in H; discriminate. }
    exact (mscoco_faithful store n payload).
  - apply (W (set_record (lit "pile_set_name") pile_sets n payload)).
    { intros r. split; [|auto 12]. intros [[H _]|[[H _]|[[H _]|[[H _]|[[H _]|[_ H]]]]]]; try exact H; vm_compute in H; discriminate. }
    exact (set_faithful (lit "pile_set_name") pile_sets store n payload _ ltac:(vm_compute; discriminate) eq_refl).
Qed.

(** A file's samples: the records are the documented ones of the samples, in order, up to the first sample without one. *)
Theorem C77_file (to_str : pval -> str) name p pm (recs : list (Z * pval)) :
  In (name, p) (builtin to_str) -> parser_init (ps_props p) = POk pm ->
  exists done rest, recs = done ++ rest /\
    Forall2 (fun x r => documented to_str name (fst x) (snd x) r) done (fst (parse_all p pm [] recs)) /\
    (snd (parse_all p pm [] recs) = None -> rest = []) /\
    (snd (parse_all p pm [] recs) <> None -> exists n payload rest', rest = (n, payload) :: rest' /\ forall r, ~ documented to_str name n payload r).
Proof.
  intros H I.
  assert (X : forall store, exists done rest new, recs = done ++ rest /\ fst (parse_all p pm store recs) = store ++ new /\
    Forall2 (fun x r => documented to_str name (fst x) (snd x) r) done new /\
    (snd (parse_all p pm store recs) = None -> rest = []) /\
    (snd (parse_all p pm store recs) <> None -> exists n payload rest', rest = (n, payload) :: rest' /\ forall r, ~ documented to_str name n payload r)).
  { induction recs as [|[n payload] recs IH]; intros store; cbn [parse_all].
    - exists [], [], []. split; [reflexivity|]. split; [cbn [fst]; now rewrite app_nil_r|]. split; [constructor|]. split; [reflexivity|]. intros K. now contradiction K.
    - destruct (C77_records to_str name p pm store n payload H I) as [(r & D & ->)|[D [e ->]]].
      + destruct (IH (store ++ [r])) as (done & rest & new & -> & E & F & A & B).
        exists ((n, payload) :: done), rest, (r :: new). rewrite E, <- app_assoc. repeat split; auto.
      + exists [], ((n, payload) :: recs), []. cbn [fst snd]. split; [reflexivity|]. split; [now rewrite app_nil_r|]. split; [constructor|]. split; [discriminate|].
        intros _. exists n, payload, recs. auto. }
  destruct (X []) as (done & rest & new & E & F & G & A & B). exists done, rest. cbn [app] in F. rewrite F. auto.
Qed.

(** A RedPajama sample with two languages and no date, and its documented record. *)
Example c77_example :
  documented (fun _ => []) (lit "RED_PAJAMA") 5
    (PDict [(lit "text", PStr (lit "hello")); (lit "meta", PDict [(lit "language", PList [PDict [(lit "name", PStr (lit "en")); (lit "percent", PNum 90)]; PDict [(lit "name", PStr (lit "de"))]])])])
    [(lit "sample_id", PNum 5); (lit "language", PList [PStr (lit "en"); PStr (lit "de")]); (lit "publication_date", PNone)].
Proof.
  left. split; [reflexivity|]. eexists _, _, _. split; [left; reflexivity|]. split; [eexists; reflexivity|]. split; [eexists; reflexivity|].
  split; [right; eexists _, _, _; split; [reflexivity|]; split; [repeat constructor|reflexivity]|].
  split; [left; split; [left; reflexivity|reflexivity]|reflexivity].
Qed.
Example c77_none : forall r, ~ documented (fun _ => []) (lit "SLIM_PAJAMA") 0 (PDict [(lit "meta", PDict [(lit "redpajama_set_name", PStr (lit "Other"))])]) r.
Proof.
  intros r D. destruct (C77_records (fun _ => []) (lit "SLIM_PAJAMA") slim_pajama _ [] 0 (PDict [(lit "meta", PDict [(lit "redpajama_set_name", PStr (lit "Other"))])])
     ltac:(right; left; reflexivity) eq_refl) as [(r' & _ & O)|[K _]]; [vm_compute in O; discriminate|exact (K r D)].
Qed.
Print Assumptions C77_records.
Print Assumptions C77_file.
