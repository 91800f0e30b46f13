(** C45: metadata records are well-typed.  C58: the parser registry. *)
From Coq Require Import String.
From Verif Require Import Base MixtureKeyModel MixtureKeyProofs ParserModel SpecParser ParserProofs.
Open Scope Z_scope.

(** ** C45 *)
(** Adding a record stores it exactly if the passed values are well-typed for every property of the schema, and then
    stores the sample number and, for each property, the passed value; otherwise it raises and stores nothing. *)
Theorem C45_add_metadata (props : list mprop) (store : list record) (sample_id : Z) (kwargs : record) :
  good_schema props ->
  exists pm, parser_init props = POk pm /\
  (Forall (fun p => well_typed p (to_record p (passed kwargs (p_name p)))) props ->
     add_metadata pm store sample_id kwargs =
     (store ++ [(lit "sample_id", PNum sample_id) :: map (fun p => (p_name p, to_record p (passed kwargs (p_name p)))) props],
      None)) /\
  (~ Forall (fun p => well_typed p (to_record p (passed kwargs (p_name p)))) props ->
     exists e, add_metadata pm store sample_id kwargs = (store, Some e)).
Proof.
  intros [N F]. exists (map (fun p => (p_name p, p)) props). split.
  { unfold parser_init. rewrite property_map_id by assumption.
    replace (existsb _ _) with false; [reflexivity|]. symmetry. apply not_true_is_false. rewrite existsb_exists.
    intros ([k p] & I & E). apply in_map_iff in I. destruct I as (q & [= <- <-] & I).
    rewrite Forall_forall in F. destruct (F q I) as (F1 & F2 & _). cbn [fst] in E.
    apply orb_true_iff in E. destruct E as [E|E]; apply str_eqb_spec in E; congruence. }
  destruct (add_props_ok kwargs props [(sample_id_key, PNum sample_id)]) as [A1 A2].
  { cbn [map fst app]. constructor; [|assumption]. intros I. apply in_map_iff in I. destruct I as (q & E & I).
    rewrite Forall_forall in F. destruct (F q I) as (_ & _ & F3 & _). apply F3. exact E. }
  { eapply Forall_impl; [|exact F]. cbn. tauto. }
  unfold add_metadata. split; intros H.
  - rewrite A1 by exact H. reflexivity.
  - destruct (A2 H) as [e E]. rewrite E. eauto.
Qed.

(** Whatever a sequence of records does, every stored record is well-typed, and after an error nothing more is
    stored: for every parser with a good schema, whatever its [parse] passes on. *)
Definition good_record (props : list mprop) (r : record) : Prop :=
  exists sample_id vals, r = (lit "sample_id", PNum sample_id) :: combine (map p_name props) vals /\
    Forall2 well_typed props vals.
Lemma add_metadata_good props store sid kwargs pm :
  good_schema props -> parser_init props = POk pm ->
  exists new, fst (add_metadata pm store sid kwargs) = store ++ new /\ Forall (good_record props) new /\
    (snd (add_metadata pm store sid kwargs) = None -> exists r, new = [r] /\ aget str_eqb (lit "sample_id") r = Some (PNum sid)) /\
    (snd (add_metadata pm store sid kwargs) <> None -> new = []).
Proof.
  intros G I. destruct (C45_add_metadata props store sid kwargs G) as (pm' & I' & A1 & A2). rewrite I in I'. injection I' as <-.
  set (P := Forall (fun p => well_typed p (to_record p (passed kwargs (p_name p)))) props) in *.
  destruct (snd (add_metadata pm store sid kwargs)) as [e|] eqn:E.
  - exists []. rewrite app_nil_r. split; [|split; [constructor|split; [discriminate|auto]]].
    unfold add_metadata in *. destruct (add_props _ _ _); [discriminate|reflexivity].
  - exists [(lit "sample_id", PNum sid) :: map (fun p => (p_name p, to_record p (passed kwargs (p_name p)))) props].
    assert (NP : ~ ~ P) by (intros X; destruct (A2 X) as [e Y]; rewrite Y in E; discriminate).
    unfold add_metadata in *. destruct G as [N F].
    destruct (add_props_ok kwargs props [(sample_id_key, PNum sid)]) as [B1 B2].
    { cbn [map fst app]. constructor; [|assumption]. intros X. apply in_map_iff in X. destruct X as (q & Y & X).
      rewrite Forall_forall in F. destruct (F q X) as (_ & _ & F3 & _). apply F3. exact Y. }
    { eapply Forall_impl; [|exact F]. cbn. tauto. }
    (* well-typedness of each property is decidable through the outcome of the call *)
    assert (D : P).
    { unfold P. apply Forall_forall. intros p Ip. destruct (add_prop_ok kwargs [] (p_name p) p) as [C1 C2].
      { rewrite Forall_forall in F. destruct (F p Ip) as (_ & _ & _ & F4). exact F4. }
      unfold accepts in *. set (w := to_record p (passed kwargs (p_name p))) in *.
      assert (NW : ~ ~ well_typed p w).
      { intros X. apply NP. intros Y. apply X. unfold P in Y. rewrite Forall_forall in Y. exact (Y p Ip). }
      clear - NW. unfold well_typed in *.
      (* every clause is stable under double negation *)
      split.
      - intros Hn. destruct (p_nullable p) eqn:Q; [reflexivity|]. exfalso. apply NW. intros [X _]. specialize (X Hn). congruence.
      - intros Hn. split; [|split].
        + destruct (p_multiple p) eqn:Q.
          * split; [intros _|auto]. destruct w as [| | |l|]; try (exfalso; apply NW; intros [_ X]; destruct (X Hn) as [[X1 _] _]; destruct (X1 eq_refl) as [? ?]; discriminate).
            now exists l.
          * split; [discriminate|]. intros L. exfalso. apply NW. intros [_ X]. destruct (X Hn) as [[_ X2] _]. specialize (X2 L). discriminate.
        + intros DE l Hl. apply Forall_forall. intros x Ix.
          assert (Y : ~ ~ allowed p x).
          { intros Z. apply NW. intros [_ X]. destruct (X Hn) as [_ [X2 _]]. specialize (X2 DE l Hl). rewrite Forall_forall in X2. auto. }
          clear - Y. unfold allowed in *. destruct (p_options p) as [|o|o]; [tauto| |];
          destruct x; try (exfalso; apply Y; intros (? & ? & ?); discriminate);
          (destruct (existsb (str_eqb s) o) eqn:Q; [apply existsb_str in Q; eauto|];
           exfalso; apply Y; intros (s' & [= <-] & I); apply existsb_str in I; congruence).
        + intros DE NL.
          assert (Y : ~ ~ allowed p w).
          { intros Z. apply NW. intros [_ X]. destruct (X Hn) as [_ [_ X3]]. auto. }
          clear - Y. unfold allowed in *. destruct (p_options p) as [|o|o]; [tauto| |];
          destruct w; try (exfalso; apply Y; intros (? & ? & ?); discriminate);
          (destruct (existsb (str_eqb s) o) eqn:Q; [apply existsb_str in Q; eauto|];
           exfalso; apply Y; intros (s' & [= <-] & I); apply existsb_str in I; congruence). }
    split; [rewrite (A1 D); reflexivity|]. split; [|split; [|congruence]].
    + constructor; [|constructor]. exists sid, (map (fun p => to_record p (passed kwargs (p_name p))) props). split.
      * f_equal. clear. induction props; [reflexivity|]. cbn. now rewrite IHprops.
      * clear - D. unfold P in D. induction D; cbn; constructor; assumption.
    + intros _. eexists. split; [reflexivity|]. cbn [aget]. now rewrite (eqb_refl_ _ str_eqb_spec).
Qed.
Theorem C45_records_well_typed (p : parser) (pm : list (str * mprop)) (recs : list (Z * pval)) :
  good_schema (ps_props p) -> parser_init (ps_props p) = POk pm ->
  let out := parse_all p pm [] recs in
  Forall (good_record (ps_props p)) (fst out) /\
  (exists done, (exists rest, recs = done ++ rest /\ (snd out = None -> rest = [])) /\
     map (fun r => aget str_eqb (lit "sample_id") r) (fst out) = map (fun r => Some (PNum (fst r))) done).
Proof.
  intros G I out. unfold out. clear out.
  assert (X : forall store, exists new done rest, fst (parse_all p pm store recs) = store ++ new /\
     Forall (good_record (ps_props p)) new /\ recs = done ++ rest /\ (snd (parse_all p pm store recs) = None -> rest = []) /\
     map (fun r => aget str_eqb (lit "sample_id") r) new = map (fun r => Some (PNum (fst r))) done).
  { induction recs as [|[n payload] recs IH]; intros store; cbn [parse_all].
    - exists [], [], []. rewrite app_nil_r. repeat split; auto.
    - unfold parse_one. destruct (ps_kwargs p n payload) as [kwargs|e].
      2:{ exists [], [], ((n, payload) :: recs). rewrite app_nil_r. repeat split; auto. discriminate. }
      destruct (add_metadata_good (ps_props p) store n kwargs pm G I) as (new & E & F & S1 & S2).
      destruct (add_metadata pm store n kwargs) as [st [e|]]; cbn [fst snd] in *.
      + exists [], [], ((n, payload) :: recs). rewrite S2 in E by discriminate. rewrite E.
        repeat split; auto. discriminate.
      + destruct (S1 eq_refl) as (r & -> & SI). destruct (IH st) as (new' & done & rest & E' & F' & R & Z & M).
        exists (r :: new'), ((n, payload) :: done), rest. rewrite E', E, <- app_assoc. inversion F; subst.
        repeat split; auto. cbn [map fst]. now rewrite SI, M. }
  destruct (X []) as (new & done & rest & E & F & R & Z & M). rewrite E. cbn [app]. split; [assumption|].
  exists done. split; [exists rest; auto|assumption].
Qed.

(** All built-in parsers have good schemas, so the theorem above speaks about them. *)
Theorem C45_builtin_schemas (to_str : pval -> str) name p :
  In (name, p) (builtin to_str) -> good_schema (ps_props p) /\ exists pm, parser_init (ps_props p) = POk pm.
Proof.
  intros H.
  assert (G : good_schema (ps_props p)).
  { cbn [In builtin] in H.
    repeat (destruct H as [H|H]; [injection H as <- <-; cbn [ps_props red_pajama slim_pajama imagenet fineweb mscoco pile];
      split; [repeat constructor; cbn; intuition discriminate|repeat constructor; cbn; discriminate]|]).
    destruct H. }
  split; [assumption|]. destruct (C45_add_metadata (ps_props p) [] 0 [] G) as (pm & I & _). eauto.
Qed.

(** The ENUM-based parsers store a sample exactly if its set name is one of the options. *)
Theorem C45_slimpajama (to_str : pval -> str) (store : list record) (n : Z) (payload : pval) pm :
  parser_init slimpajama_props = POk pm ->
  match parse_one slim_pajama pm store n payload with
  | (st, None) => exists meta d s, payload = PDict d /\ aget str_eqb (lit "meta") d = Some (PDict meta) /\
        aget str_eqb (lit "redpajama_set_name") meta = Some (PStr s) /\ In s slimpajama_options /\
        st = store ++ [[(lit "sample_id", PNum n); (lit "redpajama_set_name", PStr s)]]
  | (st, Some _) => st = store
  end.
Proof.
  intros I. vm_compute in I. injection I as <-. unfold parse_one. cbn [ps_kwargs slim_pajama]. unfold set_name_kwargs.
  destruct payload as [| | | |d]; try reflexivity. cbn [pget pbind].
  destruct (aget str_eqb (lit "meta") d) as [[| | | |meta]|] eqn:M; try reflexivity. cbn [pbind pget].
  destruct (aget str_eqb (lit "redpajama_set_name") meta) as [v|] eqn:V; [|reflexivity].
  destruct v as [|s|z|l|dd]; try reflexivity.
  unfold add_metadata. cbn [add_props add_prop]. 
  match goal with |- context [aget str_eqb ?k [(?k', PStr s)]] => replace (aget str_eqb k [(k', PStr s)]) with (Some (PStr s)) by reflexivity end.
  cbn [p_multiple p_nullable check_enum p_dtype p_options contains hashable negb andb].
  destruct (existsb (str_eqb s) slimpajama_options) eqn:E.
  - match goal with |- context [existsb ?f ?o] => replace (existsb f o) with true by (symmetry; exact E) end.
    exists meta, d, s. repeat split; try assumption. now apply existsb_str.
  - match goal with |- context [existsb ?f ?o] => replace (existsb f o) with false by (symmetry; exact E) end. reflexivity.
Qed.

(** Two things the schema check does not catch.  The ImageNet parser turns a missing label into the text "None"; and a
    property may be called "sample_id", in which case the sample's number is overwritten. *)
Theorem C45_missing_label_refuted (to_str : pval -> str) :
  exists pm, parser_init imagenet_props = POk pm /\
  parse_one (imagenet to_str) pm [] 7 (PDict []) = ([[(lit "sample_id", PNum 7); (lit "class_label", PStr (lit "None"))]], None).
Proof. eexists. split; reflexivity. Qed.
Theorem C45_sample_id_overwritten_refuted :
  let props := [MProp (lit "sample_id") DString false false NoOptions] in
  exists pm, parser_init props = POk pm /\
  add_metadata pm [] 7 [(lit "sample_id", PStr [65])] = ([[(lit "sample_id", PStr [65])]], None).
Proof. eexists. split; reflexivity. Qed.

(** ** C58: the registry *)
Theorem C58_registry {P} (reg : list (str * P)) (name : str) (p : P) (overwrite : bool) :
  (* a new name, or an overwrite, is taken over; otherwise nothing changes and the call says so *)
  (aget str_eqb name reg = None \/ overwrite = true ->
     snd (add_parser reg name p overwrite) = true /\ aget str_eqb name (fst (add_parser reg name p overwrite)) = Some p) /\
  (aget str_eqb name reg <> None -> overwrite = false -> add_parser reg name p overwrite = (reg, false)) /\
  (* other names are not affected by either operation *)
  (forall other, other <> name -> aget str_eqb other (fst (add_parser reg name p overwrite)) = aget str_eqb other reg) /\
  (NoDup (map fst reg) -> aget str_eqb name (remove_parser reg name) = None /\
     forall other, other <> name -> aget str_eqb other (remove_parser reg name) = aget str_eqb other reg).
Proof.
  unfold add_parser, remove_parser, amem. split; [|split; [|split]].
  - intros H. assert (X : negb (match aget str_eqb name reg with Some _ => true | None => false end) || overwrite = true).
    { destruct H as [H|H]; rewrite H; [reflexivity|apply orb_true_r]. }
    rewrite X. cbn [fst snd]. split; [reflexivity|]. apply (aget_aset_same _ str_eqb_spec).
  - intros H ->. destruct (aget str_eqb name reg); [reflexivity|congruence].
  - intros other H. destruct (_ || _); [|reflexivity]. cbn [fst]. apply (aget_aset_other _ str_eqb_spec). congruence.
  - intros N. destruct (aget str_eqb name reg) as [v|] eqn:E.
    + split.
      * now apply (aget_adel_same _ str_eqb_spec).
      * intros other H. apply (aget_adel_other _ str_eqb_spec). congruence.
    + split; [assumption|reflexivity].
Qed.
Theorem C58_create (reg : list (str * parser)) (name : str) :
  match aget str_eqb name reg with
  | None => create_parser reg name = PErr ModuleNotFoundErr
  | Some p => good_schema (ps_props p) -> exists pm, create_parser reg name = POk (p, pm)
  end.
Proof.
  unfold create_parser. destruct (aget str_eqb name reg) as [p|]; [|reflexivity]. intros G.
  destruct (C45_add_metadata (ps_props p) [] 0 [] G) as (pm & -> & _). cbn. eauto.
Qed.

(** ** Non-vacuity *)
Example schema_example : good_schema redpajama_props.
Proof. split; [repeat constructor; cbn; intuition discriminate|repeat constructor; cbn; discriminate]. Qed.
Example redpajama_example (to_str : pval -> str) :
  exists pm, parser_init redpajama_props = POk pm /\
  parse_all red_pajama pm []
    [(0, PDict [(lit "meta", PDict [(lit "language", PList [PDict [(lit "name", PStr (lit "en"))]])])]); (1, PDict [])] =
  ([[(lit "sample_id", PNum 0); (lit "language", PList [PStr (lit "en")]); (lit "publication_date", PNone)];
    [(lit "sample_id", PNum 1); (lit "language", PNone); (lit "publication_date", PNone)]], None).
Proof. eexists. split; reflexivity. Qed.
Example fineweb_rejects (to_str : pval -> str) :
  exists pm, parser_init fineweb_props = POk pm /\
  parse_all fineweb pm [] [(0, PDict [(lit "language", PStr (lit "de")); (lit "dump", PStr (lit "x"))])] = ([], Some RuntimeErr).
Proof. eexists. split; reflexivity. Qed.

Print Assumptions C45_add_metadata.
Print Assumptions C45_records_well_typed.
Print Assumptions C45_builtin_schemas.
Print Assumptions C45_slimpajama.
Print Assumptions C45_missing_label_refuted.
Print Assumptions C45_sample_id_overwritten_refuted.
Print Assumptions C58_registry.
Print Assumptions C58_create.
