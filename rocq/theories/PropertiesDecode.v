(** C80: decoded samples of tar archives. *)
From Coq Require Import String.
From Verif Require Import Base MixtureKeyModel UtilsModel ChunkGenModel ParserModel FilesModel ReaderModel NetModel SpecReader DecodeModel SpecDecode
  MixtureKeyProofs PropertiesReader.
Open Scope Z_scope.

Lemma split_dot_nonempty t : split_dot t <> [].
Proof. induction t as [|c t IH]; cbn; [discriminate|]. destruct (c =? 46); [discriminate|]. destruct (split_dot t); [contradiction|discriminate]. Qed.
Lemma split_dot_plain e : ~ In 46 e -> split_dot e = [e].
Proof.
  induction e as [|c e IH]; intros H; [reflexivity|]. cbn. destruct (c =? 46) eqn:E; [apply Z.eqb_eq in E; subst; cbn in H; tauto|].
  rewrite IH by (cbn in H; tauto). reflexivity.
Qed.
Lemma split_dot_app s e : split_dot (s ++ 46 :: e) = split_dot s ++ split_dot e.
Proof.
  induction s as [|c s IH]; [reflexivity|]. cbn. destruct (c =? 46); rewrite IH; [reflexivity|].
  destruct (split_dot s) eqn:E; [exfalso; exact (split_dot_nonempty s E)|reflexivity].
Qed.
Lemma from_end_0 l e : from_end 0 (l ++ [e]) = e.
Proof. unfold from_end. rewrite rev_app_distr. reflexivity. Qed.
Lemma from_end_1 l e g : from_end 1 (l ++ [e] ++ [g]) = e.
Proof. unfold from_end. rewrite !rev_app_distr. reflexivity. Qed.
Lemma one_of_spec e l : one_of e l = true <-> In e l.
Proof.
  unfold one_of. rewrite existsb_exists. split.
  - intros (x & Hx & E). apply str_eqb_spec in E. subst. exact Hx.
  - intros H. exists e. split; [exact H|apply str_eqb_spec; reflexivity].
Qed.
Lemma gz_plain : plain (lit "gz").
Proof. intros H. vm_compute in H. repeat (destruct H as [H|H]; [discriminate|]). destruct H. Qed.

Section Proofs.
  Context {J N P I : Type}.
  Variable gunzip : str -> res str.
  Variable int_of : str -> res Z.
  Variable json_of : str -> res J.
  Variable npy_of : str -> res N.
  Variable pickle_of : str -> res P.
  Variable image_of : str -> res I.
  Let bye := by_extension int_of json_of npy_of pickle_of image_of.
  Let cas := content_as int_of json_of npy_of pickle_of image_of.

  Lemma kinds images e k b u : says images e k ->
    rmap see (bye images e b u) = match k with KOther => Ok (see u) | _ => cas k b end.
  Proof.
    intros H. unfold bye, cas, by_extension.
    assert (R : forall A (f : A -> @dval J N P I) (r : res A), rmap see (made f r) = rmap (fun a => see (f a)) r) by (intros A f [a|x]; reflexivity).
    destruct H as [e H|e H|e Hi H| | |e H|e H Hi].
    - rewrite (proj2 (one_of_spec e _) H). apply R.
    - assert (E : one_of e [lit "txt"; lit "text"] = false).
      { cbn [In] in H. destruct H as [<-|[<-|[]]]; reflexivity. }
      rewrite E, (proj2 (one_of_spec e _) H). unfold content_as, utf8, text_of. destruct (utf8_decode b); [apply R|reflexivity].
    - assert (E1 : one_of e [lit "txt"; lit "text"] = false) by (cbn [In] in H; repeat destruct H as [<-|H]; try reflexivity; destruct H).
      assert (E2 : one_of e [lit "cls"; lit "cls2"] = false) by (cbn [In] in H; repeat destruct H as [<-|H]; try reflexivity; destruct H).
      rewrite E1, E2. unfold image_exts. rewrite (proj2 (one_of_spec e _) H), Hi. apply R.
    - apply R.
    - apply R.
    - cbn [In] in H. destruct H as [<-|[<-|[]]]; apply R.
    - assert (E : forall l, (forall x, In x l -> In x [lit "txt"; lit "text"; lit "cls"; lit "cls2"; lit "json"; lit "npy"; lit "pickle"; lit "pkl"]) -> one_of e l = false).
      { intros l Hl. destruct (one_of e l) eqn:E; [|reflexivity]. apply one_of_spec in E. exfalso. apply H, Hl, E. }
      replace (str_eqb e (lit "json")) with (one_of e [lit "json"]) by apply orb_false_r.
      replace (str_eqb e (lit "npy")) with (one_of e [lit "npy"]) by apply orb_false_r.
      rewrite (E [lit "txt"; lit "text"]) by (intros x; cbn [In]; tauto).
      rewrite (E [lit "cls"; lit "cls2"]) by (intros x; cbn [In]; tauto).
      rewrite (E [lit "json"]) by (intros x; cbn [In]; tauto).
      rewrite (E [lit "npy"]) by (intros x; cbn [In]; tauto).
      rewrite (E [lit "pickle"; lit "pkl"]) by (intros x; cbn [In]; tauto).
      assert (E3 : one_of e image_exts && images = false).
      { destruct images; [|apply andb_false_r]. rewrite andb_true_r. destruct (one_of e image_exts) eqn:E3; [|reflexivity].
        apply one_of_spec in E3. exfalso. apply (Hi eq_refl), E3. }
      rewrite E3. reflexivity.
  Qed.

  Lemma dotted_prefix name : dotted name -> has_prefix (lit "__") name = false.
  Proof. intros [rest ->]. reflexivity. Qed.
  Lemma dotted_key name : dotted name -> str_eqb name key_name = false.
  Proof. intros [rest ->]. reflexivity. Qed.

  Let dm := decode_member gunzip int_of json_of npy_of pickle_of image_of.
  Lemma gz_name images stem content : dotted (stem ++ [46] ++ lit "gz") ->
    dm images (stem ++ [46] ++ lit "gz") content
    = match gunzip content with
      | Err e => Err e
      | Ok d => bye images (from_end 1 (split_dot stem ++ [lit "gz"])) d (DStream content (length content))
      end.
  Proof.
    intros H. unfold dm, decode_member. rewrite (dotted_prefix _ H). cbv zeta.
    change (stem ++ [46] ++ lit "gz") with (stem ++ 46 :: lit "gz"). rewrite split_dot_app, (split_dot_plain (lit "gz")) by exact gz_plain.
    rewrite from_end_0. change (one_of (lit "gz") [lit "gz"]) with true. cbv iota.
    destruct (gunzip content); [|reflexivity].
    assert (L : Nat.ltb (length (split_dot stem ++ [lit "gz"])) 2 = false).
    { apply Nat.ltb_ge. rewrite app_length. cbn [length]. pose proof (split_dot_nonempty stem). destruct (split_dot stem); [contradiction|cbn [length]; lia]. }
    match goal with |- (if ?b then _ else _) = _ => replace b with false by (symmetry; exact L) end. reflexivity.
  Qed.

  Lemma member_should images name content r : dotted name -> ~ compressed_other images name ->
    should gunzip int_of json_of npy_of pickle_of image_of images name content r ->
    rmap see (dm images name content) = r.
  Proof.
    intros Hd Hn H. destruct H as [stem e k -> He Hne Hs|stem e k d -> He Hs Hg|d -> Hg|stem ex -> Hg].
    - unfold dm, decode_member. rewrite (dotted_prefix _ Hd). cbv zeta.
      change (stem ++ [46] ++ e) with (stem ++ 46 :: e). rewrite split_dot_app, (split_dot_plain e He), from_end_0.
      assert (E : one_of e [lit "gz"] = false).
      { destruct (one_of e [lit "gz"]) eqn:E; [|reflexivity]. apply one_of_spec in E. destruct E as [E|[]]. congruence. }
      rewrite E. fold bye. rewrite (kinds images e k) by exact Hs. destruct k; try reflexivity.
    - replace (stem ++ [46] ++ e ++ [46] ++ lit "gz") with ((stem ++ [46] ++ e) ++ [46] ++ lit "gz") in * by (rewrite <- !app_assoc; reflexivity).
      rewrite gz_name by exact Hd. rewrite Hg. change (stem ++ [46] ++ e) with (stem ++ 46 :: e).
      rewrite split_dot_app, (split_dot_plain e He), <- app_assoc, from_end_1. rewrite (kinds images e k) by exact Hs.
      destruct k; try reflexivity. exfalso. apply Hn. right. exists stem, e. rewrite <- !app_assoc. auto.
    - exfalso. apply Hn. left. reflexivity.
    - rewrite gz_name by exact Hd. rewrite Hg. reflexivity.
  Qed.

  Let dec := decode gunzip int_of json_of npy_of pickle_of image_of.
  Let see_all (vs : list (str * @dval J N P I)) := map (fun kv => (fst kv, see (snd kv))) vs.

  (** Every member decoded as its name says, in the archive's order, with the key; or the error of the first bad member. *)
  Theorem C80_decoded_partial : forall images members key r,
    Forall (fun m => dotted (fst m) /\ ~ compressed_other images (fst m)) members ->
    all_should gunzip int_of json_of npy_of pickle_of image_of images members r ->
    rmap see_all (dec images (members ++ [(key_name, key)])) = rmap (fun vs => vs ++ [(key_name, Key key)]) r.
  Proof.
    intros images members key r HF H. induction H as [|n c v rest vs H1 H IH|n c v rest ex H1 H IH|n c ex rest H1].
    - reflexivity.
    - inversion HF as [|? ? [D1 D2] HF']; subst. cbn [fst] in *. cbn [app dec decode]. rewrite (dotted_key _ D1).
      pose proof (member_should images n c _ D1 D2 H1) as E. fold dm. destruct (dm images n c) as [d|e]; [|discriminate].
      injection E as E. specialize (IH HF'). fold dec. destruct (dec images (rest ++ [(key_name, key)])) as [ds|]; [|discriminate].
      unfold rmap in *. injection IH as IH. unfold see_all in *. cbn [map fst snd]. rewrite IH, E. reflexivity.
    - inversion HF as [|? ? [D1 D2] HF']; subst. cbn [fst] in *. cbn [app dec decode]. rewrite (dotted_key _ D1).
      pose proof (member_should images n c _ D1 D2 H1) as E. fold dm. destruct (dm images n c) as [d|e]; [|discriminate].
      specialize (IH HF'). fold dec. destruct (dec images (rest ++ [(key_name, key)])) as [ds|]; [discriminate|]. unfold rmap in *. congruence.
    - inversion HF as [|? ? [D1 D2] HF']; subst. cbn [fst] in *. cbn [app dec decode]. rewrite (dotted_key _ D1).
      pose proof (member_should images n c _ D1 D2 H1) as E. fold dm. destruct (dm images n c) as [d|e]; [discriminate|]. cbn in *. congruence.
  Qed.

  (** The specification covers every sample. *)
  Lemma says_total images e : exists k, says images e k.
  Proof.
    destruct (one_of e [lit "txt"; lit "text"]) eqn:E1; [exists KText; apply say_text, one_of_spec, E1|].
    destruct (one_of e [lit "cls"; lit "cls2"]) eqn:E2; [exists KClass; apply say_class, one_of_spec, E2|].
    destruct (one_of e [lit "pickle"; lit "pkl"]) eqn:E3; [exists KPickle; apply say_pickle, one_of_spec, E3|].
    destruct (one_of e [lit "json"]) eqn:E4; [apply one_of_spec in E4 as [<-|[]]; exists KJson; constructor|].
    destruct (one_of e [lit "npy"]) eqn:E5; [apply one_of_spec in E5 as [<-|[]]; exists KNpy; constructor|].
    destruct (images && one_of e image_exts) eqn:E6.
    - apply andb_prop in E6 as [E6 E7]. exists KImage. apply say_image; [exact E6|apply one_of_spec, E7].
    - exists KOther. assert (F : forall l, one_of e l = false -> ~ In e l) by (intros l F H; apply one_of_spec in H; congruence).
      apply say_other.
      + apply F in E1, E2, E3, E4, E5. cbn [In] in *. tauto.
      + intros ->. cbn in E6. apply F. exact E6.
  Qed.
  Lemma last_dot rest : exists stem e, 46 :: rest = stem ++ [46] ++ e /\ plain e.
  Proof.
    assert (G : forall l : str, plain l \/ exists stem e, l = stem ++ [46] ++ e /\ plain e).
    { induction l as [|c l [IH|(stem & e & -> & IH)]]; [left; intros []| |right; exists (c :: stem), e; auto].
      destruct (Z.eq_dec c 46) as [->|Hc]; [right; exists [], l; auto|left; intros [H|H]; [congruence|exact (IH H)]]. }
    destruct (G (46 :: rest)) as [H|H]; [exfalso; apply H; cbn; auto|exact H].
  Qed.
  Lemma should_total images name content : dotted name ->
    exists r, should gunzip int_of json_of npy_of pickle_of image_of images name content r.
  Proof.
    intros [rest ->]. destruct (last_dot rest) as (stem & e & E & He).
    destruct (str_eqb e (lit "gz")) eqn:Eg.
    - apply str_eqb_spec in Eg. subst e. destruct (gunzip content) as [d|ex] eqn:Hg.
      + destruct stem as [|c stem]; [eexists; eapply sh_only; eauto|].
        injection E as <- E. destruct (last_dot stem) as (stem' & e & E' & He'). destruct (says_total images e) as [k Hk].
        eexists. eapply (sh_gz _ _ _ _ _ _ _ _ _ stem' e k d); eauto. transitivity ((46 :: stem) ++ [46] ++ lit "gz"); [rewrite E; reflexivity|rewrite E', <- !app_assoc; reflexivity].
      + eexists. eapply sh_bad; eauto.
    - destruct (says_total images e) as [k Hk]. eexists. eapply (sh_plain _ _ _ _ _ _ _ _ _ stem e k); eauto.
      intros ->. rewrite (proj2 (str_eqb_spec _ _) eq_refl) in Eg. discriminate.
  Qed.
  Theorem C80_covers : forall images members, Forall (fun m => dotted (fst m)) members ->
    exists r, all_should gunzip int_of json_of npy_of pickle_of image_of images members r.
  Proof.
    intros images members H. induction H as [|[n c] rest Hn H [r IH]]; [eexists; constructor|].
    destruct (should_total images n c Hn) as [[v|ex] Hs]; [|eexists; eapply as_first; eauto].
    destruct r as [vs|ex]; eexists; [eapply as_ok|eapply as_later]; eauto.
  Qed.

  (** Composed with reading a tar file: what a consumer gets for the requested samples. *)
  Theorem C80_read_partial : forall (file : list wsample) rs,
    Forall good_wsample file -> Forall (fun s => Forall (fun m => dotted (fst m) /\ ~ compressed_other true (fst m)) (snd s)) file ->
    tidy rs -> Forall (fun r => snd r <= Z.of_nat (length file)) rs ->
    exists f, (forall s, In s file -> all_should gunzip int_of json_of npy_of pickle_of image_of true (snd s) (f s))
      /\ delivers (fun s => rmap (fun vs => vs ++ [(key_name, Key (fst s))]) (f s)) (requested file rs)
           (web_read_file (dec true) (fun v => Ok (see_all v)) (map in_tar file) rs).
  Proof.
    intros file rs G D T B.
    set (f := fun s : wsample => match dec true (record_of s) with Ok v => Ok (removelast (see_all v)) | Err e => Err e end).
    assert (Hf : forall s, In s file -> all_should gunzip int_of json_of npy_of pickle_of image_of true (snd s) (f s)
                 /\ rmap see_all (dec true (record_of s)) = rmap (fun vs => vs ++ [(key_name, Key (fst s))]) (f s)).
    { intros s Hs. rewrite Forall_forall in D. specialize (D s Hs).
      destruct (C80_covers true (snd s)) as [r Hr]; [eapply Forall_impl; [|exact D]; intros m [H _]; exact H|].
      pose proof (C80_decoded_partial true (snd s) (fst s) r D Hr) as E. fold (record_of s) in E.
      assert (Ef : f s = r).
      { unfold f. destruct (dec true (record_of s)) as [v|e]; cbn [rmap] in E.
        - destruct r as [vs|]; [|discriminate]. cbn [rmap] in E. injection E as E. rewrite E, removelast_last. reflexivity.
        - destruct r; [discriminate|]. cbn [rmap] in E. congruence. }
      rewrite Ef. split; [exact Hr|exact E]. }
    exists f. split; [intros s Hs; apply Hf, Hs|].
    pose proof (C28_web_partial (dec true) (fun v => Ok (see_all v)) file rs G T B) as H.
    assert (Ext : forall l : list wsample, incl l file ->
      map (fun s => match dec true (record_of s) with Ok v => Ok (see_all v) | Err e => Err e end) l
      = map (fun s => rmap (fun vs => vs ++ [(key_name, Key (fst s))]) (f s)) l).
    { intros l Hl. apply map_ext_in. intros s Hs. destruct (Hf s (Hl s Hs)) as [_ E]. rewrite <- E. destruct (dec true (record_of s)); reflexivity. }
    unfold delivers in *. rewrite Ext in H by (intros s Hs; eapply in_requested; exact Hs). exact H.
  Qed.

  (** Compressed members of other kinds: whatever they contain, the consumer finds an empty stream. *)
  Theorem C80_compressed_refuted : forall images name content d, dotted name -> compressed_other images name -> gunzip content = Ok d ->
    rmap see (dm images name content) = Ok (Bytes [])
    /\ should gunzip int_of json_of npy_of pickle_of image_of images name content (Ok (Bytes d)).
  Proof.
    intros images name content d Hd Hn Hg.
    assert (Z0 : @see J N P I (DStream content (length content)) = Bytes []) by (cbn; rewrite skipn_all; reflexivity).
    destruct Hn as [->|(stem & e & -> & He & Hs)].
    - split; [|eapply sh_only; eauto]. change ([46] ++ lit "gz") with ([] ++ [46] ++ lit "gz"). rewrite gz_name by exact Hd. rewrite Hg.
      rewrite (kinds images _ KOther); [rewrite Z0; reflexivity|]. apply say_other.
      + cbn [split_dot app]. change (from_end 1 [[]; lit "gz"]) with (@nil Z). intros H. vm_compute in H. repeat (destruct H as [H|H]; [discriminate|]). destruct H.
      + intros _ H. change (from_end 1 (split_dot [] ++ [lit "gz"])) with (@nil Z) in H. vm_compute in H. repeat (destruct H as [H|H]; [discriminate|]). destruct H.
    - split.
      + replace (stem ++ [46] ++ e ++ [46] ++ lit "gz") with ((stem ++ [46] ++ e) ++ [46] ++ lit "gz") in * by (rewrite <- !app_assoc; reflexivity).
        rewrite gz_name by exact Hd. rewrite Hg. change (stem ++ [46] ++ e) with (stem ++ 46 :: e).
        rewrite split_dot_app, (split_dot_plain e He), <- app_assoc, from_end_1. rewrite (kinds images e KOther) by exact Hs. rewrite Z0. reflexivity.
      + change (Ok (Bytes d)) with (content_as int_of json_of npy_of pickle_of image_of KOther d). eapply sh_gz; eauto.
  Qed.
End Proofs.
Print Assumptions C80_decoded_partial.
Print Assumptions C80_covers.
Print Assumptions C80_read_partial.
Print Assumptions C80_compressed_refuted.

(** A sample with a caption, a class, an image and compressed json; the image is decoded only when reading. *)
Definition cat : wsample := (lit "cat", [(lit ".txt", lit "a cat"); (lit ".cls", lit "3"); (lit ".jpg", [255]); (lit ".meta.json.gz", lit "z{}")]).
Definition ex_decode := @decode str str str str (fun b => Ok (tl b)) (fun s => Ok (hd 0 s - 48)) (fun b => Ok b) (fun b => Ok b) (fun b => Ok b) (fun b => Ok b).
Example C80_example :
  good_wsample cat /\ Forall (fun m => dotted (fst m)) (snd cat)
  /\ ex_decode true (record_of cat)
     = Ok [(lit ".txt", DText (lit "a cat")); (lit ".cls", DInt 3); (lit ".jpg", DImage [255]); (lit ".meta.json.gz", DJson (lit "{}")); (key_name, DKey (lit "cat"))]
  /\ ex_decode false (record_of cat)
     = Ok [(lit ".txt", DText (lit "a cat")); (lit ".cls", DInt 3); (lit ".jpg", DStream [255] 0); (lit ".meta.json.gz", DJson (lit "{}")); (key_name, DKey (lit "cat"))]
  /\ (forall m, In m (snd cat) -> ~ compressed_other true (fst m)).
Proof.
  split; [split; [discriminate|split; [discriminate|split]]|].
  - vm_compute. repeat constructor; cbn; intuition discriminate.
  - vm_compute. intuition discriminate.
  - split; [repeat constructor; eexists; vm_compute; reflexivity|]. split; [vm_compute; reflexivity|]. split; [vm_compute; reflexivity|].
    assert (L : forall n stem e, n = stem ++ [46] ++ e ++ [46] ++ lit "gz" -> plain e -> from_end 1 (split_dot n) = e /\ from_end 0 (split_dot n) = lit "gz").
    { intros n stem e -> He. replace (stem ++ [46] ++ e ++ [46] ++ lit "gz") with ((stem ++ 46 :: e) ++ 46 :: lit "gz") by (rewrite <- app_assoc; reflexivity).
      rewrite !split_dot_app, (split_dot_plain e He), (split_dot_plain (lit "gz") gz_plain), <- app_assoc, from_end_1. split; [reflexivity|].
      rewrite app_assoc. apply from_end_0. }
    intros m Hm [H|(stem & e & H & He & Hs)].
    + cbn [cat snd In] in Hm. destruct Hm as [<-|[<-|[<-|[<-|[]]]]]; vm_compute in H; discriminate.
    + destruct (L _ _ _ H He) as [E1 E0]. cbn [cat snd In] in Hm. destruct Hm as [<-|[<-|[<-|[<-|[]]]]]; try (vm_compute in E0; discriminate).
      change (from_end 1 (split_dot (fst (lit ".meta.json.gz", lit "z{}")))) with (lit "json") in E1. rewrite <- E1 in Hs. inversion Hs as [| | | | | |e' Hn _]; subst.
      apply Hn. right. right. right. right. left. reflexivity.
Qed.

(** Five bytes of a compressed binary file are there, none is delivered. *)
Example C80_compressed_example :
  compressed_other true (lit ".bin.gz") /\ dotted (lit ".bin.gz")
  /\ rmap (map (fun kv => see (snd kv))) (ex_decode true [(lit ".bin.gz", lit "z1234")]) = Ok [Bytes []].
Proof.
  split.
  - right. exists [], (lit "bin"). split; [reflexivity|]. split.
    + intros H. vm_compute in H. repeat (destruct H as [H|H]; [discriminate|]). destruct H.
    + apply say_other; [|intros _]; intros H; vm_compute in H; repeat (destruct H as [H|H]; [discriminate|]); destruct H.
  - split; [eexists; vm_compute; reflexivity|vm_compute; reflexivity].
Qed.
