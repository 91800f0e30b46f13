(** Proofs about FilesModel. *)
From Coq Require Import String.
From Verif Require Import Base MixtureKeyModel MixtureKeyProofs UtilsModel ChunkGenModel ParserModel SpecParser ParserProofs
  MdcModel SpecMdc ReaderModel SpecReader FilesModel SpecFiles PropertiesParser PropertiesReader.
Open Scope Z_scope.

Lemma has_suffix_spec p s : has_suffix p s = true <-> exists stem, s = stem ++ p.
Proof.
  unfold has_suffix. rewrite str_eqb_spec. split.
  - intros E. exists (firstn (length s - length p) s). rewrite <- E at 2. symmetry. apply firstn_skipn.
  - intros [stem ->]. rewrite app_length. replace (length stem + length p - length p)%nat with (length stem) by lia.
    rewrite skipn_app, skipn_all, Nat.sub_diag. reflexivity.
Qed.
Lemma has_prefix_spec p s : has_prefix p s = true <-> exists t, s = p ++ t.
Proof.
  unfold has_prefix. rewrite str_eqb_spec. split.
  - intros E. exists (skipn (length p) s). rewrite <- E at 1. symmetry. apply firstn_skipn.
  - intros [t ->]. rewrite firstn_app, Nat.sub_diag, firstn_all. cbn. apply app_nil_r.
Qed.
Lemma absolute_prefix p : absolute p <-> has_prefix (lit "/") p = true.
Proof. rewrite has_prefix_spec. split; intros [q ->]; exists q; reflexivity. Qed.

(** ** Paths *)
Lemma split_slash_ne t : split_slash t <> [].
Proof. destruct t as [|c t]; cbn; [discriminate|]. destruct (c =? slash); [discriminate|]. now destruct (split_slash t). Qed.
Lemma split_slash_app a b : split_slash (a ++ slash :: b) = split_slash a ++ split_slash b.
Proof.
  induction a as [|c a IH]; cbn [app split_slash].
  - change (slash =? slash) with true. reflexivity.
  - rewrite IH. destruct (c =? slash); [reflexivity|]. destruct (split_slash a) eqn:E; [now apply split_slash_ne in E|]. reflexivity.
Qed.
Lemma split_slash_no a : ~ In slash a -> split_slash a = [a].
Proof.
  induction a as [|c a IH]; [reflexivity|]. intros N. cbn [split_slash]. replace (c =? slash) with false.
  - rewrite IH; [reflexivity|]. intros I. apply N. now right.
  - symmetry. apply Z.eqb_neq. intros ->. apply N. now left.
Qed.
Lemma in_split_no_slash t c : In c (split_slash t) -> ~ In slash c.
Proof.
  revert c. induction t as [|x t IH]; intros c; cbn [split_slash].
  - intros [<-|[]]. auto.
  - destruct (x =? slash) eqn:E.
    + intros [<-|I]; [auto|]. now apply IH.
    + destruct (split_slash t) as [|l ls] eqn:S; [now apply split_slash_ne in S|].
      intros [<-|I]; [|apply IH; now right]. intros [->|I]; [discriminate|]. eapply IH; [now left|eassumption].
Qed.
Definition component (c : str) : Prop := kept c = true /\ ~ In slash c.
Lemma parts_components p : Forall component (parts p).
Proof.
  unfold parts. apply Forall_forall. intros c I. apply filter_In in I. destruct I as [I K].
  split; [assumption|]. now apply (in_split_no_slash p).
Qed.
Lemma good_name_component n : good_name n -> component n.
Proof.
  intros (A & B & _ & D). split; [|assumption]. unfold kept.
  destruct (str_eqb n []) eqn:E1; [apply str_eqb_spec in E1; contradiction|].
  destruct (str_eqb n (lit ".")) eqn:E2; [apply str_eqb_spec in E2; contradiction|]. reflexivity.
Qed.
Lemma parts_join ps : Forall component ps -> parts (join_slash ps) = ps.
Proof.
  induction 1 as [|c ps [K N] F IH]; [reflexivity|]. destruct ps as [|c' ps].
  - cbn [join_slash]. unfold parts. rewrite split_slash_no by assumption. cbn. now rewrite K.
  - change (join_slash (c :: c' :: ps)) with (c ++ slash :: join_slash (c' :: ps)). unfold parts in *.
    rewrite split_slash_app, filter_app, IH, split_slash_no by assumption. cbn. now rewrite K.
Qed.
Lemma parts_slash p : parts (slash :: p) = parts p.
Proof. unfold parts. cbn [split_slash]. change (slash =? slash) with true. reflexivity. Qed.
Lemma root_of_cases p : absolute p -> root_of p = [slash] \/ root_of p = [slash; slash].
Proof.
  intros [q ->]. unfold root_of. destruct (has_prefix (lit "///") _); [now left|]. destruct (has_prefix (lit "//") _); [now right|].
  replace (has_prefix (lit "/") (slash :: q)) with true; [now left|]. symmetry. apply absolute_prefix. now exists q.
Qed.
Lemma root_of_relative p : ~ absolute p -> root_of p = [].
Proof.
  intros N. unfold root_of. destruct (has_prefix (lit "///") p) eqn:E1.
  { apply has_prefix_spec in E1. destruct E1 as [t ->]. exfalso. apply N. eexists. reflexivity. }
  destruct (has_prefix (lit "//") p) eqn:E2.
  { apply has_prefix_spec in E2. destruct E2 as [t ->]. exfalso. apply N. eexists. reflexivity. }
  destruct (has_prefix (lit "/") p) eqn:E3; [|reflexivity]. exfalso. now apply N, absolute_prefix.
Qed.
Lemma parts_root p l : parts (root_of p ++ l) = parts l.
Proof.
  destruct (has_prefix (lit "/") p) eqn:E.
  - apply absolute_prefix in E. destruct (root_of_cases p E) as [->| ->]; cbn [app]; now rewrite ?parts_slash.
  - rewrite root_of_relative; [reflexivity|]. rewrite absolute_prefix. congruence.
Qed.
Lemma parts_norm p : parts (norm p) = parts p.
Proof.
  unfold norm. destruct (root_of p ++ join_slash (parts p)) as [|c q] eqn:E.
  - assert (J : parts (join_slash (parts p)) = parts p) by (apply parts_join, parts_components).
    apply app_eq_nil in E. destruct E as [_ E]. rewrite E in J. rewrite <- J. reflexivity.
  - rewrite <- E, parts_root. apply parts_join, parts_components.
Qed.
Lemma parts_child d n : good_name n -> parts (child d n) = parts d ++ [n].
Proof.
  intros G. unfold child. rewrite parts_root. apply parts_join. apply Forall_app. split; [apply parts_components|].
  constructor; [now apply good_name_component|constructor].
Qed.
Lemma join_slash_no_lead ps : Forall component ps -> ~ absolute (join_slash ps).
Proof.
  intros F [q E]. destruct F as [|c ps [K N] F]; [discriminate|].
  destruct c as [|x c]; [discriminate|]. cbn [join_slash] in E. destruct ps; cbn [app] in E; injection E as -> _; apply N; now left.
Qed.
Lemma absolute_norm p : absolute (norm p) <-> absolute p.
Proof.
  split.
  - intros A. destruct (has_prefix (lit "/") p) eqn:E; [now apply absolute_prefix|]. exfalso. unfold norm in A.
    rewrite root_of_relative in A by (rewrite absolute_prefix; congruence). cbn [app] in A.
    destruct (join_slash (parts p)) eqn:J; [destruct A as [? A]; vm_compute in A; discriminate|].
    rewrite <- J in A. eapply join_slash_no_lead; [|exact A]. apply parts_components.
  - intros A. unfold norm. destruct (root_of_cases p A) as [->| ->]; cbn [app]; eexists; reflexivity.
Qed.
Lemma absolute_child d n : absolute d -> absolute (child d n).
Proof. intros A. unfold child. destruct (root_of_cases d A) as [->| ->]; cbn [app]; eexists; reflexivity. Qed.
Lemma child_inj d n n' : good_name n -> good_name n' -> child d n = child d n' -> n = n'.
Proof.
  intros G G' E. apply (f_equal parts) in E. rewrite !parts_child in E by assumption.
  apply app_inj_tail in E. apply E.
Qed.
Lemma wants_dir_norm p : absolute p -> parts p <> [] -> wants_dir (norm p) = false.
Proof.
  intros A N. unfold wants_dir. apply negb_false_iff. unfold norm.
  assert (C := parts_components p). destruct (exists_last N) as (ps & c & E). rewrite E in *.
  assert (J : exists q, join_slash (ps ++ [c]) = q ++ c /\ (q = [] \/ exists q', q = q' ++ [slash])).
  { clear. induction ps as [|a ps IH]; [exists []; split; [reflexivity|now left]|].
    destruct IH as (q & H & X). cbn [app]. destruct (ps ++ [c]) as [|b l] eqn:L; [now destruct ps|].
    change (join_slash (a :: b :: l)) with (a ++ slash :: join_slash (b :: l)). rewrite H.
    exists (a ++ slash :: q). split; [now rewrite <- app_assoc|]. right. destruct X as [->|[q' ->]].
    - now exists a.
    - exists (a ++ slash :: q'). now rewrite <- app_assoc. }
  destruct J as (q & -> & X). apply Forall_app in C. destruct C as [_ C]. inversion C as [|? ? [K NS] _]; subst.
  assert (Y : exists q', root_of p ++ q = q' ++ [slash]).
  { destruct X as [->|[q' ->]]; destruct (root_of_cases p A) as [->| ->].
    - now exists []. - now exists [slash]. - exists ([slash] ++ q'). now rewrite app_assoc. - exists ([slash; slash] ++ q'). now rewrite app_assoc. }
  destruct Y as [q' Y]. rewrite app_assoc, Y, <- app_assoc. cbn [app].
  destruct (q' ++ slash :: c) eqn:Z; [now destruct q'|]. rewrite <- Z, split_slash_app, (split_slash_no c) by assumption.
  rewrite last_last. exact K.
Qed.

(** ** Looking up *)
Section Look.
  Variables (root cwd : node) (cwd_anc : list node).
  Notation find := (find root cwd cwd_anc).
  Lemma find_norm p : find (norm p) = find p.
  Proof.
    unfold FilesModel.find. rewrite parts_norm.
    replace (has_prefix (lit "/") (norm p)) with (has_prefix (lit "/") p); [reflexivity|].
    apply eq_true_iff_eq. rewrite <- !absolute_prefix. symmetry. apply absolute_norm.
  Qed.
  Lemma walk_app ps qs : forall anc cur x, walk anc cur ps = Some x -> exists anc', walk anc cur (ps ++ qs) = walk anc' x qs.
  Proof.
    induction ps as [|p ps IH]; intros anc cur x H; cbn [walk app] in *.
    - injection H as <-. eauto.
    - destruct cur as [|es]; [discriminate|]. destruct (str_eqb p (lit "..")).
      + destruct anc as [|a anc]; eauto.
      + destruct (aget str_eqb p es); [|discriminate]. eauto.
  Qed.
  Lemma find_child d n es : absolute d -> good_name n -> find d = Some (NDir es) -> find (child d n) = aget str_eqb n es.
  Proof.
    intros A G H. unfold FilesModel.find in *. rewrite parts_child by assumption.
    rewrite (proj1 (absolute_prefix _) A) in H. rewrite (proj1 (absolute_prefix _) (absolute_child d n A)).
    destruct (walk_app (parts d) [n] [] root (NDir es) H) as [anc' ->]. cbn [walk].
    destruct (str_eqb n (lit "..")) eqn:E; [apply str_eqb_spec in E; destruct G as (_ & _ & X & _); contradiction|].
    now destruct (aget str_eqb n es).
  Qed.
  Lemma open_bytes_norm p raw : absolute p -> (open_bytes root cwd cwd_anc (norm p) = Ok raw <-> find p = Some (NFile raw) /\ parts p <> []).
  Proof.
    intros A. unfold open_bytes. rewrite find_norm. split.
    - intros H. destruct (find p) as [[r|]|] eqn:F; try discriminate. destruct (wants_dir (norm p)) eqn:W; [discriminate|].
      injection H as ->. split; [reflexivity|]. intros E. unfold wants_dir, norm in W. rewrite E in W. cbn [join_slash] in W.
      rewrite app_nil_r in W. destruct (root_of_cases p A) as [R|R]; rewrite R in W; vm_compute in W; discriminate.
    - intros [H N]. rewrite H, wants_dir_norm by assumption. reflexivity.
  Qed.
End Look.

(** ** The listing *)
Lemma prefix_comparable (a b s : str) : (exists t, s = a ++ t) -> (exists t, s = b ++ t) -> has_prefix a b = true \/ has_prefix b a = true.
Proof.
  intros [t Ht] [u Hu]. rewrite !has_prefix_spec. revert b s t u Ht Hu. induction a as [|x a IH]; intros b s t u Ht Hu; [left; now exists b|].
  destruct b as [|y b]; [right; now exists (x :: a)|]. destruct s as [|z s]; [discriminate|]. cbn in Ht, Hu.
  injection Ht as -> Ht. injection Hu as -> Hu. destruct (IH b s t u Ht Hu) as [[v ->]|[v ->]]; [left|right]; now exists v.
Qed.
Lemma suffix_exclusive (a b s : str) : has_prefix (rev a) (rev b) = false -> has_prefix (rev b) (rev a) = false ->
  has_suffix a s = true -> has_suffix b s = true -> False.
Proof.
  intros P Q Ha Hb. apply has_suffix_spec in Ha, Hb. destruct Ha as [t Ha], Hb as [u Hb].
  assert (X : has_prefix (rev a) (rev b) = true \/ has_prefix (rev b) (rev a) = true).
  { apply (prefix_comparable _ _ (rev s)); [exists (rev t); rewrite Ha|exists (rev u); rewrite Hb]; apply rev_app_distr. }
  destruct X; congruence.
Qed.
Lemma aget_in_nodup {V} (l : list (str * V)) k v : NoDup (map fst l) -> (aget str_eqb k l = Some v <-> In (k, v) l).
Proof.
  induction l as [|[k' v'] l IH]; cbn [map fst aget In]; [split; [discriminate|tauto]|]. intros N. inversion N; subst.
  destruct (str_eqb k k') eqn:E.
  - apply str_eqb_spec in E. subst k'. split; [intros [= ->]; now left|]. intros [[= ->]|I]; [reflexivity|].
    exfalso. apply H1. apply in_map_iff. now exists (k, v).
  - rewrite IH by assumption. split; [now right|]. intros [[= -> ->]|I]; [|assumption].
    rewrite (proj2 (str_eqb_spec k k) eq_refl) in E. discriminate.
Qed.

(** ** What the parser is handed *)
Lemma numbered_cons {R} (x : R) l : numbered (x :: l) = (0, x) :: combine (map Z.of_nat (seq 1 (length l))) l.
Proof. reflexivity. Qed.
Lemma jsonl_inform_ok loads ls recs : jsonl_inform loads ls = (recs, None) ->
  exists vals : list pval, map loads ls = map Ok vals /\ recs = numbered vals.
Proof.
  intros H. destruct (gmap_numbered loads pair ls 0 _ eq_refl) as (vals & M & F).
  { change (snd (jsonl_inform loads ls) = None). now rewrite H. }
  exists vals. split; [assumption|].
  change (fst (jsonl_inform loads ls) = map (fun iv => (fst iv, snd iv)) (combine (map Z.of_nat (seq 0 (length ls))) vals)) in F.
  rewrite (map_ext _ (fun iv => iv)) in F by (now intros []). rewrite map_id, H in F. cbn [fst] in F. rewrite F. unfold numbered.
  now rewrite <- (map_length loads ls), M, map_length.
Qed.
Lemma jsonl_inform_complete loads ls (vals : list pval) : map loads ls = map Ok vals -> jsonl_inform loads ls = (numbered vals, None).
Proof.
  intros M. unfold jsonl_inform, numbered. assert (L : length ls = length vals) by (rewrite <- (map_length loads ls), M; apply map_length).
  rewrite L. clear L. generalize 0%nat as k. revert vals M. induction ls as [|l ls IH]; intros [|v vals] M k; try discriminate; [reflexivity|].
  cbn [map] in M. injection M as M1 M2. cbn [length seq map combine gmap fst snd]. rewrite M1, (IH vals M2 (S k)). reflexivity.
Qed.
Lemma web_get (decode : list (str * str) -> res pval) (gs : list (list member)) i : 0 <= i ->
  tar_getitem decode gs i = match nth_error gs (Z.to_nat i) with
                            | None => Err IndexError
                            | Some g => match tar_sample [] [] g with Ok s => decode s | Err e => Err e end end.
Proof. intros H. unfold tar_getitem. replace (i <? 0) with false by lia. cbv zeta. now replace (i <? 0) with false by lia. Qed.
Lemma zrange_seq n : forall k, zrange (Z.of_nat k) (Z.of_nat k + Z.of_nat n) = map Z.of_nat (seq k n).
Proof.
  induction n as [|n IH]; intros k; [now rewrite zrange_nil by lia|]. rewrite zrange_cons by lia. cbn [seq map]. f_equal.
  rewrite <- IH. f_equal; lia.
Qed.
Section Web.
  Context (decode : list (str * str) -> res pval).
  Definition group_value (g : list member) := match tar_sample [] [] g with Ok s => decode s | Err e => Err e end.
  Lemma web_from gs rest : forall done k, gs = done ++ rest -> k = length done ->
    gmap (fun i => match tar_getitem decode gs i with Ok s => Ok (i, s) | Err e => Err e end) (map Z.of_nat (seq k (length rest)))
    = gmap (fun il => match group_value (snd il) with Ok v => Ok (fst il, v) | Err e => Err e end)
           (combine (map Z.of_nat (seq k (length rest))) rest).
  Proof.
    induction rest as [|g rest IH]; intros done k E ->; [reflexivity|]. cbn [length seq map combine gmap fst snd].
    rewrite web_get by lia. rewrite Nat2Z.id. assert (N : nth_error gs (length done) = Some g).
    { rewrite E, nth_error_app2, Nat.sub_diag by lia. reflexivity. }
    rewrite N. fold (group_value g). destruct (group_value g); [|reflexivity].
    rewrite (IH (done ++ [g]) (S (length done))); [reflexivity|now rewrite <- app_assoc|]. rewrite app_length. cbn. lia.
  Qed.
  Lemma web_inform_eq gs : web_inform decode gs
    = gmap (fun il => match group_value (snd il) with Ok v => Ok (fst il, v) | Err e => Err e end) (numbered gs).
  Proof.
    unfold web_inform, numbered. change 0 with (Z.of_nat 0). change (Z.of_nat (length gs)) with (Z.of_nat 0 + Z.of_nat (length gs)).
    rewrite zrange_seq. now apply (web_from gs gs []).
  Qed.
  Lemma web_inform_ok gs recs : web_inform decode gs = (recs, None) ->
    exists vals, map group_value gs = map Ok vals /\ recs = numbered vals.
  Proof.
    rewrite web_inform_eq. intros H. destruct (gmap_numbered group_value pair gs 0 _ eq_refl) as (vals & M & F).
    { unfold numbered in H. now rewrite H. }
    exists vals. split; [assumption|]. unfold numbered in H. rewrite H in F. cbn [fst] in F.
    rewrite (map_ext _ (fun iv => iv)) in F by (now intros []). rewrite map_id in F. rewrite F. unfold numbered.
    now rewrite <- (map_length group_value gs), M, map_length.
  Qed.
  Lemma web_inform_complete gs vals : map group_value gs = map Ok vals -> web_inform decode gs = (numbered vals, None).
  Proof.
    rewrite web_inform_eq. intros M. unfold numbered.
    assert (L : length gs = length vals) by (rewrite <- (map_length group_value gs), M; apply map_length).
    rewrite L. clear L. generalize 0%nat as k. revert vals M. induction gs as [|l ls IH]; intros [|v vals] M k; try discriminate; [reflexivity|].
    cbn [map] in M. injection M as M1 M2. cbn [length seq map combine gmap fst snd]. rewrite M1, (IH vals M2 (S k)). reflexivity.
  Qed.
End Web.

(** ** What the parser makes of it *)
Lemma add_metadata_store pm store i kw : add_metadata pm store i kw
  = match add_metadata pm [] i kw with (l, None) => (store ++ l, None) | (_, Some e) => (store, Some e) end.
Proof. unfold add_metadata. now destruct (add_props _ _ _). Qed.
Lemma parse_one_store p pm store i v : parse_one p pm store i v
  = match parse_one p pm [] i v with (l, None) => (store ++ l, None) | (_, Some e) => (store, Some e) end.
Proof. unfold parse_one. destruct (ps_kwargs p i v); [|reflexivity]. apply add_metadata_store. Qed.
Lemma parse_one_single p pm i v l : parse_one p pm [] i v = (l, None) -> exists r, l = [r].
Proof.
  unfold parse_one, add_metadata. destruct (ps_kwargs p i v); [|discriminate]. destruct (add_props _ _ _); [|discriminate].
  intros [= <-]. eauto.
Qed.
Lemma parse_all_ok p pm recs : forall store out, parse_all p pm store recs = (out, None) ->
  exists rs, out = store ++ rs /\ Forall2 (fun iv r => parse_one p pm [] (fst iv) (snd iv) = ([r], None)) recs rs.
Proof.
  induction recs as [|[i v] recs IH]; intros store out H; cbn [parse_all] in H.
  - injection H as <-. exists []. split; [now rewrite app_nil_r|constructor].
  - rewrite parse_one_store in H. destruct (parse_one p pm [] i v) as [l [e|]] eqn:E; [discriminate|].
    destruct (parse_one_single _ _ _ _ _ E) as [r ->]. destruct (IH _ _ H) as (rs & -> & F). exists (r :: rs).
    split; [now rewrite <- app_assoc|]. constructor; assumption.
Qed.
Lemma parse_all_complete p pm recs rs : Forall2 (fun iv r => parse_one p pm [] (fst iv) (snd iv) = ([r], None)) recs rs ->
  forall store, parse_all p pm store recs = (store ++ rs, None).
Proof.
  induction 1 as [|[i v] r recs rs E F IH]; intros store; cbn [parse_all]; [now rewrite app_nil_r|].
  rewrite parse_one_store. cbn [fst snd] in E. rewrite E, IH, <- app_assoc. reflexivity.
Qed.
Lemma aget_map_name (props : list mprop) (g : mprop -> pval) q : NoDup (map p_name props) -> In q props ->
  aget str_eqb (p_name q) (map (fun p => (p_name p, g p)) props) = Some (g q).
Proof.
  induction props as [|p props IH]; intros N I; [destruct I|]. cbn [map aget] in *. inversion N; subst.
  destruct (str_eqb (p_name q) (p_name p)) eqn:E.
  - apply str_eqb_spec in E. destruct I as [->|I]; [reflexivity|]. exfalso. apply H1. rewrite <- E. now apply in_map.
  - destruct I as [->|I]; [|now apply IH]. rewrite (proj2 (str_eqb_spec _ _) eq_refl) in E. discriminate.
Qed.
(** The record of a sample has its number and a value for each property. *)
Lemma parse_one_record p pm i v r : good_schema (ps_props p) -> parser_init (ps_props p) = POk pm ->
  parse_one p pm [] i v = ([r], None) ->
  sample_number r = i /\ forall q, In q (ps_props p) -> exists w, aget str_eqb (p_name q) r = Some w.
Proof.
  intros G I H. unfold parse_one in H. destruct (ps_kwargs p i v) as [kw|e]; [|discriminate].
  destruct (add_metadata_good (ps_props p) [] i kw pm G I) as (new & E & F & S1 & _). rewrite H in *. cbn [fst snd app] in *.
  destruct (S1 eq_refl) as (r' & -> & SI). injection E as <-. split; [unfold sample_number, sample_id_key; now rewrite SI|].
  intros q Q. inversion F as [|? ? (sid & vals & -> & T) _]; subst. cbn [aget].
  destruct G as [N FG]. rewrite Forall_forall in FG. destruct (FG q Q) as (_ & _ & X & _).
  destruct (str_eqb (p_name q) (lit "sample_id")) eqn:E; [apply str_eqb_spec in E; contradiction|].
  clear - Q T. induction T as [|p0 v0 ps vs _ _ IH]; [destruct Q|]. cbn [map combine aget].
  destruct (str_eqb (p_name q) (p_name p0)) eqn:E; [eauto|]. destruct Q as [->|Q]; [|now apply IH].
  rewrite (proj2 (str_eqb_spec _ _) eq_refl) in E. discriminate.
Qed.

(** ** The names listed *)
Definition ext_exclusive (a b : str) : Prop := has_prefix (rev a) (rev b) = false /\ has_prefix (rev b) (rev a) = false.
Definition named_list (exts : list str) (es : list (str * node)) : list (str * node) :=
  flat_map (fun ext => filter (fun e => has_suffix (lit "." ++ ext) (fst e)) es) exts.
Lemma named_list_in exts es e : In e (named_list exts es) <-> In e es /\ exists ext stem, In ext exts /\ fst e = stem ++ lit "." ++ ext.
Proof.
  unfold named_list. rewrite in_flat_map. split.
  - intros (ext & I & J). apply filter_In in J. destruct J as [J S]. apply has_suffix_spec in S. destruct S as [stem S]. eauto 6.
  - intros [J (ext & stem & I & S)]. exists ext. split; [assumption|]. apply filter_In. split; [assumption|]. apply has_suffix_spec. eauto.
Qed.
Lemma NoDup_app_disjoint {A} (l l' : list A) : NoDup l -> NoDup l' -> (forall x, In x l -> In x l' -> False) -> NoDup (l ++ l').
Proof.
  induction 1 as [|x l N ND IH]; intros ND' D; [assumption|]. cbn. constructor.
  - rewrite in_app_iff. intros [I|I]; [contradiction|]. apply (D x); [now left|assumption].
  - apply IH; [assumption|]. intros y I J. apply (D y); [now right|assumption].
Qed.
Lemma NoDup_filter_fst {V} (f : str * V -> bool) l : NoDup (map fst l) -> NoDup (map fst (filter f l)).
Proof.
  induction l as [|e l IH]; [auto|]. cbn [map filter]. intros N. inversion N; subst. destruct (f e); [|now apply IH].
  cbn [map]. constructor; [|now apply IH]. intros I. apply H1. apply in_map_iff in I. destruct I as (x & E & I).
  apply filter_In in I. rewrite <- E. apply in_map, I.
Qed.
Lemma named_list_nodup exts es : NoDup (map fst es) -> ForallOrdPairs ext_exclusive (map (fun e => lit "." ++ e) exts) ->
  NoDup (map fst (named_list exts es)).
Proof.
  intros N. induction exts as [|ext exts IH]; intros P; [constructor|]. cbn [named_list flat_map map] in *. inversion P; subst.
  rewrite map_app. apply NoDup_app_disjoint; [now apply NoDup_filter_fst|now apply IH|].
  intros x I J. apply in_map_iff in I, J. destruct I as (e & <- & I), J as (e' & E & J). apply filter_In in I. destruct I as [_ S].
  apply named_list_in in J. destruct J as (_ & ext' & stem & J & T). rewrite Forall_forall in H1.
  assert (X : ext_exclusive (lit "." ++ ext) (lit "." ++ ext')) by (apply H1, in_map_iff; exists ext'; auto).
  destruct X as [X1 X2]. apply (suffix_exclusive _ _ (fst e) X1 X2 S). apply has_suffix_spec. exists stem. congruence.
Qed.
Section Listing.
  Variables (root cwd : node) (cwd_anc : list node).
  Notation find := (find root cwd cwd_anc).
  Lemma from_path_absolute p : absolute p -> from_path p = true.
  Proof. intros A. unfold from_path. apply absolute_prefix in A. rewrite A. apply orb_true_r. Qed.
  Lemma all_exts_dir d es : absolute d -> find d = Some (NDir es) -> forall exts,
    all_files_with_exts root cwd cwd_anc d exts = Ok (map (fun e => child d (fst e)) (named_list exts es)).
  Proof.
    intros A F. induction exts as [|ext exts IH]; [reflexivity|]. cbn [all_files_with_exts]. rewrite IH. unfold all_files_with_ext.
    rewrite from_path_absolute, F by assumption. cbn [negb named_list flat_map]. now rewrite map_app.
  Qed.
  Lemma all_exts_file d raw : absolute d -> find d = Some (NFile raw) -> forall exts,
    all_files_with_exts root cwd cwd_anc d exts = Ok [].
  Proof.
    intros A F. induction exts as [|ext exts IH]; [reflexivity|]. cbn [all_files_with_exts]. rewrite IH. unfold all_files_with_ext.
    rewrite from_path_absolute, F by assumption. reflexivity.
  Qed.
  Definition exts_of (c : dclass) : list str :=
    match c with JsonlDs => jsonl_exts | WebDs => [lit "tar"] | ParquetDs => [lit "parquet"] | _ => [] end.
  Definition supported (c : dclass) : Prop := c = JsonlDs \/ c = WebDs \/ c = ParquetDs.
  Lemma exts_exclusive c : ForallOrdPairs ext_exclusive (map (fun e => lit "." ++ e) (exts_of c)).
  Proof.
    destruct c; cbn [exts_of map jsonl_exts]; repeat (constructor; [repeat (constructor; [split; reflexivity|]); constructor|]); constructor.
  Qed.
  Lemma data_name_exts c n : data_name c n <-> exists ext stem, In ext (exts_of c) /\ n = stem ++ lit "." ++ ext.
  Proof.
    unfold data_name. split.
    - intros (stem & e & -> & I). exists (tl e), stem. destruct c; cbn [exts_of jsonl_exts In] in *; try tauto;
        repeat (destruct I as [<-|I]; [split; [auto 8|reflexivity]|]); destruct I.
    - intros (ext & stem & I & ->). exists stem, (lit "." ++ ext). split; [reflexivity|].
      destruct c; cbn [exts_of jsonl_exts In] in *; try tauto; repeat (destruct I as [<-|I]; [auto 8|]); destruct I.
  Qed.
  Variables (unpack : str -> str -> res str) (loads : str -> res pval) (parquet_open : str -> res (list (list pval))).
  Notation iterate_files := (iterate_files root cwd cwd_anc unpack loads parquet_open).
  Lemma iterate_dir c loc es : supported c -> absolute loc -> find loc = Some (NDir es) ->
    iterate_files c loc = Ok (map (fun e => child loc (fst e)) (named_list (exts_of c) es)).
  Proof.
    intros S A F. assert (D : is_dir root cwd cwd_anc loc = Ok true).
    { unfold is_dir. rewrite from_path_absolute, F by assumption. reflexivity. }
    destruct S as [-> | [-> | ->]]; cbn [FilesModel.iterate_files exts_of]; rewrite D; cbn [negb andb].
    - now rewrite (all_exts_dir loc es) by assumption.
    - unfold all_files_with_ext. rewrite from_path_absolute, F by assumption. cbn [negb named_list flat_map app]. now rewrite app_nil_r.
    - unfold all_files_with_ext. rewrite from_path_absolute, F by assumption. cbn [negb named_list flat_map]. now rewrite app_nil_r.
  Qed.
  Lemma listing_data_files c loc es : absolute loc -> find loc = Some (NDir es) -> good_dir es ->
    data_files root cwd cwd_anc c loc (map (fun e => child loc (fst e)) (named_list (exts_of c) es)).
  Proof.
    intros A F [N G]. assert (ND := named_list_nodup (exts_of c) es N (exts_exclusive c)).
    assert (GN : forall e, In e (named_list (exts_of c) es) -> good_name (fst e)).
    { intros e I. apply named_list_in in I. rewrite Forall_forall in G. apply G, in_map, I. }
    unfold data_files. split.
    - revert ND GN. generalize (named_list (exts_of c) es) as l. clear - A. induction l as [|e l IH]; intros ND GN; [constructor|].
      cbn [map] in *. inversion ND; subst. constructor; [|apply IH; [assumption|]; intros; apply GN; now right].
      intros I. apply in_map_iff in I. destruct I as (e' & E & I). apply child_inj in E; [|apply GN; now right|apply GN; now left].
      apply H1. rewrite <- E. now apply in_map.
    - rewrite F. exists (map fst (named_list (exts_of c) es)). split; [assumption|]. split.
      + intros n. rewrite data_name_exts, !in_map_iff. split.
        * intros (e & <- & I). apply named_list_in in I. destruct I as (I & ext & stem & X & Y). split; [eauto|]. eauto.
        * intros ((e & <- & I) & ext & stem & X & Y). exists e. split; [reflexivity|]. apply named_list_in. eauto.
      + clear ND. assert (IN : forall e, In e (named_list (exts_of c) es) -> In e es) by (intros e I; apply named_list_in in I; apply I).
        revert GN IN. generalize (named_list (exts_of c) es) as l.
        induction l as [|e l IH]; intros GN IN; [constructor|]. cbn [map]. constructor.
        * exists (snd e). assert (I : In e es) by (apply IN; now left). split; [now destruct e|].
          rewrite (find_child root cwd cwd_anc loc (fst e) es) by (try assumption; apply GN; now left).
          apply aget_in_nodup; [assumption|]. now destruct e.
        * apply IH; intros; [apply GN|apply IN]; now right.
  Qed.
  Lemma iterate_file c loc raw : supported c -> absolute loc -> find loc = Some (NFile raw) ->
    iterate_files c loc = Ok [loc] \/ exists e, iterate_files c loc = Err e.
  Proof.
    intros S A F. assert (D : is_dir root cwd cwd_anc loc = Ok false).
    { unfold is_dir. rewrite from_path_absolute, F by assumption. reflexivity. }
    destruct S as [-> | [-> | ->]]; cbn [FilesModel.iterate_files exts_of]; rewrite D; cbn [negb andb].
    - destruct (is_valid_jsonl _ _ _ _ _ _); cbn [negb]; [|right; eauto]. rewrite (all_exts_file loc raw) by assumption. now left.
    - unfold all_files_with_ext. rewrite from_path_absolute, F by assumption. now left.
    - destruct (is_valid_parquet _ _ _ _ _); [now left|right; eauto].
  Qed.
  Lemma iterate_missing c loc : find loc = None \/ from_path loc = false -> exists e, iterate_files c loc = Err e.
  Proof.
    intros H. assert (D : exists e, is_dir root cwd cwd_anc loc = Err e).
    { unfold is_dir. destruct (from_path loc); cbn [negb]; [|eauto]. destruct H as [->|H]; [eauto|discriminate]. }
    destruct D as [e D]. destruct c; cbn [FilesModel.iterate_files]; try rewrite D; eauto.
  Qed.
  Lemma iterate_ok c loc locs : absolute loc -> (forall es, find loc = Some (NDir es) -> good_dir es) ->
    iterate_files c loc = Ok locs -> supported c /\ data_files root cwd cwd_anc c loc locs.
  Proof.
    intros A G H. assert (S : supported c) by (destruct c; cbn in H; try discriminate; unfold supported; auto).
    split; [assumption|]. destruct (find loc) as [[raw|es]|] eqn:F.
    - destruct (iterate_file c loc raw S A F) as [E|[e E]]; rewrite E in H; [|discriminate]. injection H as <-.
      split; [repeat constructor; auto|]. now rewrite F.
    - rewrite (iterate_dir c loc es S A F) in H. injection H as <-. apply listing_data_files; auto.
    - destruct (iterate_missing c loc (or_introl F)) as [e E]. rewrite E in H. discriminate.
  Qed.
End Listing.
