(** C61: the text of a query determines the query. *)
From Coq Require Import String Eqdep_dec.
From Verif Require Import Base MixtureKeyModel ParserModel ChunkGenModel ChunkerModel SerialModel SpecSerial MdcModel SpecMdc CacheModel SpecCache PropertiesCache
  TextModel SpecText TextProofs.
Open Scope Z_scope.

(** ** C61 *)
(** Two queries built by calls of [select] (arguments: any nesting of tuples, lists, strings, numbers, booleans and None)
    whose texts are equal have the same selects with the same conditions in the same order.  Query texts are all the cache
    looks at. *)
Theorem C61_text_determines_selects {F} (frepr : F -> str) printable (a b : list (pv F)) :
  float_repr_ok frepr -> forallb valid_pv a = true -> forallb valid_pv b = true ->
  query_str frepr printable (build a) = query_str frepr printable (build b) -> map conditions_of a = map conditions_of b.
Proof.
  intros Hf Ha Hb H.
  assert (Hadd : forall l cs ch, fold_left add_select l (Some (Node cs ch)) = Some (Node (F := F) cs (ch ++ map (fun x => Node (conditions_of x) []) l))).
  { induction l as [|x l IH]; intros cs ch; cbn [fold_left map]; [rewrite app_nil_r; reflexivity|]. cbn [add_select]. rewrite IH, <- app_assoc. reflexivity. }
  assert (Hval : forall l, forallb (valid_pv (F := F)) l = true -> valid_root (build l) = true).
  { assert (Hc : forall x : pv F, valid_pv x = true -> forallb valid_pv (conditions_of x) = true).
    { intros x Hx. destruct x; cbn [conditions_of forallb]; try reflexivity; [exact Hx|]. rewrite Hx. reflexivity. }
    intros [|x l] Hl; [reflexivity|]. cbn in Hl. apply andb_prop in Hl as [Hx Hl]. unfold build. cbn [fold_left add_select]. rewrite Hadd. cbn [valid_root valid_node app].
    rewrite (Hc x Hx). cbn [andb]. apply forallb_forall. intros n Hn. apply in_map_iff in Hn as (y & <- & Hy). cbn [valid_node forallb].
    rewrite andb_true_r. apply Hc. rewrite forallb_forall in Hl. auto. }
  apply (query_str_inj frepr printable Hf _ _ (Hval a Ha) (Hval b Hb)) in H. unfold build in H.
  destruct a as [|x a], b as [|y b]; cbn [fold_left add_select] in H; rewrite ?Hadd in H; try discriminate; [reflexivity|].
  injection H as Hx H. cbn [map]. f_equal; [exact Hx|]. cbn [app] in H.
  assert (E : forall l l' : list (pv F), map (fun x => Node (conditions_of x) []) l = map (fun x => Node (conditions_of x) []) l' -> map conditions_of l = map conditions_of l').
  { induction l as [|u l IH]; intros [|v l'] E; try discriminate; [reflexivity|]. injection E as E1 E2. cbn. f_equal; auto. }
  apply E, H.
Qed.

(** The same for whole plans, nested ones included. *)
Theorem C61_text_determines_plan {F} (frepr : F -> str) printable (r r' : option (node F)) :
  float_repr_ok frepr -> valid_root r = true -> valid_root r' = true ->
  query_str frepr printable r = query_str frepr printable r' -> r = r'.
Proof. intros Hf. apply query_str_inj, Hf. Qed.

(** So what the cache serves for a query is the answer of that very query (C34 with its hypothesis on texts discharged). *)
Definition query_t (F : Type) : Type := {r : option (node F) | valid_root r = true}.
Definition text_of {F} (frepr : F -> str) printable (q : query_t F) : str := query_str frepr printable (proj1_sig q).
Theorem C61_cache_serves_the_query {F M} (frepr : F -> str) printable sha
  (executes : view_t -> query_t F -> M * pindex -> Prop) castable metadata_of k q c' m p :
  float_repr_ok frepr -> returns_indexes executes ->
  hist (text_of frepr printable) sha executes castable metadata_of false false false k ->
  gets sha (c_cache k) (version (c_db k)) (text_of frepr printable q) c' (Some (Served (m, p))) ->
  exists idx, executes (view (c_db k)) q (m, idx) /\ akeys p = akeys idx /\ same_index p idx.
Proof.
  intros Hf Hr Hh Hg. eapply C34_served_exact_partial; try eassumption.
  intros [a Ha] [b Hb] E. unfold text_of in E. cbn in E. apply (query_str_inj frepr printable Hf a b Ha Hb) in E. subst b. f_equal.
  apply UIP_dec. decide equality.
Qed.

(** ** Examples *)
Definition ex_frepr (n : nat) : str := 46 :: repeat 49 n.
Example C61_float_example : float_repr_ok ex_frepr.
Proof.
  split.
  - intros a b H. unfold ex_frepr in H. injection H as H. apply (f_equal (@length Z)) in H. rewrite !repeat_length in H. exact H.
  - intros n. split; [|reflexivity]. cbn. apply forallb_forall. intros x Hx. apply repeat_spec in Hx. subst. reflexivity.
Qed.
(** select(("language", "==", "Go")).select([("license", "!=", ["it's", 3]), ("x", ">", -12)]) *)
Definition ex_args : list (pv nat) :=
  [VTuple [VStr (lit "language"); VStr (lit "=="); VStr (lit "Go")];
   VList [VTuple [VStr (lit "license"); VStr (lit "!="); VList [VStr (lit "it's"); VInt 3]]; VTuple [VStr (lit "x"); VStr (lit ">"); VInt (-12)]]].
Example C61_text_example : forallb valid_pv ex_args = true /\
  query_str ex_frepr (fun _ => false) (build ex_args)
  = lit "select<>([('language', '==', 'Go')])" ++ [10] ++ lit "-> select<>([('license', '!=', [""it's"", 3]), ('x', '>', -12)])".
Proof. vm_compute. auto. Qed.
(** A string that looks like the rest of a query is escaped. *)
Example C61_escape_example :
  query_str ex_frepr (fun _ => false) (build [VTuple [VStr (lit "a" ++ [39; 41; 93; 41; 10; 34; 233; 8232])]])
  = lit "select<>([('a\')])\n""\xe9\u2028',)])".
Proof. vm_compute. reflexivity. Qed.
Print Assumptions C61_text_determines_selects. Print Assumptions C61_text_determines_plan. Print Assumptions C61_cache_serves_the_query.
