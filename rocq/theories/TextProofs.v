(** The text of a query determines it. *)
From Coq Require Import String DecimalZ.
From Verif Require Import Base MixtureKeyModel ParserModel TextModel SpecText.
From Coq Require Import ZifyBool ZifyNat.
Open Scope Z_scope.

(** ** Pieces *)
Lemma uchars_inj u : forall u', uchars u = uchars u' -> u = u'.
Proof. induction u; intros [] H; cbn in H; try discriminate; try reflexivity; injection H as H; f_equal; auto. Qed.
Lemma uchars_digits u : Forall (fun c => 48 <= c <= 57) (uchars u).
Proof. induction u; cbn; constructor; auto; lia. Qed.
Lemma int_repr_inj z z' : int_repr z = int_repr z' -> z = z'.
Proof.
  unfold int_repr. intros H. rewrite <- (DecimalZ.of_to z), <- (DecimalZ.of_to z'). f_equal.
  destruct (Z.to_int z) as [u|u], (Z.to_int z') as [u'|u'].
  - f_equal. apply uchars_inj, H.
  - exfalso. pose proof (uchars_digits u) as Hd. rewrite H in Hd. inversion Hd. lia.
  - exfalso. pose proof (uchars_digits u') as Hd. rewrite <- H in Hd. inversion Hd. lia.
  - injection H as H. f_equal. apply uchars_inj, H.
Qed.
Lemma int_repr_chars z : Forall (fun c => 48 <= c <= 57 \/ c = 45) (int_repr z) /\ int_repr z <> [].
Proof.
  unfold int_repr. pose proof (DecimalZ.of_to z) as Hz. destruct (Z.to_int z) as [u|u] eqn:E; (split; [|]).
  - eapply Forall_impl; [|apply uchars_digits]. cbn. lia.
  - destruct u; cbn; try discriminate. exfalso. cbn in Hz. subst z. discriminate.
  - constructor; [lia|]. eapply Forall_impl; [|apply uchars_digits]. cbn. lia.
  - discriminate.
Qed.

(** Hexadecimal. *)
Lemma hex_length k : forall c, length (hex k c) = k.
Proof. induction k as [|k IH]; intros c; cbn; [reflexivity|]. rewrite app_length, IH. cbn. lia. Qed.
Lemma hexdigit_inj a b : 0 <= a < 16 -> 0 <= b < 16 -> hexdigit a = hexdigit b -> a = b.
Proof. unfold hexdigit. intros. destruct (a <? 10) eqn:?, (b <? 10) eqn:?; lia. Qed.
Lemma hex_inj k : forall c c', 0 <= c < 16 ^ Z.of_nat k -> 0 <= c' < 16 ^ Z.of_nat k -> hex k c = hex k c' -> c = c'.
Proof.
  induction k as [|k IH]; intros c c' Hc Hc' H.
  - cbn in Hc, Hc'. lia.
  - cbn [hex] in H. replace (Z.of_nat (S k)) with (1 + Z.of_nat k) in Hc, Hc' by lia. rewrite Z.pow_add_r in Hc, Hc' by lia.
    assert (Hl : length (hex k (c / 16)) = length (hex k (c' / 16))) by (rewrite !hex_length; reflexivity).
    destruct (app_inj_tail _ _ _ _ H) as [H1 H2].
    assert (H3 : c / 16 = c' / 16).
    { apply IH; [| |exact H1]; (split; [apply Z.div_pos; lia|apply Z.div_lt_upper_bound; lia]). }
    assert (H4 : c mod 16 = c' mod 16).
    { apply hexdigit_inj; [apply Z.mod_pos_bound; lia|apply Z.mod_pos_bound; lia|exact H2]. }
    rewrite (Z.div_mod c 16), (Z.div_mod c' 16) by lia. lia.
Qed.
Lemma app_eq_len {A} (a b r r' : list A) : length a = length b -> a ++ r = b ++ r' -> a = b /\ r = r'.
Proof.
  revert b. induction a as [|x a IH]; intros [|y b] Hl H; try discriminate; [auto|]. cbn in H. injection H as -> H.
  destruct (IH b) as [-> ->]; auto.
Qed.

Section Strings.
  Variable printable : Z -> bool.

  Lemma esc_prefix q c c' r r' : q = 34 \/ q = 39 -> 0 <= c < 1114112 -> 0 <= c' < 1114112 ->
    esc printable q c ++ r = esc printable q c' ++ r' -> c = c' /\ r = r'.
  Proof.
    intros Hq Hc Hc' H. unfold esc in H.
    assert (Hh : forall k b, b = 16 ^ Z.of_nat k -> 0 <= c -> c < b -> 0 <= c' -> c' < b -> hex k c ++ r = hex k c' ++ r' -> c = c' /\ r = r').
    { intros k b -> H1 H2 H3 H4 H5. destruct (app_eq_len (hex k c) (hex k c') r r') as [Ha Hb].
      - rewrite !hex_length. reflexivity.
      - exact H5.
      - split; [apply (hex_inj k); auto|exact Hb]. }
    destruct ((c =? q) || (c =? 92)) eqn:E1; [|destruct (c =? 9) eqn:E2; [|destruct (c =? 10) eqn:E3; [|destruct (c =? 13) eqn:E4; [|
      destruct ((c <? 32) || (c =? 127)) eqn:E5; [|destruct (c <? 127) eqn:E6; [|destruct (printable c) eqn:E7; [|
      destruct (c <=? 255) eqn:E8; [|destruct (c <=? 65535) eqn:E9]]]]]]]];
    (destruct ((c' =? q) || (c' =? 92)) eqn:F1; [|destruct (c' =? 9) eqn:F2; [|destruct (c' =? 10) eqn:F3; [|destruct (c' =? 13) eqn:F4; [|
      destruct ((c' <? 32) || (c' =? 127)) eqn:F5; [|destruct (c' <? 127) eqn:F6; [|destruct (printable c') eqn:F7; [|
      destruct (c' <=? 255) eqn:F8; [|destruct (c' <=? 65535) eqn:F9]]]]]]]]);
    cbn [app] in H; try discriminate H; try (injection H as H H'; split; [lia|congruence]); try (exfalso; injection H as H H'; lia);
    try (exfalso; injection H as H; lia);
    try match type of H with ?a :: ?b :: ?x = ?a :: ?b :: ?y => assert (H0 : x = y) by congruence; clear H; rename H0 into H end;
    try (apply (Hh 2%nat 256 eq_refl); try lia; exact H); try (apply (Hh 4%nat 65536 eq_refl); try lia; exact H); try (apply (Hh 8%nat 4294967296 eq_refl); try lia; exact H);
    try (split; [lia|congruence]); try (exfalso; lia).
  Qed.
  Lemma esc_head q c r : q = 34 \/ q = 39 -> exists x l, esc printable q c ++ r = x :: l /\ x <> q.
  Proof.
    intros Hq. unfold esc.
    destruct ((c =? q) || (c =? 92)) eqn:E1; [|destruct (c =? 9) eqn:E2; [|destruct (c =? 10) eqn:E3; [|destruct (c =? 13) eqn:E4; [|
      destruct ((c <? 32) || (c =? 127)) eqn:E5; [|destruct (c <? 127) eqn:E6; [|destruct (printable c) eqn:E7; [|
      destruct (c <=? 255) eqn:E8; [|destruct (c <=? 65535) eqn:E9]]]]]]]]; cbn [app]; do 2 eexists; (split; [reflexivity|lia]).
  Qed.
  Lemma body_prefix q s : q = 34 \/ q = 39 -> forall s' r r', forallb code_point s = true -> forallb code_point s' = true ->
    flat_map (esc printable q) s ++ q :: r = flat_map (esc printable q) s' ++ q :: r' -> s = s' /\ r = r'.
  Proof.
    intros Hq. induction s as [|c s IH]; intros [|c' s'] r r' Hv Hv' H; cbn [flat_map app] in H.
    - injection H as ->. auto.
    - exfalso. rewrite <- app_assoc in H. destruct (esc_head q c' (flat_map (esc printable q) s' ++ q :: r') Hq) as (x & l & E & Hx).
      rewrite E in H. injection H as H _. congruence.
    - exfalso. rewrite <- app_assoc in H. destruct (esc_head q c (flat_map (esc printable q) s ++ q :: r) Hq) as (x & l & E & Hx).
      rewrite E in H. injection H as H _. congruence.
    - rewrite <- !app_assoc in H. cbn in Hv, Hv'. apply andb_prop in Hv as [Hc Hv]. apply andb_prop in Hv' as [Hc' Hv'].
      unfold code_point in Hc, Hc'. destruct (esc_prefix q c c' _ _ Hq ltac:(lia) ltac:(lia) H) as [-> H'].
      destruct (IH s' r r' Hv Hv' H') as [-> ->]. auto.
  Qed.
  Lemma quote_cases s : quote_of s = 34 \/ quote_of s = 39.
  Proof. unfold quote_of. destruct (_ && _); auto. Qed.
  Lemma str_repr_prefix s s' r r' : forallb code_point s = true -> forallb code_point s' = true ->
    str_repr printable s ++ r = str_repr printable s' ++ r' -> s = s' /\ r = r'.
  Proof.
    intros Hv Hv' H. unfold str_repr in H. cbn [app] in H. injection H as Hq H. rewrite <- !app_assoc in H. rewrite <- Hq in H.
    apply (body_prefix (quote_of s) s (quote_cases s) s' r r' Hv Hv' H).
  Qed.
End Strings.

(** ** Values *)
Definition delim (r : str) : Prop := match r with [] => True | c :: _ => c = 44 \/ c = 93 \/ c = 41 end.
Lemma span_eq (P : Z -> Prop) w : forall w' r r', Forall P w -> Forall P w' -> (forall c, c = 44 \/ c = 93 \/ c = 41 -> ~ P c) ->
  delim r -> delim r' -> w ++ r = w' ++ r' -> w = w' /\ r = r'.
Proof.
  induction w as [|x w IH]; intros [|y w'] r r' Hw Hw' Hd Hr Hr' H; cbn [app] in H.
  - auto.
  - exfalso. subst r. inversion Hw'; subst. apply (Hd y Hr). assumption.
  - exfalso. subst r'. inversion Hw; subst. apply (Hd x Hr'). assumption.
  - injection H as -> H. inversion Hw; inversion Hw'; subst. destruct (IH w' r r') as [-> ->]; auto.
Qed.

Section Values.
  Context {F : Type}.
  Variable frepr : F -> str.
  Variable printable : Z -> bool.
  Hypothesis Hfl : float_repr_ok frepr.
  Notation repr := (repr frepr printable).

  Fixpoint pv_size (v : pv F) : nat :=
    match v with VList l | VTuple l => S (fold_right (fun x a => pv_size x + a)%nat O l) | _ => O end.
  Lemma size_in x l : In x l -> (pv_size x <= fold_right (fun x a => pv_size x + a)%nat O l)%nat.
  Proof. induction l as [|y l IH]; cbn; [intros []|]. intros [->|H]; [lia|]. specialize (IH H). lia. Qed.

  Definition hc (c : Z) : nat :=
    if num_char c then 1 else if (c =? 34) || (c =? 39) then 2 else if c =? 91 then 3 else if c =? 40 then 4
    else if c =? 78 then 5 else if c =? 84 then 6 else if c =? 70 then 7 else 0.
  Definition cls (v : pv F) : nat :=
    match v with VNone => 5 | VBool true => 6 | VBool false => 7 | VInt _ | VFloat _ => 1 | VStr _ => 2 | VList _ => 3 | VTuple _ => 4 end.
  Lemma num_char_int z : Forall (fun c => num_char c = true) (int_repr z) /\ int_repr z <> [].
  Proof.
    destruct (int_repr_chars z) as [H H']. split; [|exact H']. eapply Forall_impl; [|exact H]. intros c. cbv beta.
    intros [Hc| ->]; [|reflexivity]. unfold num_char. replace ((48 <=? c) && (c <=? 57)) with true by lia. reflexivity.
  Qed.
  Lemma num_char_float f : Forall (fun c => num_char c = true) (frepr f) /\ frepr f <> [].
  Proof.
    destruct (proj2 Hfl f) as [H H']. split; [rewrite Forall_forall; rewrite forallb_forall in H; exact H|]. intros E. rewrite E in H'. discriminate.
  Qed.
  Lemma head_class v : exists c w, repr v = c :: w /\ hc c = cls v.
  Proof.
    destruct v as [|[|]|z|f|s|l|l]; cbn [TextModel.repr cls].
    - do 2 eexists. split; reflexivity.
    - do 2 eexists. split; reflexivity.
    - do 2 eexists. split; reflexivity.
    - destruct (num_char_int z) as [H H']. destruct (int_repr z) as [|c w]; [contradiction|]. exists c, w. split; [reflexivity|].
      inversion H; subst. unfold hc. replace (num_char c) with true. reflexivity.
    - destruct (num_char_float f) as [H H']. destruct (frepr f) as [|c w]; [contradiction|]. exists c, w. split; [reflexivity|].
      inversion H; subst. unfold hc. replace (num_char c) with true. reflexivity.
    - unfold str_repr. do 2 eexists. split; [reflexivity|]. destruct (quote_cases s) as [->| ->]; reflexivity.
    - do 2 eexists. split; reflexivity.
    - do 2 eexists. split; reflexivity.
  Qed.
  Lemma int_float z f : int_repr z <> frepr f.
  Proof.
    intros E. destruct (proj2 Hfl f) as [_ H]. rewrite <- E in H. destruct (int_repr_chars z) as [Hc _].
    apply existsb_exists in H as (c & Hin & Hm). rewrite Forall_forall in Hc. specialize (Hc c Hin). cbn in Hm. lia.
  Qed.

  Definition closing (t : str) : Prop :=
    match t with c :: t' => c = 93 \/ c = 41 \/ (c = 44 /\ match t' with d :: _ => d = 41 | [] => False end) | [] => False end.
  Lemma closing_delim t : closing t -> delim t.
  Proof. destruct t as [|c t]; cbn; [auto|]. intros [->|[->|[-> _]]]; auto. Qed.

  Lemma commas_prefix l : forall l' t t',
    (forall x, In x l -> forall x' r r', valid_pv x = true -> valid_pv x' = true -> delim r -> delim r' -> repr x ++ r = repr x' ++ r' -> x = x' /\ r = r') ->
    forallb valid_pv l = true -> forallb valid_pv l' = true -> closing t -> closing t' ->
    commas (map repr l) ++ t = commas (map repr l') ++ t' -> l = l' /\ t = t'.
  Proof.
    assert (Hhd : forall v r t, closing t -> repr v ++ r = t -> False).
    { intros v r t Ht E. destruct (head_class v) as (c & w & Ew & Ec). rewrite Ew in E. cbn [app] in E. subst t. cbn in Ht.
      destruct Ht as [->|[->|[-> _]]]; destruct v as [|[|]| | | | |]; discriminate. }
    assert (Hcons : forall (v : str) (l : list str) t, exists r, commas (v :: l) ++ t = v ++ r /\ (l = [] -> r = t) /\ (l <> [] -> r = [44; 32] ++ commas l ++ t)).
    { intros v [|w m] t.
      - exists t. split; [reflexivity|]. split; [auto|congruence].
      - exists ([44; 32] ++ commas (w :: m) ++ t). split; [cbn [commas]; rewrite <- !app_assoc; reflexivity|]. split; [discriminate|auto]. }
    induction l as [|x l IH]; intros [|x' l'] t t' HP Hv Hv' Ht Ht' H.
    - auto.
    - exfalso. cbn [map] in H. destruct (Hcons (repr x') (map repr l') t') as (r & E & _). rewrite E in H. cbn in H. eapply Hhd; [exact Ht|]. symmetry. exact H.
    - exfalso. cbn [map] in H. destruct (Hcons (repr x) (map repr l) t) as (r & E & _). rewrite E in H. cbn in H. eapply Hhd; [exact Ht'|exact H].
    - cbn [map] in H. destruct (Hcons (repr x) (map repr l) t) as (r & E & Er1 & Er2). destruct (Hcons (repr x') (map repr l') t') as (r' & E' & Er1' & Er2').
      rewrite E, E' in H. cbn in Hv, Hv'. apply andb_prop in Hv as [Hx Hv]. apply andb_prop in Hv' as [Hx' Hv'].
      assert (Hd : delim r) by (destruct l; [rewrite (Er1 eq_refl); apply closing_delim, Ht|rewrite Er2 by discriminate; cbn; auto]).
      assert (Hd' : delim r') by (destruct l'; [rewrite (Er1' eq_refl); apply closing_delim, Ht'|rewrite Er2' by discriminate; cbn; auto]).
      destruct (HP x (or_introl eq_refl) x' r r' Hx Hx' Hd Hd' H) as [-> Hr]. subst r'.
      destruct l as [|y l], l' as [|y' l'].
      + rewrite (Er1 eq_refl) in *. rewrite (Er1' eq_refl) in *. auto.
      + exfalso. specialize (Er1 eq_refl). specialize (Er2' ltac:(discriminate)). rewrite Er1 in Er2'. rewrite Er2' in Ht. cbn in Ht. lia.
      + exfalso. specialize (Er1' eq_refl). specialize (Er2 ltac:(discriminate)). rewrite Er1' in Er2. rewrite Er2 in Ht'. cbn in Ht'. lia.
      + specialize (Er2 ltac:(discriminate)). specialize (Er2' ltac:(discriminate)). rewrite Er2 in Er2'. cbn [app] in Er2'.
        injection Er2' as Er2'. destruct (IH (y' :: l') t t') as [El Et]; [intros z Hz; apply HP; right; exact Hz|exact Hv|exact Hv'|exact Ht|exact Ht'|exact Er2'|].
        rewrite El. auto.
  Qed.

  Lemma repr_prefix k : forall v, (pv_size v < k)%nat -> forall v' r r', valid_pv v = true -> valid_pv v' = true -> delim r -> delim r' ->
    repr v ++ r = repr v' ++ r' -> v = v' /\ r = r'.
  Proof.
    induction k as [|k IH]; intros v Hk v' r r' Hv Hv' Hr Hr' H; [lia|].
    assert (Hcls : cls v = cls v').
    { destruct (head_class v) as (c & w & E & Ec). destruct (head_class v') as (c' & w' & E' & Ec'). rewrite E, E' in H.
      injection H as -> _. congruence. }
    assert (Hnum : forall w w', Forall (fun c => num_char c = true) w -> Forall (fun c => num_char c = true) w' -> w ++ r = w' ++ r' -> w = w' /\ r = r').
    { intros w w' Hw Hw' E. apply (span_eq (fun c => num_char c = true) w w' r r'); auto. intros c [->|[->| ->]]; discriminate. }
    destruct v as [|[|]|z|f|s|l|l], v' as [|[|]|z'|f'|s'|l'|l']; cbn [cls] in Hcls; try discriminate; cbn [TextModel.repr] in H.
    - apply app_inv_head in H. auto.
    - apply app_inv_head in H. auto.
    - apply app_inv_head in H. auto.
    - destruct (Hnum _ _ (proj1 (num_char_int z)) (proj1 (num_char_int z')) H) as [E ->]. apply int_repr_inj in E. subst. auto.
    - destruct (Hnum _ _ (proj1 (num_char_int z)) (proj1 (num_char_float f')) H) as [E ->]. exfalso. eapply int_float. exact E.
    - destruct (Hnum _ _ (proj1 (num_char_float f)) (proj1 (num_char_int z')) H) as [E ->]. exfalso. eapply int_float. symmetry. exact E.
    - destruct (Hnum _ _ (proj1 (num_char_float f)) (proj1 (num_char_float f')) H) as [E ->]. apply (proj1 Hfl) in E. subst. auto.
    - destruct (str_repr_prefix printable s s' r r' Hv Hv' H) as [-> ->]. auto.
    - cbn [app] in H. injection H as H. rewrite <- !app_assoc in H. cbn [app] in H.
      destruct (commas_prefix l l' (93 :: r) (93 :: r')) as [-> Ht]; auto; try (cbn; auto; fail).
      + intros x Hx. apply IH. pose proof (size_in x l Hx). cbn [pv_size] in Hk. lia.
      + injection Ht as ->. auto.
    - cbn [app] in H. injection H as H. rewrite <- !app_assoc in H. cbn [app] in H.
      destruct (commas_prefix l l' (match l with [_] => [44] | _ => [] end ++ 41 :: r) (match l' with [_] => [44] | _ => [] end ++ 41 :: r')) as [-> Ht]; auto.
      + intros x Hx. apply IH. pose proof (size_in x l Hx). cbn [pv_size] in Hk. lia.
      + destruct l as [|? [|]]; cbn; auto.
      + destruct l' as [|? [|]]; cbn; auto.
      + apply app_inv_head in Ht. injection Ht as ->. auto.
  Qed.

  (** ** Plans *)
  Fixpoint lead (r : str) : nat := match r with 45 :: r' => S (lead r') | _ => O end.
  Lemma lead_repeat k c r : c <> 45 -> lead (repeat 45 k ++ c :: r) = k.
  Proof.
    intros Hc. induction k as [|k IH]; cbn [repeat app].
    - cbn [lead]. destruct c as [|p|p]; try reflexivity. destruct p; try reflexivity. destruct p; try reflexivity. destruct p; try reflexivity.
      destruct p; try reflexivity. destruct p; try reflexivity. destruct p; try reflexivity. congruence.
    - cbn [lead]. rewrite IH. reflexivity.
  Qed.
  Definition low (level : nat) (r : str) : Prop := r = [] \/ (lead r <= level)%nat.
  Fixpoint nsize (n : node F) : nat := match n with Node _ ch => S (fold_right (fun x a => nsize x + a)%nat O ch) end.
  Lemma nsize_in x l : In x l -> (nsize x <= fold_right (fun x a => nsize x + a)%nat O l)%nat.
  Proof. induction l as [|y l IH]; cbn; [intros []|]. intros [->|H]; [lia|]. specialize (IH H). lia. Qed.
  Lemma node_lead level n r : node_string frepr printable level n ++ r <> [] /\ lead (node_string frepr printable level n ++ r) = level.
  Proof.
    destruct n as [cs ch]. cbn [node_string]. destruct level as [|level].
    - split; [discriminate|reflexivity].
    - rewrite <- !app_assoc. cbn [app]. split; [discriminate|]. apply (lead_repeat (S level)). discriminate.
  Qed.

  Lemma node_prefix k : forall n, (nsize n < k)%nat -> forall level n' r r', valid_node n = true -> valid_node n' = true -> low level r -> low level r' ->
    node_string frepr printable level n ++ r = node_string frepr printable level n' ++ r' -> n = n' /\ r = r'.
  Proof.
    induction k as [|k IH]; intros n Hk level n' r r' Hv Hv' Hr Hr' H; [lia|].
    destruct n as [cs ch], n' as [cs' ch']. cbn [node_string] in H. cbn in Hv, Hv'. apply andb_prop in Hv as [Hcs Hch]. apply andb_prop in Hv' as [Hcs' Hch'].
    rewrite <- !app_assoc in H. apply app_inv_head in H. apply app_inv_head in H. unfold node_str in H. rewrite <- !app_assoc in H. apply app_inv_head in H.
    assert (Hd : forall x, delim ([41] ++ x)) by (intros x; cbn; auto).
    destruct (repr_prefix (S (pv_size (VList cs))) (VList cs) ltac:(lia) (VList cs') _ _ Hcs Hcs' (Hd _) (Hd _) H) as [E H'].
    injection E as <-. cbn [app] in H'. injection H' as H'.
    assert (Hfor : forall l l', (forall x, In x l -> (nsize x < k)%nat) -> forallb valid_node l = true -> forallb valid_node l' = true ->
              flat_map (node_string frepr printable (S level)) l ++ r = flat_map (node_string frepr printable (S level)) l' ++ r' -> l = l' /\ r = r').
    { assert (Hlow : forall l x, low level x -> low (S level) (flat_map (node_string frepr printable (S level)) l ++ x)).
      { intros [|y l] x Hx; cbn [flat_map app]; [destruct Hx; [left; assumption|right; lia]|]. rewrite <- app_assoc. right. rewrite (proj2 (node_lead _ _ _)). lia. }
      induction l as [|x l IHl]; intros [|x' l'] Hs Hx Hx' E; cbn [flat_map app] in E.
      - auto.
      - exfalso. rewrite <- app_assoc in E. destruct (node_lead (S level) x' (flat_map (node_string frepr printable (S level)) l' ++ r')) as [H1 H2].
        rewrite <- E in H1, H2. destruct Hr; [congruence|lia].
      - exfalso. rewrite <- app_assoc in E. destruct (node_lead (S level) x (flat_map (node_string frepr printable (S level)) l ++ r)) as [H1 H2].
        rewrite E in H1, H2. destruct Hr'; [congruence|lia].
      - rewrite <- !app_assoc in E. cbn in Hx, Hx'. apply andb_prop in Hx as [Hx1 Hx2]. apply andb_prop in Hx' as [Hx1' Hx2'].
        destruct (IH x (Hs x (or_introl eq_refl)) (S level) x' _ _ Hx1 Hx1' (Hlow l r Hr) (Hlow l' r' Hr') E) as [-> E'].
        destruct (IHl l') as [-> ->]; auto. intros y Hy. apply Hs. right. exact Hy. }
    destruct (Hfor ch ch') as [-> ->]; auto.
    intros x Hx. pose proof (nsize_in x ch Hx). cbn [nsize] in Hk. lia.
  Qed.

  (** The text ends with ")" and a newline, and starts with an "s": stripping takes off the newline. *)
  Lemma node_string_ends level n : exists w, node_string frepr printable level n = w ++ [41; 10].
  Proof.
    revert level. assert (Hn : forall k n, (nsize n < k)%nat -> forall level, exists w, node_string frepr printable level n = w ++ [41; 10]).
    { clear n. induction k as [|k IH]; intros n Hk level; [lia|]. destruct n as [cs ch]. cbn [node_string]. unfold node_str.
      destruct (rev ch) as [|x ch0] eqn:Er.
      - assert (ch = []) by (rewrite <- (rev_involutive ch), Er; reflexivity). subst ch. cbn [flat_map].
        exists (repeat 45 level ++ (match level with O => [] | S _ => [62; 32] end) ++ lit "select<>(" ++ repr (VList cs)).
        rewrite !app_nil_r, <- !app_assoc. reflexivity.
      - assert (Ech : ch = rev ch0 ++ [x]) by (rewrite <- (rev_involutive ch), Er; reflexivity).
        destruct (IH x) with (level := S level) as [w Hw].
        { assert (In x ch) by (rewrite Ech; apply in_or_app; right; left; reflexivity). pose proof (nsize_in x ch H). cbn [nsize] in Hk. lia. }
        rewrite Ech, flat_map_app. cbn [flat_map]. rewrite app_nil_r, Hw, !app_assoc.
        match goal with |- exists w0, ?x ++ [41; 10] = _ => exists x end. reflexivity. }
    intros level. apply (Hn (S (nsize n))). lia.
  Qed.
  Lemma strip_node n : exists w, node_string frepr printable 0 n = w ++ [10] /\ strip (node_string frepr printable 0 n) = w.
  Proof.
    destruct (node_string_ends 0 n) as [w Hw]. exists (w ++ [41]). split; [rewrite Hw, <- app_assoc; reflexivity|].
    unfold strip. assert (E : lstrip (node_string frepr printable 0 n) = node_string frepr printable 0 n).
    { destruct n as [cs ch]. reflexivity. }
    rewrite E, Hw, rev_app_distr. change (rev [41; 10] ++ rev w) with (10 :: 41 :: rev w).
    change (lstrip (10 :: 41 :: rev w)) with (41 :: rev w). cbn [rev]. rewrite rev_involutive. reflexivity.
  Qed.
  Lemma query_str_inj r r' : valid_root r = true -> valid_root r' = true -> query_str frepr printable r = query_str frepr printable r' -> r = r'.
  Proof.
    intros Hv Hv' H. destruct r as [n|], r' as [n'|]; cbn [query_str] in H; cbn [valid_root] in *.
    - destruct (strip_node n) as (w & E1 & E2). destruct (strip_node n') as (w' & E1' & E2'). rewrite E2, E2' in H. subst w'.
      destruct (node_prefix (S (nsize n)) n ltac:(lia) 0 n' [] [] Hv Hv' (or_introl eq_refl) (or_introl eq_refl)) as [-> _]; [|reflexivity].
      rewrite !app_nil_r. congruence.
    - exfalso. destruct (strip_node n) as (w & E1 & E2). rewrite E2 in H. subst w. destruct n as [cs ch]. discriminate.
    - exfalso. destruct (strip_node n') as (w & E1 & E2). rewrite E2 in H. subst w. destruct n' as [cs ch]. discriminate.
    - reflexivity.
  Qed.
End Values.
