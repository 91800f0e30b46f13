From Verif Require Import Base MixtureKeyModel UtilsModel ChunkGenModel RecoverModel SpecRecover.

Lemma mem_in o l : visited_mem o l = true <-> In o l.
Proof.
  unfold visited_mem. rewrite existsb_exists. split.
  - intros (x & I & E). apply Nat.eqb_eq in E. subst. exact I.
  - intros I. exists o. split; [exact I|apply Nat.eqb_refl].
Qed.
Lemma is_torch_spec g x : is_torch (o_kind (g x)) = true <-> torch_dataset g x.
Proof. unfold torch_dataset. destruct (o_kind (g x)); cbn; split; intros H; try discriminate; try reflexivity; try (destruct H; discriminate); auto. Qed.
Lemma is_hf_spec g x : is_hf (o_kind (g x)) = true <-> hf_dataset g x.
Proof. unfold hf_dataset. destruct (o_kind (g x)); cbn; split; intros H; try discriminate; try reflexivity; try (destruct H; discriminate); auto. Qed.

Definition target (a : action) : nat := match a with Hit v | Visit v => v end.
Lemma actions_leads g x y : leads g x y <-> exists a, In a (actions g x) /\ target a = y.
Proof.
  unfold leads, actions. split.
  - intros [(At & Nc & Na)|(c & At & It)]; destruct At as (a & Ia & Sp & Va).
    + exists (if is_torch (o_kind (g y)) then Hit y else Visit y). split; [|destruct (is_torch _); reflexivity].
      apply in_flat_map. exists a. split; [exact Ia|]. unfold attr_actions. rewrite Sp, Va. unfold container, atom in *.
      destruct (o_kind (g y)); cbn; try (left; reflexivity); exfalso; [apply Nc; exact I|apply Nc; exact I|apply Na; reflexivity].
    + exists (Visit y). split; [|reflexivity]. apply in_flat_map. exists a. split; [exact Ia|]. unfold attr_actions. rewrite Sp, Va. unfold item in It.
      destruct (o_kind (g c)); cbn; try contradiction; apply in_map; exact It.
  - intros (t & It & <-). apply in_flat_map in It as (a & Ia & It). unfold attr_actions in It.
    destruct (a_special a) eqn:Sp; [contradiction|]. destruct (a_value a) as [v|] eqn:Va; [|contradiction].
    assert (At : attribute g x v) by (exists a; auto).
    destruct (o_kind (g v)) eqn:K; cbn in It;
      try (destruct It as [<-|[]]; left; cbn [target]; split; [exact At|split; unfold container, atom; rewrite K; [intros []|discriminate]]);
      try contradiction.
    + apply in_map_iff in It as (y & <- & Iy). right. exists v. split; [exact At|]. unfold item. rewrite K. exact Iy.
    + apply in_map_iff in It as (y & <- & Iy). right. exists v. split; [exact At|]. unfold item. rewrite K. exact Iy.
Qed.
Lemma hit_torch g x v : In (Hit v) (actions g x) -> torch_dataset g v.
Proof.
  intros It. apply in_flat_map in It as (a & Ia & It). unfold attr_actions in It.
  destruct (a_special a); [contradiction|]. destruct (a_value a) as [w|]; [|contradiction].
  destruct (is_torch (o_kind (g w))) eqn:T.
  - destruct It as [[= ->]|[]]. apply is_torch_spec, T.
  - destruct (o_kind (g w)); cbn in It; try contradiction; try (destruct It as [It|[]]; discriminate);
      apply in_map_iff in It as (? & ? & _); discriminate.
Qed.

Section Loop.
  Variables (g : graph) (f : list nat -> nat -> option (list nat * option nat)).
  Fixpoint loop (l : list action) (visited : list nat) : option (list nat * option nat) :=
    match l with
    | [] => Some (visited, None)
    | Hit v :: _ => Some (visited, Some v)
    | Visit v :: l' => match f visited v with
                       | None => None
                       | Some (visited, Some r) => Some (visited, Some r)
                       | Some (visited, None) => loop l' visited
                       end
    end.
End Loop.
Lemma find_in_S n g vis o : find_in (S n) g vis o =
  if visited_mem o vis then Some (vis, None) else if is_torch (o_kind (g o)) then Some (o :: vis, Some o) else loop (find_in n g) (actions g o) (o :: vis).
Proof.
  cbn [find_in]. destruct (visited_mem o vis); [reflexivity|]. cbv zeta. destruct (is_torch _); [reflexivity|].
  generalize (o :: vis). generalize (actions g o). induction l as [|[v|v] l IH]; intros w; cbn; [reflexivity|reflexivity|].
  destruct (find_in n g w v) as [[w' [r|]]|]; try reflexivity.
Qed.

(** Objects of [a] that are not in [b] have been searched completely. *)
Definition closed (g : graph) (vis' vis : list nat) : Prop :=
  forall x, In x vis' -> ~ In x vis -> ~ torch_dataset g x /\ forall y, leads g x y -> In y vis'.
Lemma closed_trans g a b c : incl a b -> incl b c -> closed g b a -> closed g c b -> closed g c a.
Proof.
  intros I1 I2 C1 C2 x Ix Nx. destruct (in_dec Nat.eq_dec x b) as [Ib|Nb].
  - destruct (C1 x Ib Nx) as [A B]. split; [exact A|]. intros y L. apply I2, B, L.
  - apply C2; assumption.
Qed.
Lemma find_none n g : forall vis o vis', find_in n g vis o = Some (vis', None) -> incl vis vis' /\ In o vis' /\ closed g vis' vis.
Proof.
  induction n as [|n IH]; intros vis o vis' H; [discriminate|]. rewrite find_in_S in H.
  destruct (visited_mem o vis) eqn:M.
  - injection H as <-. split; [apply incl_refl|]. split; [apply mem_in, M|]. intros x A B. contradiction.
  - destruct (is_torch (o_kind (g o))) eqn:T; [discriminate|].
    assert (L : forall l w w', loop (find_in n g) l w = Some (w', None) -> incl w w' /\ (forall a, In a l -> In (target a) w' /\ match a with Hit _ => False | _ => True end) /\ closed g w' w).
    { induction l as [|[v|v] l IHl]; intros w w' E; cbn [loop] in E; [|discriminate|].
      - injection E as <-. split; [apply incl_refl|]. split; [contradiction|]. intros x A B. contradiction.
      - destruct (find_in n g w v) as [[w1 [r|]]|] eqn:F; try discriminate. destruct (IH _ _ _ F) as (A1 & A2 & A3).
        destruct (IHl _ _ E) as (B1 & B2 & B3). split; [eapply incl_tran; eassumption|]. split; [|eapply closed_trans; eassumption].
        intros a [<-|Ia]; [split; [apply B1, A2|exact I]|apply B2, Ia]. }
    destruct (L _ _ _ H) as (A & B & C). split; [intros x Ix; apply A; right; exact Ix|]. split; [apply A; left; reflexivity|].
    intros x Ix Nx. destruct (Nat.eq_dec x o) as [->|N].
    + split; [intros X; apply is_torch_spec in X; congruence|]. intros y Ly. apply actions_leads in Ly as (a & Ia & <-). apply (B a Ia).
    + apply C; [exact Ix|]. intros [E|E]; [congruence|contradiction].
Qed.
Lemma find_some n g : forall vis o vis' r, find_in n g vis o = Some (vis', Some r) -> torch_dataset g r /\ reaches (leads g) o r.
Proof.
  induction n as [|n IH]; intros vis o vis' r H; [discriminate|]. rewrite find_in_S in H.
  destruct (visited_mem o vis); [discriminate|]. destruct (is_torch (o_kind (g o))) eqn:T.
  - injection H as _ <-. split; [apply is_torch_spec, T|constructor].
  - assert (L : forall l w, incl l (actions g o) -> loop (find_in n g) l w = Some (vis', Some r) -> torch_dataset g r /\ reaches (leads g) o r).
    { induction l as [|[v|v] l IHl]; intros w Il E; cbn [loop] in E; [discriminate| |].
      - injection E as _ <-. assert (Iv : In (Hit v) (actions g o)) by (apply Il; left; reflexivity). split; [eapply hit_torch, Iv|].
        eapply reaches_step; [apply actions_leads; exists (Hit v); split; [exact Iv|reflexivity]|constructor].
      - destruct (find_in n g w v) as [[w1 [q|]]|] eqn:F; try discriminate.
        + injection E as -> ->. destruct (IH _ _ _ _ F) as [A B]. split; [exact A|]. eapply reaches_step; [|exact B].
          apply actions_leads. exists (Visit v). split; [apply Il; left; reflexivity|reflexivity].
        + apply (IHl w1); [intros x Ix; apply Il; right; exact Ix|exact E]. }
    apply (L (actions g o) (o :: vis)); [apply incl_refl|exact H].
Qed.
Lemma find_ok n g u : within (leads g) u -> forall vis o, NoDup vis -> incl vis u -> In o u -> (length u < n + length vis)%nat ->
  exists vis' r, find_in n g vis o = Some (vis', r) /\ NoDup vis' /\ incl vis' u /\ (length vis <= length vis')%nat.
Proof.
  intros W. induction n as [|n IH]; intros vis o N Iu Io Ln.
  - exfalso. pose proof (NoDup_incl_length N Iu). lia.
  - rewrite find_in_S. destruct (visited_mem o vis) eqn:M; [exists vis, None; auto|].
    assert (No : ~ In o vis) by (intros X; apply mem_in in X; congruence).
    assert (N1 : NoDup (o :: vis)) by (constructor; assumption).
    assert (I1 : incl (o :: vis) u) by (intros x [<-|Ix]; [exact Io|apply Iu, Ix]).
    destruct (is_torch _); [exists (o :: vis), (Some o); cbn; auto|].
    assert (L : forall l w, (forall a, In a l -> In (target a) u) -> NoDup w -> incl w u -> (length (o :: vis) <= length w)%nat ->
      exists vis' r, loop (find_in n g) l w = Some (vis', r) /\ NoDup vis' /\ incl vis' u /\ (length w <= length vis')%nat).
    { induction l as [|[v|v] l IHl]; intros w Hl Nw Iw Lw; cbn [loop]; [exists w, None; auto|exists w, (Some v); auto|].
      destruct (IH w v Nw Iw (Hl _ (or_introl eq_refl)) ltac:(cbn [length] in *; lia)) as (w1 & r & E & A & B & C). rewrite E. destruct r as [r|]; [exists w1, (Some r); auto|].
      destruct (IHl w1 (fun a Ia => Hl a (or_intror Ia)) A B ltac:(lia)) as (w2 & r & E2 & A2 & B2 & C2). exists w2, r. split; [exact E2|]. split; [exact A2|]. split; [exact B2|lia]. }
    destruct (L (actions g o) (o :: vis)) as (w & r & E & A & B & C); try assumption; [|lia|].
    + intros a Ia. apply (W o); [exact Io|]. apply actions_leads. exists a. auto.
    + exists w, r. split; [exact E|]. split; [exact A|]. split; [exact B|]. cbn [length] in C. lia.
Qed.

Lemma closed_reach g vis : closed g vis [] -> forall x y, In x vis -> reaches (leads g) x y -> In y vis.
Proof. intros C x y Ix R. induction R as [|x y z L R IH]; [exact Ix|]. apply IH. apply (C x Ix (fun F => F)), L. Qed.

(** ** The worklist *)
Lemma wraps_in g x y : wraps g x y <-> In y (olist (o_ex2 (g x)) ++ olist (o_ex1 (g x))).
Proof.
  unfold wraps. rewrite in_app_iff. destruct (o_ex1 (g x)), (o_ex2 (g x)); cbn; intuition congruence.
Qed.
Definition wclosed (g : graph) (vis stack : list nat) : Prop :=
  forall x, In x vis -> ~ hf_dataset g x /\ forall y, wraps g x y -> In y vis \/ In y stack.
Lemma hf_none n g : forall vis stack, wclosed g vis stack -> hf_find n g vis stack = Some None ->
  exists vis', incl vis vis' /\ incl stack vis' /\ wclosed g vis' [].
Proof.
  induction n as [|n IH]; intros vis stack C H; [discriminate|]. cbn [hf_find] in H. destruct stack as [|o stack].
  - exists vis. split; [apply incl_refl|]. split; [intros x []|exact C].
  - destruct (visited_mem o vis) eqn:M.
    + apply mem_in in M. destruct (IH vis stack) as (v & A & B & D); [|exact H|].
      * intros x Ix. destruct (C x Ix) as [X Y]. split; [exact X|]. intros y L. destruct (Y y L) as [Iy|[<-|Iy]]; auto.
      * exists v. split; [exact A|]. split; [|exact D]. intros x [<-|Ix]; [apply A, M|apply B, Ix].
    + destruct (is_hf (o_kind (g o))) eqn:K; [discriminate|].
      destruct (IH (o :: vis) (olist (o_ex2 (g o)) ++ olist (o_ex1 (g o)) ++ stack)) as (v & A & B & D); [|exact H|].
      * intros x [<-|Ix].
        -- split; [intros X; apply is_hf_spec in X; congruence|]. intros y L. right. rewrite app_assoc. apply in_or_app. left. apply wraps_in, L.
        -- destruct (C x Ix) as [X Y]. split; [exact X|]. intros y L. destruct (Y y L) as [Iy|[<-|Iy]]; [left; right; exact Iy|left; left; reflexivity|].
           right. rewrite app_assoc. apply in_or_app. right. exact Iy.
      * exists v. split; [intros x Ix; apply A; right; exact Ix|]. split; [|exact D].
        intros x [<-|Ix]; [apply A; left; reflexivity|]. apply B. rewrite app_assoc. apply in_or_app. right. exact Ix.
Qed.
Lemma hf_some n g root : forall vis stack r, (forall x, In x stack -> reaches (wraps g) root x) -> hf_find n g vis stack = Some (Some r) ->
  hf_dataset g r /\ reaches (wraps g) root r.
Proof.
  assert (RT : forall x y z, reaches (wraps g) x y -> wraps g y z -> reaches (wraps g) x z).
  { intros x y z R W. induction R; [eapply reaches_step; [exact W|constructor]|eapply reaches_step; eauto]. }
  induction n as [|n IH]; intros vis stack r Hr H; [discriminate|]. cbn [hf_find] in H. destruct stack as [|o stack]; [discriminate|].
  destruct (visited_mem o vis); [apply (IH vis stack); [intros x Ix; apply Hr; right; exact Ix|exact H]|].
  destruct (is_hf (o_kind (g o))) eqn:K.
  - injection H as <-. split; [apply is_hf_spec, K|apply Hr; left; reflexivity].
  - apply (IH _ _ _) in H; [exact H|]. intros x Ix. rewrite app_assoc in Ix. apply in_app_or in Ix as [Ix|Ix]; [|apply Hr; right; exact Ix].
    apply (RT _ o); [apply Hr; left; reflexivity|apply wraps_in, Ix].
Qed.
Lemma hf_ok n g u : within (wraps g) u -> forall vis stack, NoDup vis -> incl vis u -> incl stack u ->
  (2 * (length u - length vis) + length stack < n)%nat -> hf_find n g vis stack <> None.
Proof.
  intros W. induction n as [|n IH]; intros vis stack N Iv Is L; [lia|]. cbn [hf_find]. destruct stack as [|o stack]; [discriminate|].
  destruct (visited_mem o vis) eqn:M.
  - apply IH; [exact N|exact Iv|intros x Ix; apply Is; right; exact Ix|cbn [length] in L; lia].
  - destruct (is_hf _); [discriminate|]. assert (No : ~ In o vis) by (intros X; apply mem_in in X; congruence).
    assert (N1 : NoDup (o :: vis)) by (constructor; assumption).
    assert (Io : In o u) by (apply Is; left; reflexivity).
    assert (I1 : incl (o :: vis) u) by (intros x [<-|Ix]; [exact Io|apply Iv, Ix]).
    pose proof (NoDup_incl_length N1 I1) as Ln. cbn [length] in Ln, L.
    apply IH; [exact N1|exact I1| |].
    + intros x Ix. rewrite app_assoc in Ix. apply in_app_or in Ix as [Ix|Ix]; [apply (W o); [exact Io|apply wraps_in, Ix]|apply Is; right; exact Ix].
    + rewrite !app_length. cbn [length]. assert (length (olist (o_ex2 (g o))) <= 1)%nat by (destruct (o_ex2 (g o)); cbn; lia).
      assert (length (olist (o_ex1 (g o))) <= 1)%nat by (destruct (o_ex1 (g o)); cbn; lia). lia.
Qed.
Lemma wclosed_reach g vis : wclosed g vis [] -> forall x y, In x vis -> reaches (wraps g) x y -> In y vis.
Proof. intros C x y Ix R. induction R as [|x y z L R IH]; [exact Ix|]. apply IH. destruct (C x Ix) as [_ H]. destruct (H y L) as [A|[]]. exact A. Qed.
