(** C31: the intervals of a query are exactly the maximal runs of selected rows. *)
From Verif Require Import Base IntervalModel SpecInterval IntervalProofs.
Open Scope Z_scope.

Section Props.
  Context {G : Type} (geqb glt : G -> G -> bool).
  Hypothesis geqb_spec : forall a b, geqb a b = true <-> a = b.
  (** ORDER BY on the group columns is a strict total order. *)
  Hypothesis glt_asym : forall a b, glt a b = true -> glt b a = false.
  Hypothesis glt_trans : forall a b c, glt a b = true -> glt b c = true -> glt a c = true.
  Hypothesis glt_total : forall a b, a <> b -> glt a b = true \/ glt b a = true.

  Lemma nlt_trans_ a b c : glt b a = false -> glt c b = false -> glt c a = false.
  Proof using geqb_spec glt_asym glt_trans glt_total.
    intros H1 H2. destruct (glt c a) eqn:E; [|reflexivity]. exfalso.
    destruct (geqb b a) eqn:Eb; [apply geqb_spec in Eb; subst; congruence|]. assert (Nb : b <> a) by (intros ->; rewrite (proj2 (geqb_spec a a) eq_refl) in Eb; discriminate).
    destruct (glt_total b a Nb) as [X|X]; [congruence|]. rewrite (glt_trans c a b E X) in H2. discriminate.
  Qed.

  Section Rows.
  (** the rows of the samples table are distinct (primary key) *)
  Variable rows : list (G * Z).
  Hypothesis rows_nodup : NoDup rows.

  (** An interval is reported for a group (file and property combination) iff it is a maximal run of selected rows. *)
  Theorem C31_exact g a b : In (g, (a, b)) (query_intervals geqb glt rows) <-> maximal_run (fun x => In (g, x) rows) a b.
  Proof using geqb_spec rows_nodup.
    clear - geqb_spec rows_nodup. unfold query_intervals. rewrite in_flat_map. split.
    - intros (g' & Hg & Hi). apply in_map_iff in Hi as (i & E & Hi). injection E as -> ->. apply (final_group_in geqb); assumption.
    - intros H. exists g. split.
      + rewrite in_isort, in_dedup by exact geqb_spec. apply in_map_iff. exists (g, a). split; [reflexivity|]. destruct H as (H1 & H2 & _). apply H2. lia.
      + apply in_map. apply (final_group_in geqb); assumption.
  Qed.
  (** They come ordered by group and start, and do not overlap or touch within a group; no interval is reported twice. *)
  Theorem C31_ordered : StronglySorted (before glt) (query_intervals geqb glt rows) /\ NoDup (query_intervals geqb glt rows).
  Proof using geqb_spec glt_asym glt_trans glt_total rows_nodup.
    assert (S : StronglySorted (before glt) (query_intervals geqb glt rows)).
    { unfold query_intervals.
      assert (Sg : StronglySorted (fun a b => glt b a = false) (isort glt (dedup geqb (map fst rows)))) by (apply isort_sorted; [exact glt_asym|exact nlt_trans_]).
      assert (Ng : NoDup (isort glt (dedup geqb (map fst rows)))) by (apply isort_NoDup, NoDup_dedup, geqb_spec).
      revert Sg Ng. generalize (isort glt (dedup geqb (map fst rows))). intros l Sg Ng. induction Sg as [|g l Sl IH Hf]; [constructor|]. inversion Ng; subst. cbn [flat_map].
      assert (A : forall l1 l2, StronglySorted (before glt) l1 -> StronglySorted (before glt) l2 -> (forall x y, In x l1 -> In y l2 -> before glt x y) -> StronglySorted (before glt) (l1 ++ l2)).
      { clear. intros l1 l2 H1 H2 H. induction H1 as [|x l1 H1 IH Hx]; [exact H2|]. cbn. constructor; [apply IH; intros; apply H; [right; assumption|assumption]|].
        rewrite Forall_forall in *. intros y Hy. apply in_app_or in Hy as [Hy|Hy]; [apply Hx, Hy|apply H; [left; reflexivity|exact Hy]]. }
      apply A; [|apply IH; assumption|].
      - assert (F := final_group_sorted geqb glt geqb_spec rows rows_nodup g). clear - F. induction F as [|i m Fm IHm Hm]; [constructor|]. cbn [map]. constructor; [exact IHm|].
        rewrite Forall_forall in *. intros y Hy. apply in_map_iff in Hy as (j & <- & Hj). right. split; [reflexivity|]. apply Hm, Hj.
      - intros x y Hx Hy. apply in_map_iff in Hx as (i & <- & Hi). apply in_flat_map in Hy as (g2 & Hg2 & Hy). apply in_map_iff in Hy as (j & <- & Hj). left. cbn [fst].
        rewrite Forall_forall in Hf. specialize (Hf g2 Hg2). assert (N : g <> g2) by (intros ->; contradiction). destruct (glt_total g g2 N) as [X|X]; [exact X|congruence]. }
    split; [exact S|].
    assert (Irr : forall x, In x (query_intervals geqb glt rows) -> ~ before glt x x).
    { intros [g [a b]] Hx [Hb|[_ Hb]]; cbn in Hb; [rewrite (glt_asym g g Hb) in Hb; discriminate|]. apply C31_exact in Hx as (H1 & _). lia. }
    revert S Irr. generalize (query_intervals geqb glt rows). intros l S Irr. induction S as [|x l Sl IH Hf]; constructor.
    - intros Hi. rewrite Forall_forall in Hf. apply (Irr x (or_introl eq_refl)). apply Hf, Hi.
    - apply IH. intros y Hy. apply Irr. right. exact Hy.
  Qed.
  (** Every selected row is in exactly one interval of its group, and the intervals contain nothing else. *)
  Theorem C31_cover g x : In (g, x) rows <-> exists! i, In (g, i) (query_intervals geqb glt rows) /\ fst i <= x < snd i.
  Proof using geqb_spec rows_nodup.
    clear glt_asym glt_trans glt_total. split.
    - intros H. set (P := fun y => In (g, y) rows).
      assert (Dec : forall y, P y \/ ~ P y).
      { intros y. unfold P. destruct (existsb (fun r => geqb g (fst r) && (snd r =? y)) rows) eqn:E.
        - left. apply existsb_exists in E as ([g' y'] & Hi & E). apply andb_true_iff in E as [E1 E2]. apply geqb_spec in E1. cbn in *. apply Z.eqb_eq in E2. subst. exact Hi.
        - right. intros Hi. assert (X : existsb (fun r => geqb g (fst r) && (snd r =? y)) rows = true).
          { apply existsb_exists. exists (g, y). split; [exact Hi|]. cbn. rewrite (proj2 (geqb_spec g g) eq_refl), Z.eqb_refl. reflexivity. }
          congruence. }
      set (lo := list_min x (map snd rows)). set (hi := list_max x (map snd rows)).
      assert (Bnd : forall y, P y -> lo <= y <= hi).
      { intros y Hy. destruct (list_min_spec x (map snd rows)) as [_ M1]. destruct (list_max_spec x (map snd rows)) as [_ M2]. inversion M1 as [|? ? _ M1']; inversion M2 as [|? ? _ M2']; subst.
        rewrite Forall_forall in M1', M2'. assert (I : In y (map snd rows)) by (apply in_map_iff; exists (g, y); auto). split; [apply M1', I|apply M2', I]. }
      assert (Dn : forall n : nat, x - Z.of_nat n <= lo - 1 \/ True -> exists a, a <= x /\ (forall y, a <= y <= x -> P y) /\ (~ P (a - 1) \/ a <= x - Z.of_nat n)).
      { induction n as [|n IH]; intros _; [exists x; split; [lia|]; split; [intros y Hy; replace y with x by lia; exact H|right; lia]|].
        destruct IH as (a & Ha & Hp & Hn); [right; exact I|]. destruct (Dec (a - 1)) as [D|D].
        - exists (a - 1). split; [lia|]. split; [intros y Hy; destruct (Z.eq_dec y (a - 1)) as [->|]; [exact D|apply Hp; lia]|]. right. destruct Hn; [contradiction|lia].
        - exists a. auto. }
      assert (Up : forall n : nat, exists b, x < b /\ (forall y, x <= y < b -> P y) /\ (~ P b \/ x + Z.of_nat n < b)).
      { induction n as [|n IH]; [exists (x + 1); split; [lia|]; split; [intros y Hy; replace y with x by lia; exact H|right; lia]|].
        destruct IH as (b & Hb & Hp & Hn). destruct (Dec b) as [D|D].
        - exists (b + 1). split; [lia|]. split; [intros y Hy; destruct (Z.eq_dec y b) as [->|]; [exact D|apply Hp; lia]|]. right. destruct Hn; [contradiction|lia].
        - exists b. auto. }
      assert (Bx := Bnd x H).
      destruct (Dn (Z.to_nat (x - lo + 1)) (or_intror I)) as (a & Ha & Hpa & Hna). destruct (Up (Z.to_nat (hi - x + 1))) as (b & Hb & Hpb & Hnb).
      assert (Na : ~ P (a - 1)). { destruct Hna as [N|N]; [exact N|]. assert (P a) by (apply Hpa; lia). specialize (Bnd a ltac:(assumption)). lia. }
      assert (Nb : ~ P b). { destruct Hnb as [N|N]; [exact N|]. assert (P (b - 1)) by (apply Hpb; lia). specialize (Bnd (b - 1) ltac:(assumption)). lia. }
      assert (M : maximal_run P a b). { split; [lia|]. split; [intros y Hy; destruct (Z.le_gt_cases y x); [apply Hpa; lia|apply Hpb; lia]|]. split; assumption. }
      exists (a, b). split; [split; [apply C31_exact; exact M|cbn; lia]|]. intros [a' b'] [Hi Hx]. apply C31_exact in Hi. cbn in Hx.
      destruct (runs_same _ _ _ _ _ x M Hi ltac:(lia) Hx) as [-> ->]. reflexivity.
    - intros ([a b] & [Hi Hx] & _). apply C31_exact in Hi as (_ & H & _). cbn in Hx. apply H. exact Hx.
  Qed.
  End Rows.
End Props.

(** ** Non-vacuity: two files, gaps, rows in any order *)
Definition rows31 : list (Z * Z) := [(2, 5); (1, 3); (1, 0); (1, 1); (2, 4); (1, 7); (1, 4); (2, 9)].
Example C31_ex_nodup : NoDup rows31.
Proof. repeat constructor; cbn; intuition discriminate. Qed.
Example C31_ex : query_intervals Z.eqb Z.ltb rows31 = [(1, (0, 2)); (1, (3, 5)); (1, (7, 8)); (2, (4, 6)); (2, (9, 10))].
Proof. vm_compute. reflexivity. Qed.
Example C31_ex_order : (forall a b, (a <? b) = true -> (b <? a) = false) /\ (forall a b c, (a <? b) = true -> (b <? c) = true -> (a <? c) = true)
  /\ (forall a b, a <> b -> (a <? b) = true \/ (b <? a) = true).
Proof. repeat split; intros; lia. Qed.

Print Assumptions C31_exact.
Print Assumptions C31_ordered.
Print Assumptions C31_cover.
