(** Components and parts: which rows they hold. *)
From Verif Require Import Base MixtureKeyModel MixtureKeyProofs UtilsModel UtilsProofs ChunkGenModel SpecChunk.
From Coq Require Import ZifyBool ZifyNat.
Open Scope Z_scope.

Lemma Zeqb_spec a b : (a =? b) = true <-> a = b.
Proof. apply Z.eqb_eq. Qed.

Definition frows (l : list frange) : list row :=
  flat_map (fun fr => range_rows (fst (fst fr)) (snd (fst fr)) (snd fr)) l.

Definition files_rows (d : Z) (fs : list (Z * list range)) : list row :=
  flat_map (fun fr => flat_map (range_rows d (fst fr)) (snd fr)) fs.

Lemma rows_of_eq p : rows_of p = flat_map (fun df => files_rows (fst df) (snd df)) p.
Proof. reflexivity. Qed.

Lemma rows_of_app a b : rows_of (a ++ b) = rows_of a ++ rows_of b.
Proof. apply flat_map_app. Qed.
Lemma frows_app a b : frows (a ++ b) = frows a ++ frows b.
Proof. apply flat_map_app. Qed.
Lemma frows_cons x l : frows (x :: l) = range_rows (fst (fst x)) (snd (fst x)) (snd x) ++ frows l.
Proof. reflexivity. Qed.

Lemma range_rows_length d f r : Z.of_nat (length (range_rows d f r)) = Z.max 0 (snd r - fst r).
Proof. unfold range_rows. rewrite map_length. apply zrange_length. Qed.

Lemma range_rows_nil d f s e : e <= s -> range_rows d f (s, e) = [].
Proof. intros H. unfold range_rows. cbn. rewrite zrange_nil by exact H. reflexivity. Qed.

Lemma range_rows_split d f s m e : s <= m -> m <= e ->
  range_rows d f (s, e) = range_rows d f (s, m) ++ range_rows d f (m, e).
Proof. intros H1 H2. unfold range_rows. cbn. rewrite (zrange_app s m e) by assumption. apply map_app. Qed.

Lemma in_range_rows x d f r :
  In x (range_rows d f r) <-> fst (fst x) = d /\ snd (fst x) = f /\ fst r <= snd x < snd r.
Proof.
  unfold range_rows. rewrite in_map_iff. split.
  - intros (i & <- & Hi). apply in_zrange in Hi. cbn. auto.
  - destruct x as [[d' f'] i]. cbn. intros (-> & -> & H). exists i. split; [reflexivity|]. apply in_zrange. exact H.
Qed.

(** ** Generic: replacing an entry of a dict *)
Lemma flat_map_aset {V B} (g : Z * V -> list B) k v l (old : list B) :
  match aget Z.eqb k l with Some v0 => g (k, v0) | None => [] end = old ->
  exists rest, Permutation (flat_map g l) (old ++ rest)
               /\ Permutation (flat_map g (aset Z.eqb k v l)) (g (k, v) ++ rest).
Proof.
  intros H. destruct (aget Z.eqb k l) as [v0|] eqn:E.
  - destruct (aset_split _ Zeqb_spec k v v0 l E) as (l1 & l2 & -> & -> & _).
    exists (flat_map g l1 ++ flat_map g l2). subst old.
    rewrite !flat_map_app. cbn. split.
    + rewrite !app_assoc. apply Permutation_app_tail, Permutation_app_comm.
    + rewrite !app_assoc. apply Permutation_app_tail, Permutation_app_comm.
  - subst old. rewrite (aset_perm_new _ k v l E). exists (flat_map g l). split; [reflexivity|].
    rewrite flat_map_app. cbn. rewrite app_nil_r. apply Permutation_app_comm.
Qed.

(** Replacing the ranges of one file. *)
Lemma files_set_rows d f rs' fs :
  let old := match aget Z.eqb f fs with Some rs => rs | None => [] end in
  exists rest, Permutation (files_rows d fs) (flat_map (range_rows d f) old ++ rest)
            /\ Permutation (files_rows d (aset Z.eqb f rs' fs)) (flat_map (range_rows d f) rs' ++ rest).
Proof.
  intros old. apply (flat_map_aset (fun fr => flat_map (range_rows d (fst fr)) (snd fr)) f rs' fs).
  unfold old. destruct (aget Z.eqb f fs); reflexivity.
Qed.

Lemma part_set_rows d f rs' p :
  let files := match aget Z.eqb d p with Some fs => fs | None => [] end in
  let old := match aget Z.eqb f files with Some rs => rs | None => [] end in
  exists rest, Permutation (rows_of p) (flat_map (range_rows d f) old ++ rest)
            /\ Permutation (rows_of (aset Z.eqb d (aset Z.eqb f rs' files) p)) (flat_map (range_rows d f) rs' ++ rest).
Proof.
  intros files old.
  destruct (files_set_rows d f rs' files) as (rest1 & H1 & H2). fold old in H1.
  destruct (flat_map_aset (fun df => files_rows (fst df) (snd df)) d (aset Z.eqb f rs' files) p
              (files_rows d files)) as (rest2 & H3 & H4).
  { unfold files. destruct (aget Z.eqb d p); reflexivity. }
  exists (rest1 ++ rest2). rewrite !rows_of_eq. split.
  - rewrite H3, H1, app_assoc. reflexivity.
  - rewrite H4. cbn. rewrite H2, app_assoc. reflexivity.
Qed.

Lemma padd_rows d f r p : Permutation (rows_of (padd d f r p)) (rows_of p ++ range_rows d f r).
Proof.
  unfold padd.
  set (files := match aget Z.eqb d p with Some fs => fs | None => [] end).
  set (rs := match aget Z.eqb f files with Some rs => rs | None => [] end).
  destruct (part_set_rows d f (rs ++ [r]) p) as (rest & H1 & H2). fold files in H1, H2. fold rs in H1.
  rewrite H2, H1. rewrite flat_map_app. cbn. rewrite app_nil_r, <- !app_assoc.
  apply Permutation_app_head, Permutation_app_comm.
Qed.

Lemma file_put_rows d f rs p :
  Permutation (rows_of (file_put d f rs p)) (rows_of p ++ flat_map (range_rows d f) rs).
Proof.
  unfold file_put.
  set (files := match aget Z.eqb d p with Some fs => fs | None => [] end).
  set (rs' := match aget Z.eqb f files with Some old => merge_sorted_lists old rs | None => rs end).
  destruct (part_set_rows d f rs' p) as (rest & H1 & H2). fold files in H1, H2.
  rewrite H2, H1. unfold rs'. destruct (aget Z.eqb f files) as [old|]; cbn.
  - rewrite (flat_map_perm _ _ _ (merge_perm old rs)), flat_map_app, <- !app_assoc.
    apply Permutation_app_head, Permutation_app_comm.
  - apply Permutation_app_comm.
Qed.

Lemma file_fold_rows d fs p :
  Permutation (rows_of (fold_left (fun acc fr => file_put d (fst fr) (snd fr) acc) fs p)) (rows_of p ++ files_rows d fs).
Proof.
  revert p. induction fs as [|[f rs] fs IH]; intros p; cbn [fold_left].
  - cbn. rewrite app_nil_r. reflexivity.
  - rewrite IH, file_put_rows. cbn. rewrite <- app_assoc. reflexivity.
Qed.

Lemma part_merge_rows p q : Permutation (rows_of (part_merge p q)) (rows_of p ++ rows_of q).
Proof.
  unfold part_merge. revert p. induction q as [|[d fs] q IH]; intros p; cbn [fold_left].
  - cbn. rewrite app_nil_r. reflexivity.
  - rewrite IH. cbn [fst snd]. rewrite file_fold_rows. cbn. rewrite <- app_assoc. reflexivity.
Qed.

(** ** flatten *)
Lemma flat_map_map {A B C} (f : A -> B) (g : B -> list C) l : flat_map g (map f l) = flat_map (fun x => g (f x)) l.
Proof. induction l as [|x l IH]; cbn; [reflexivity|]. rewrite IH. reflexivity. Qed.

Lemma flat_map_flat_map {A B C} (f : A -> list B) (g : B -> list C) l :
  flat_map g (flat_map f l) = flat_map (fun x => flat_map g (f x)) l.
Proof. induction l as [|x l IH]; cbn; [reflexivity|]. rewrite flat_map_app, IH. reflexivity. Qed.

Lemma flat_map_ext_perm {A B} (f g : A -> list B) l :
  (forall x, In x l -> Permutation (f x) (g x)) -> Permutation (flat_map f l) (flat_map g l).
Proof.
  induction l as [|x l IH]; cbn; intros H; [reflexivity|].
  rewrite (H x) by auto. rewrite IH by auto. reflexivity.
Qed.

Lemma flatten_rows p : Permutation (frows (flatten p)) (rows_of p).
Proof.
  unfold flatten, frows. rewrite flat_map_flat_map.
  rewrite (flat_map_perm _ _ _ (isort_perm _ p)). unfold rows_of.
  apply flat_map_ext_perm. intros [d fs] _. cbn.
  rewrite flat_map_flat_map, (flat_map_perm _ _ _ (isort_perm _ fs)).
  apply flat_map_ext_perm. intros [f rs] _. cbn. rewrite flat_map_map. cbn. reflexivity.
Qed.

(** ** part_size = number of rows, for well-formed ranges *)
Definition range_ok (r : range) : Prop := fst r <= snd r.
Definition part_ok (p : part) : Prop := Forall (fun df => Forall (fun fr => Forall range_ok (snd fr)) (snd df)) p.

Lemma rows_len_files d fs : Forall (fun fr => Forall range_ok (snd fr)) fs ->
  Z.of_nat (length (files_rows d fs)) = zsum (map (fun fr => zsum (map (fun r => snd r - fst r) (snd fr))) fs).
Proof.
  induction 1 as [|[f rs] fs Hrs _ IH]; [reflexivity|]. unfold files_rows in *. cbn [flat_map map].
  rewrite app_length, Nat2Z.inj_add, zsum_cons, IH. cbn [fst snd]. f_equal. cbn in Hrs. clear IH.
  induction Hrs as [|r rs Hr _ IH]; [reflexivity|]. cbn [flat_map map]. rewrite app_length, Nat2Z.inj_add, zsum_cons, IH.
  rewrite range_rows_length. unfold range_ok in Hr. lia.
Qed.

Lemma part_size_rows p : part_ok p -> part_size p = Z.of_nat (length (rows_of p)).
Proof.
  unfold part_size, part_ok. induction 1 as [|[d fs] p Hfs _ IH]; [reflexivity|].
  cbn [map]. rewrite zsum_cons, IH. change (rows_of ((d, fs) :: p)) with (files_rows d fs ++ rows_of p).
  rewrite app_length, Nat2Z.inj_add, rows_len_files by exact Hfs. reflexivity.
Qed.

Lemma Forall_aset {K V} (eqb : K -> K -> bool) (P : V -> Prop) k v (l : list (K * V)) :
  Forall (fun kv => P (snd kv)) l -> P v -> Forall (fun kv => P (snd kv)) (aset eqb k v l).
Proof.
  induction 1 as [|[k' v'] l Hv' Hl IH]; cbn; intros Hv; [constructor; auto|].
  destruct (eqb k k'); constructor; auto.
Qed.

Lemma Forall_aget {K V} (eqb : K -> K -> bool) (P : V -> Prop) k v (l : list (K * V)) :
  Forall (fun kv => P (snd kv)) l -> aget eqb k l = Some v -> P v.
Proof.
  induction 1 as [|[k' v'] l Hv' Hl IH]; cbn; [discriminate|].
  destruct (eqb k k'); [intros [= ->]; exact Hv'|exact IH].
Qed.

Lemma part_set_ok d f rs' p :
  part_ok p -> Forall range_ok rs' ->
  part_ok (aset Z.eqb d (aset Z.eqb f rs' (match aget Z.eqb d p with Some fs => fs | None => [] end)) p).
Proof.
  intros Hp Hr. unfold part_ok in *.
  apply (Forall_aset Z.eqb (fun fs => Forall (fun fr => Forall range_ok (snd fr)) fs)); [exact Hp|].
  apply (Forall_aset Z.eqb (fun rs => Forall range_ok rs)); [|exact Hr].
  destruct (aget Z.eqb d p) as [fs|] eqn:E; [|constructor].
  eapply (Forall_aget Z.eqb (fun fs => Forall (fun fr => Forall range_ok (snd fr)) fs)); eassumption.
Qed.

Lemma part_get_ok d f p :
  part_ok p ->
  Forall range_ok (match aget Z.eqb f (match aget Z.eqb d p with Some fs => fs | None => [] end) with
                   | Some rs => rs | None => [] end).
Proof.
  intros Hp. destruct (aget Z.eqb d p) as [fs|] eqn:E; [|constructor].
  assert (Hfs : Forall (fun fr => Forall range_ok (snd fr)) fs).
  { eapply (Forall_aget Z.eqb (fun fs => Forall (fun fr => Forall range_ok (snd fr)) fs)); eassumption. }
  destruct (aget Z.eqb f fs) as [rs|] eqn:E2; [|constructor].
  eapply (Forall_aget Z.eqb (fun rs => Forall range_ok rs)); eassumption.
Qed.

Lemma padd_ok d f r p : part_ok p -> range_ok r -> part_ok (padd d f r p).
Proof.
  intros Hp Hr. unfold padd. apply part_set_ok; [exact Hp|].
  apply Forall_app. split; [apply part_get_ok, Hp|auto].
Qed.

Lemma file_put_ok d f rs p : part_ok p -> Forall range_ok rs -> part_ok (file_put d f rs p).
Proof.
  intros Hp Hr. unfold file_put. apply part_set_ok; [exact Hp|].
  pose proof (part_get_ok d f p Hp) as Hg.
  destruct (aget Z.eqb f _) as [old|]; [|exact Hr].
  rewrite Forall_forall in *. intros x Hx. apply (Permutation_in _ (merge_perm _ _)), in_app_or in Hx as [Hx|Hx]; auto.
Qed.

Lemma part_merge_ok p q : part_ok p -> part_ok q -> part_ok (part_merge p q).
Proof.
  intros Hp Hq. unfold part_merge. revert p Hp. induction Hq as [|[d fs] q Hfs _ IH]; intros p Hp; cbn [fold_left]; [exact Hp|].
  apply IH. cbn [fst snd] in *. clear IH. revert p Hp. induction Hfs as [|[f rs] fs Hrs _ IH2]; intros p Hp; cbn [fold_left]; [exact Hp|].
  apply IH2, file_put_ok; assumption.
Qed.

(** ** Components *)
Lemma comp_take_spec rest : forall acc cur n p rest',
  comp_take rest acc cur n = Some (p, rest') -> 0 <= cur <= n -> part_ok acc ->
  exists taken,
    frows rest = taken ++ frows rest'
    /\ Permutation (rows_of p) (rows_of acc ++ taken)
    /\ part_ok p
    /\ (Z.of_nat (length taken) = n - cur \/ (rest' = [] /\ 0 < cur + Z.of_nat (length taken) <= n)).
Proof.
  induction rest as [|[[d f] [s e]] rest IH]; intros acc cur n p rest' H Hcur Hok; cbn in H.
  - destruct (0 <? cur) eqn:E; [|discriminate]. injection H as <- <-. exists []. cbn.
    rewrite app_nil_r. repeat split; auto. right. split; [reflexivity|lia].
  - destruct (s <? e) eqn:Ese.
    + destruct (cur + (e - s) <? n) eqn:En.
      * apply IH in H; [|lia|apply padd_ok; [exact Hok|unfold range_ok; cbn; lia]].
        destruct H as (taken & H1 & H2 & H3 & H4).
        exists (range_rows d f (s, e) ++ taken). rewrite frows_cons. cbn [fst snd]. rewrite H1.
        split; [rewrite app_assoc; reflexivity|]. split; [rewrite H2, padd_rows, <- app_assoc; reflexivity|].
        split; [exact H3|]. rewrite app_length, Nat2Z.inj_add, range_rows_length. cbn [fst snd].
        destruct H4 as [H4|[-> H4]]; [left|right; split; [reflexivity|]]; lia.
      * set (diff := cur + (e - s) - n) in *. injection H as <- <-.
        exists (range_rows d f (s, e - diff)). rewrite !frows_cons. cbn [fst snd].
        rewrite (range_rows_split d f s (e - diff) e) by lia.
        split; [rewrite app_assoc; reflexivity|]. split; [apply padd_rows|].
        split; [apply padd_ok; [exact Hok|unfold range_ok; cbn; lia]|].
        left. rewrite range_rows_length. cbn [fst snd]. lia.
    + apply IH in H; [|exact Hcur|exact Hok]. rewrite frows_cons. cbn [fst snd]. rewrite range_rows_nil by lia.
      exact H.
Qed.

Lemma comp_take_none rest : forall acc cur n, comp_take rest acc cur n = None -> 0 <= cur -> frows rest = [] /\ cur = 0.
Proof.
  induction rest as [|[[d f] [s e]] rest IH]; intros acc cur n H Hcur; cbn in H.
  - destruct (0 <? cur) eqn:E; [discriminate|]. split; [reflexivity|lia].
  - destruct (s <? e) eqn:Ese.
    + destruct (cur + (e - s) <? n); [|discriminate]. apply IH in H; [|lia]. lia.
    + apply IH in H; [|exact Hcur]. rewrite frows_cons. cbn [fst snd]. rewrite range_rows_nil by lia. exact H.
Qed.

(** One request: exactly [n] rows, or everything that is left. *)
Lemma comp_send_spec rest n p rest' :
  comp_send rest n = Some (p, rest') -> 0 <= n ->
  exists taken,
    frows rest = taken ++ frows rest' /\ Permutation (rows_of p) taken /\ part_ok p
    /\ (Z.of_nat (length taken) = n \/ (frows rest' = [] /\ rest' = [] /\ 0 < Z.of_nat (length taken) <= n)).
Proof.
  intros H Hn. apply comp_take_spec in H; [|lia|constructor].
  destruct H as (taken & H1 & H2 & H3 & H4). exists taken. cbn in H2.
  split; [exact H1|]. split; [exact H2|]. split; [exact H3|].
  destruct H4 as [H4|[-> H4]]; [left; lia|right]. repeat split; lia.
Qed.

Lemma comp_send_none rest n : comp_send rest n = None -> frows rest = [].
Proof. intros H. apply comp_take_none in H; [tauto|lia]. Qed.

Lemma comp_take_pos l : forall acc c n, 0 < c -> comp_take l acc c n <> None.
Proof.
  induction l as [|[[d f] [s e]] l IH]; intros acc c n Hc; cbn.
  - rewrite (proj2 (Z.ltb_lt 0 c) Hc). discriminate.
  - destruct (s <? e) eqn:E; [|apply IH; exact Hc]. destruct (c + (e - s) <? n); [apply IH; lia|discriminate].
Qed.

Lemma comp_send_empty rest n : comp_send rest n = None <-> frows rest = [].
Proof.
  split; [apply comp_send_none|]. unfold comp_send. generalize (@nil (Z * list (Z * list range))) as acc.
  induction rest as [|[[d f] [s e]] rest IH]; intros acc H; [reflexivity|].
  cbn. rewrite frows_cons in H. cbn [fst snd] in H. apply app_eq_nil in H as [H1 H2].
  destruct (s <? e) eqn:Ese; [|apply IH; exact H2].
  exfalso. pose proof (range_rows_length d f (s, e)) as Hl. rewrite H1 in Hl. cbn in Hl. lia.
Qed.
