(** Lemmas about reading lists in turns. *)
From Verif Require Import Base SpecSubseq SpecRoundRobin.
From Coq Require Import ZifyBool ZifyNat.
Local Open Scope nat_scope.

Definition rrn {B} (N : nat) (ls : list (list B)) : list B := flat_map (column ls) (seq 0 N).

Lemma column_short {B} (ls : list (list B)) j : Forall (fun l => length l <= j) ls -> column ls j = [].
Proof.
  unfold column. induction 1 as [|l ls Hl _ IH]; [reflexivity|]. cbn [flat_map].
  rewrite (proj2 (nth_error_None l j)) by exact Hl. exact IH.
Qed.

Lemma list_max_Forall (l : list nat) N : list_max l <= N <-> Forall (fun x => x <= N) l.
Proof. apply list_max_le. Qed.

Lemma rrn_ge {B} N (ls : list (list B)) : Forall (fun l => length l <= N) ls -> rrn N ls = round_robin ls.
Proof.
  intros H. unfold round_robin. set (M := list_max (map (@length B) ls)).
  assert (HM : M <= N). { apply list_max_Forall. rewrite Forall_map. exact H. }
  assert (HF : Forall (fun l => length l <= M) ls). { rewrite <- (Forall_map (@length B) (fun x => x <= M)). apply list_max_Forall. reflexivity. }
  unfold rrn. replace N with (M + (N - M)) by lia. rewrite seq_app, flat_map_app.
  rewrite <- app_nil_r. f_equal. cbn [Nat.add].
  assert (Hn : forall k s, M <= s -> flat_map (column ls) (seq s k) = []).
  { induction k as [|k IH]; intros s Hs; [reflexivity|]. cbn [seq flat_map]. rewrite IH by lia. rewrite column_short; [reflexivity|].
    eapply Forall_impl; [|exact HF]. cbn. lia. }
  apply Hn. lia.
Qed.

Lemma column_app {B} (l1 l2 : list (list B)) j : column (l1 ++ l2) j = column l1 j ++ column l2 j.
Proof. apply flat_map_app. Qed.

Lemma flat_map_ext_in' {X Y} (f g : X -> list Y) l : (forall x, In x l -> f x = g x) -> flat_map f l = flat_map g l.
Proof.
  induction l as [|x l IH]; intros H; [reflexivity|]. cbn. rewrite (H x) by (left; reflexivity).
  rewrite IH; [reflexivity|]. intros y Hy. apply H. right. exact Hy.
Qed.

(** One more item read from the list whose turn it is. *)
Lemma rr_snoc {B} (l1 l2 : list (list B)) c x j :
  Forall (fun l => length l <= S j) l1 -> length c = j -> Forall (fun l => length l <= j) l2 ->
  round_robin (l1 ++ (c ++ [x]) :: l2) = round_robin (l1 ++ c :: l2) ++ [x].
Proof.
  intros H1 Hc H2.
  rewrite <- (rrn_ge (S j) (l1 ++ c :: l2)), <- (rrn_ge (S j) (l1 ++ (c ++ [x]) :: l2)).
  - unfold rrn. rewrite seq_S. cbn [Nat.add]. rewrite !flat_map_app. cbn [flat_map]. rewrite !app_nil_r, <- app_assoc. f_equal.
    + apply flat_map_ext_in'. intros r Hr. apply in_seq in Hr. rewrite !column_app. f_equal.
      unfold column. cbn [flat_map]. rewrite nth_error_app1 by lia. reflexivity.
    + rewrite !column_app. rewrite <- app_assoc. f_equal. unfold column at 1 2. cbn [flat_map].
      rewrite nth_error_app2 by lia. rewrite Hc, Nat.sub_diag. cbn [nth_error opt_to_list].
      rewrite (proj2 (nth_error_None c j)) by lia. cbn [opt_to_list app].
      pose proof (column_short l2 j H2) as E. unfold column in E. rewrite E. reflexivity.
  - apply Forall_app. split; [exact H1|]. constructor; [rewrite app_length; cbn; lia|].
    eapply Forall_impl; [|exact H2]. cbn. lia.
  - apply Forall_app. split; [exact H1|]. constructor; [lia|]. eapply Forall_impl; [|exact H2]. cbn. lia.
Qed.

Lemma rr_nil {B K} (f : K -> list B) ks : (forall k, In k ks -> f k = []) -> round_robin (map f ks) = [].
Proof.
  intros H. rewrite <- (rrn_ge 0); [reflexivity|]. rewrite Forall_map, Forall_forall. intros k Hk. rewrite H by exact Hk. cbn. lia.
Qed.

(** The same items. *)
Lemma rrn_perm {B} (ls : list (list B)) N : Permutation (rrn N ls) (flat_map (firstn N) ls).
Proof.
  induction N as [|N IH].
  - cbn. induction ls as [|l ls IH]; [constructor|]. exact IH.
  - unfold rrn. rewrite seq_S, flat_map_app. cbn [flat_map Nat.add]. rewrite app_nil_r.
    fold (rrn N ls). rewrite IH. clear IH.
    induction ls as [|l ls IH]; [constructor|]. cbn [flat_map]. unfold column in *. cbn [flat_map].
    rewrite <- IH. rewrite <- !app_assoc.
    assert (E : firstn (S N) l = firstn N l ++ opt_to_list (nth_error l N)).
    { clear. revert l. induction N as [|N IH]; intros [|x l]; try reflexivity. cbn [nth_error].
      rewrite firstn_cons, IH. reflexivity. }
    rewrite E, <- app_assoc. apply Permutation_app_head. rewrite !app_assoc. apply Permutation_app_tail, Permutation_app_comm.
Qed.
Lemma rr_perm {B} (ls : list (list B)) : Permutation (round_robin ls) (concat ls).
Proof.
  set (M := list_max (map (@length B) ls)).
  assert (HF : Forall (fun l => length l <= M) ls) by (rewrite <- (Forall_map (@length B) (fun x => x <= M)); apply list_max_Forall; reflexivity).
  rewrite <- (rrn_ge M) by exact HF. rewrite rrn_perm.
  assert (E : flat_map (firstn M) ls = concat ls); [|rewrite E; reflexivity].
  clearbody M. induction HF as [|l ls Hl _ IH]; [reflexivity|]. cbn. rewrite firstn_all2 by exact Hl. rewrite IH. reflexivity.
Qed.

(** Selecting the items of one of the lists gives back that list. *)
Lemma rrn_filter {B} (P : B -> bool) (l1 l2 : list (list B)) c N :
  Forall (fun l => Forall (fun x => P x = false) l) l1 -> Forall (fun x => P x = true) c ->
  Forall (fun l => Forall (fun x => P x = false) l) l2 ->
  filter P (rrn N (l1 ++ c :: l2)) = firstn N c.
Proof.
  intros H1 Hc H2.
  assert (Hnone : forall ls j, Forall (fun l => Forall (fun x => P x = false) l) ls -> filter P (column ls j) = []).
  { intros ls j. unfold column. induction 1 as [|l ls Hl _ IH]; [reflexivity|]. cbn [flat_map]. rewrite filter_app, IH.
    destruct (nth_error l j) eqn:E; [|reflexivity]. cbn. apply nth_error_In in E.
    rewrite (proj1 (Forall_forall _ _) Hl _ E). reflexivity. }
  induction N as [|N IH]; [reflexivity|].
  unfold rrn. rewrite seq_S, flat_map_app, filter_app. cbn [flat_map Nat.add]. rewrite app_nil_r.
  fold (rrn N (l1 ++ c :: l2)). rewrite IH, column_app, filter_app, Hnone by exact H1.
  change (column (c :: l2) N) with (opt_to_list (nth_error c N) ++ column l2 N).
  rewrite filter_app, Hnone by exact H2. rewrite app_nil_r. cbn [app].
  assert (E : firstn (S N) c = firstn N c ++ opt_to_list (nth_error c N)).
  { clear. revert c. induction N as [|N IH]; intros [|x l]; try reflexivity. cbn [nth_error].
    rewrite firstn_cons, IH. reflexivity. }
  rewrite E. f_equal. destruct (nth_error c N) eqn:En; [|reflexivity]. cbn. apply nth_error_In in En.
  rewrite (proj1 (Forall_forall _ _) Hc _ En). reflexivity.
Qed.
Lemma rr_filter {B} (P : B -> bool) (l1 l2 : list (list B)) c :
  Forall (fun l => Forall (fun x => P x = false) l) l1 -> Forall (fun x => P x = true) c ->
  Forall (fun l => Forall (fun x => P x = false) l) l2 ->
  filter P (round_robin (l1 ++ c :: l2)) = c.
Proof.
  intros H1 Hc H2. unfold round_robin. set (M := list_max (map (@length B) (l1 ++ c :: l2))).
  fold (rrn M (l1 ++ c :: l2)). rewrite rrn_filter by assumption. apply firstn_all2.
  assert (HF : Forall (fun l => length l <= M) (l1 ++ c :: l2)) by (rewrite <- (Forall_map (@length B) (fun x => x <= M)); apply list_max_Forall; reflexivity).
  apply Forall_app in HF as [_ HF]. inversion HF. assumption.
Qed.

(** Function form, for keys in an order without repetition. *)
Section Fun.
  Context {K B : Type} (eqb : K -> K -> bool).
  Hypothesis eqb_spec : forall a b, eqb a b = true <-> a = b.
  Definition fupd (k : K) (x : B) (f : K -> list B) : K -> list B := fun k' => if eqb k k' then f k' ++ [x] else f k'.
  Lemma fupd_same k x f : fupd k x f k = f k ++ [x].
  Proof. unfold fupd. rewrite (proj2 (eqb_spec k k) eq_refl). reflexivity. Qed.
  Lemma fupd_other k k' x f : k <> k' -> fupd k x f k' = f k'.
  Proof. intros H. unfold fupd. destruct (eqb k k') eqn:E; [|reflexivity]. apply eqb_spec in E. contradiction. Qed.
  Lemma rr_fupd (o1 o2 : list K) k x f j :
    NoDup (o1 ++ k :: o2) -> (forall k', In k' o1 -> length (f k') <= S j) -> length (f k) = j ->
    (forall k', In k' o2 -> length (f k') <= j) ->
    round_robin (map (fupd k x f) (o1 ++ k :: o2)) = round_robin (map f (o1 ++ k :: o2)) ++ [x].
  Proof.
    intros Hnd H1 Hk H2. rewrite !map_app. cbn [map]. rewrite fupd_same.
    apply NoDup_remove in Hnd as [_ Hni]. rewrite in_app_iff in Hni.
    rewrite (map_ext_in _ f o1) by (intros k' Hk'; apply fupd_other; intros ->; tauto).
    rewrite (map_ext_in _ f o2) by (intros k' Hk'; apply fupd_other; intros ->; tauto).
    apply rr_snoc with (j := j); [|exact Hk|]; rewrite Forall_map, Forall_forall; assumption.
  Qed.
End Fun.

(** ** Orders kept *)
Lemma sub_refl {B} (a : list B) : subseq a a.
Proof. induction a; constructor; assumption. Qed.
Lemma sub_nil {B} (a : list B) : subseq [] a.
Proof. induction a; constructor; assumption. Qed.
Lemma sub_trans {B} (a b c : list B) : subseq a b -> subseq b c -> subseq a c.
Proof.
  intros H1 H2. revert a H1. induction H2 as [|x b c H2 IH|x b c H2 IH]; intros a H1; [exact H1| |constructor; auto].
  inversion H1; subst; constructor; auto.
Qed.
Lemma sub_app {B} (a a' b b' : list B) : subseq a a' -> subseq b b' -> subseq (a ++ b) (a' ++ b').
Proof. induction 1; intros Hs; cbn; [exact Hs|constructor; auto..]. Qed.
Lemma sub_map {B C} (f : B -> C) (a b : list B) : subseq a b -> subseq (map f a) (map f b).
Proof. induction 1; cbn; constructor; auto. Qed.
Lemma sub_flat_map {B C} (f : B -> list C) l x : In x l -> subseq (f x) (flat_map f l).
Proof.
  intros H. apply in_split in H as (l1 & l2 & ->). rewrite flat_map_app. cbn [flat_map].
  apply (sub_app [] _ (f x) (f x ++ flat_map f l2)); [apply sub_nil|].
  rewrite <- (app_nil_r (f x)) at 1. apply sub_app; [apply sub_refl|apply sub_nil].
Qed.
(** Reading lists in turns keeps the order of each. *)
Lemma rr_subseq {B} (ls : list (list B)) l : In l ls -> subseq l (round_robin ls).
Proof.
  intros H. set (M := list_max (map (@length B) ls)).
  assert (HF : Forall (fun l => length l <= M) ls) by (rewrite <- (Forall_map (@length B) (fun x => x <= M)); apply list_max_Forall; reflexivity).
  rewrite <- (rrn_ge M) by exact HF. rewrite <- (firstn_all2 (n := M) l) by (eapply Forall_forall in HF; [exact HF|exact H]).
  clear HF. clearbody M. apply in_split in H as (l1 & l2 & ->).
  induction M as [|N IH]; [apply sub_nil|].
  assert (E : firstn (S N) l = firstn N l ++ opt_to_list (nth_error l N)).
  { clear. revert l. induction N as [|N IH]; intros [|x l]; try reflexivity. cbn [nth_error]. rewrite firstn_cons, IH. reflexivity. }
  rewrite E. unfold rrn. rewrite seq_S, flat_map_app. cbn [flat_map Nat.add]. rewrite app_nil_r. apply sub_app; [exact IH|].
  rewrite column_app. change (column (l :: l2) N) with (opt_to_list (nth_error l N) ++ column l2 N).
  apply (sub_app [] _ (opt_to_list (nth_error l N)) (opt_to_list (nth_error l N) ++ column l2 N)); [apply sub_nil|].
  rewrite <- (app_nil_r (opt_to_list (nth_error l N))) at 1. apply sub_app; [apply sub_refl|apply sub_nil].
Qed.
