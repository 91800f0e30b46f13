(** Dynamic mixing: counterexamples (C39, C40, C59, C60) and non-trivial instances of the theorems. *)
From Coq Require Import String.
From Verif Require Import Base ParserModel MixtureKeyModel MixtureKeyProofs UtilsModel UtilsProofs ChunkGenModel MixtureModel MixtureProofs PropertiesMixture DynModel SpecDyn DynProofs DynProofs2 DynProofs3 DynProofs4 DynProofs5 DynProofs6 DynProofs7 FloatModel PropertiesDyn PropertiesDyn2 PropertiesDyn3.
From Coq Require Import QArith Qpower Qabs Qminmax Lqa Permutation.
Open Scope Z_scope.

Definition key (v : string) : mkey := [(lit "lang", [lit v])].
Definition ids3 : list (mkey * Z) := [(key "a", 0); (key "b", 1); (key "c", 2)].
Definition rows2 : list (mkey * Z) := [(key "a", 5); (key "b", 5)].

(** ** C39 *)
(** Feedback of a stale mixture (id 0 after id 1) does change the mixture of an averaging DynamicMixture. *)
Definition before : list (devent mkey) := [Ids ids3; Feedback (Fb [1%Q; 1%Q] [1; 1] 1)].
Definition stale : devent mkey := Feedback (Fb [9%Q; 1%Q] [1; 1] 0).
Definition d_avg (l : list (devent mkey)) : dyn savg := dyn_run fl32 (numpy_sum fl32) (avg_process fl32 (numpy_sum fl32)) avg_inform l (fresh 10 rows2 savg0).
Theorem C39_stale_feedback_refuted :
  Forall (devent_ok 3) (before ++ [stale])
  /\ dy_rows (d_avg before) = [(key "a", 5); (key "b", 5)]
  /\ snd (devent_step fl32 (numpy_sum fl32) (avg_process fl32 (numpy_sum fl32)) avg_inform stale (d_avg before)) = None
  /\ dy_rows (d_avg (before ++ [stale])) = [(key "a", 8); (key "b", 2)].
Proof.
  split; [|vm_compute; auto].
  assert (N : NoDup (map fst ids3) /\ NoDup (map snd ids3)).
  { split; repeat constructor; cbn; intros H; repeat (destruct H as [H|H]; [discriminate|]); exact H. }
  assert (F : forall a b c d m, (0 <= a)%Q -> (0 <= b)%Q -> devent_ok (K:=mkey) 3 (Feedback (Fb [a; b] [c; d] m))).
  { intros. split; [reflexivity|]. split; [cbn; lia|]. repeat constructor; assumption. }
  apply Forall_cons; [exact N|]. repeat (apply Forall_cons; [apply F; discriminate|]). apply Forall_nil.
Qed.

(** A message that is refused because it has two losses and three counts still counts its losses: the next mixture
    differs from the one without it. *)
Definition bad : devent mkey := Feedback (Fb [9%Q; 1%Q] [1; 1; 1] 2).
Definition after : devent mkey := Feedback (Fb [1%Q; 1%Q] [1; 1] 3).
Theorem C39_refused_feedback_refuted :
  snd (devent_step fl32 (numpy_sum fl32) (avg_process fl32 (numpy_sum fl32)) avg_inform bad (d_avg before)) = Some ValueError
  /\ dy_rows (d_avg (before ++ [bad])) = dy_rows (d_avg before)
  /\ dy_rows (d_avg (before ++ [bad; after])) = [(key "a", 8); (key "b", 2)]
  /\ dy_rows (d_avg (before ++ [after])) = [(key "a", 5); (key "b", 5)].
Proof. vm_compute. auto. Qed.

(** ** C40 *)
(** The averaging mixture is computed in single precision; for large chunks that is not enough: with three keys of equal
    loss and 50331651 rows per chunk, the parts of the chunk add up to 50331654 rows and the feedback fails.  (The theorems
    above ask for [enough] precision.) *)
Definition c_big : Z := 50331651.
Definition rows_big : list (mkey * Z) := [(key "a", 16777217); (key "b", 16777217); (key "c", 16777217)].
Definition d_big : dyn savg := dyn_run fl32 (numpy_sum fl32) (avg_process fl32 (numpy_sum fl32)) avg_inform [Ids ids3] (fresh c_big rows_big savg0).
Theorem C40_large_chunk_refuted :
  filled c_big rows_big /\ dy_informed d_big = true
  /\ snd (avg_process fl32 (numpy_sum fl32) [1%Q; 1%Q; 1%Q] [1; 1; 1] 0 (dy_alg d_big)) = inl (Some [(11184811 # 33554432)%Q; (11184811 # 33554432)%Q; (11184811 # 33554432)%Q])
  /\ snd (devent_step fl32 (numpy_sum fl32) (avg_process fl32 (numpy_sum fl32)) avg_inform (Feedback (Fb [1%Q; 1%Q; 1%Q] [1; 1; 1] 0)) d_big) = Some AssertionError.
Proof. split; [split; [reflexivity|repeat constructor; discriminate]|]. vm_compute. auto. Qed.
(** Not a matter of rounding in the average: these weights have the sum 1 in single precision. *)
Example C40_big_sum : numpy_sum fl32 [(11184811 # 33554432)%Q; (11184811 # 33554432)%Q; (11184811 # 33554432)%Q] = 1%Q /\ ~ enough (1 # 2 ^ 24) c_big 3.
Proof. split; [vm_compute; reflexivity|]. intros (_ & _ & H). vm_compute in H. discriminate. Qed.

(** Precision that is enough: single precision for chunks of 2^17 rows and 100 keys, double precision for chunks of 2^30
    rows and 2^20 keys. *)
Example enough_single : enough (1 # 2 ^ 24) (2 ^ 17) 100.
Proof. repeat split; vm_compute; discriminate || reflexivity. Qed.
Example enough_double : enough (1 # 2 ^ 53) (2 ^ 30) (2 ^ 20).
Proof. repeat split; vm_compute; discriminate || reflexivity. Qed.
Lemma rounds_32 : rounds fl32 (1 # 2 ^ 24).
Proof. apply floating_32. Qed.

(** The theorems about filling and accepting apply to the history above. *)
Example C40_filled_example : filled 10 (dy_rows (d_avg (before ++ [stale]))).
Proof.
  apply (C40_averaging_filled fl32 (numpy_sum fl32) fl32 (1 # 2 ^ 24) 10 3 floating_32 (sums_numpy fl32) rounds_32).
  - repeat split; vm_compute; discriminate || reflexivity.
  - lia.
  - lia.
  - split; [reflexivity|repeat constructor; discriminate].
  - apply C39_stale_feedback_refuted.
Qed.

(** ** ADO *)
(** Two or three domains; the scaling law of domain 0 falls, the others are flat.  No warm-up, and a refit after 1000 steps
    only. *)
Definition cfg_ex (same : bool) : config := mkConfig Vanilla (1 # 10) (1 # 1) (1 # 100) 1000 1 same None.
Definition fit_ex (_ : list (list Z)) (_ : list (list Q)) (_ : Z) (k : nat) : res Q := Ok (if Nat.eqb k 0 then 1%Q else 0%Q).
Definition ado_ex (same : bool) := ado_process exactly (numpy_sum exactly) (cfg_ex same) Q 0%Q fit_ex (fun p _ => - p)%Q (fun x => x).
Lemma sane_ex same : sane (cfg_ex same) (fun x => x).
Proof. repeat split; try discriminate. auto. Qed.

(** Keys that appear after the scaling laws were fitted make every further feedback fail, until the next refit. *)
Definition f2 : fb := Fb [1%Q; 1%Q] [1; 1] 0.
Definition f3 : fb := Fb [1%Q; 1%Q; 1%Q] [1; 1; 1] 0.
Theorem C59_new_domain_refuted :
  snd (ado_ex false (fb_losses f2) (fb_counts f2) 0 (ado0 Q [(1 # 2)%Q; (1 # 2)%Q])) <> inl None
  /\ snd (ado_ex false (fb_losses f3) (fb_counts f3) 0 (run (ado_ex false) [f2] (ado0 Q [(1 # 2)%Q; (1 # 2)%Q]))) = inr IndexError
  /\ snd (ado_ex false (fb_losses f2) (fb_counts f2) 0 (run (ado_ex false) [f2; f3] (ado0 Q [(1 # 2)%Q; (1 # 2)%Q]))) = inr IndexError.
Proof. split; [vm_compute; discriminate|]. vm_compute. auto. Qed.
(** With use_same_step_size (the default), feedback with fewer keys than before fails. *)
Theorem C59_fewer_domains_refuted :
  snd (ado_ex true (fb_losses f2) (fb_counts f2) 0 (run (ado_ex true) [f3] (ado0 Q [(1 # 2)%Q; (1 # 2)%Q]))) = inr IndexError.
Proof. vm_compute. reflexivity. Qed.
(** Steady feedback. *)
Example C59_steady_example : forall f, In f [f2] -> exists x, snd (ado_ex false (fb_losses f) (fb_counts f) (fb_mixture f) (run (ado_ex false) [f2; f2] (ado0 Q [(1 # 2)%Q; (1 # 2)%Q]))) = inl x /\ x <> None.
Proof.
  intros f [<-|[]]. destruct (C59_ado_steady_partial exactly (numpy_sum exactly) (cfg_ex false) Q 0%Q fit_ex (fun p _ => - p)%Q (fun x => x) floating_exactly (sums_numpy exactly) (sane_ex false) 2 [(1 # 2)%Q; (1 # 2)%Q] [f2; f2] f2) as (x & E & _ & H).
  - cbn. lia.
  - discriminate.
  - discriminate.
  - intros. eexists. reflexivity.
  - repeat constructor; discriminate.
  - vm_compute. split; discriminate.
  - cbn. lia.
  - cbn. lia.
  - repeat constructor.
  - discriminate.
  - exists x. split; [exact E|]. apply H; cbn; [lia|discriminate].
Qed.
Example C59_short_example : let f := Fb [1%Q] [1] 0 in
  snd (ado_ex false (fb_losses f) (fb_counts f) 0 (ado0 Q [(1 # 2)%Q; (1 # 2)%Q])) = inr AssertionError
  /\ snd (ado_ex false (fb_losses f2) (fb_counts f2) 1 (run (ado_ex false) [f] (ado0 Q [(1 # 2)%Q; (1 # 2)%Q]))) = inr AssertionError.
Proof. vm_compute. auto. Qed.

(** ** C60: a domain that has been sampled can get less than delta_min = 1/100 of the mixture: the probabilities are raised
    to delta_min first and normalised afterwards. *)
Theorem C60_minimum_refuted :
  exists mix, snd (ado_ex false (fb_losses f2) (fb_counts f2) 0 (ado0 Q [(1 # 2)%Q; (1 # 2)%Q])) = inl (Some mix)
    /\ 0 < zsum (counts_of 1 [f2]) /\ (nth 1 mix 0 == 1 # 101)%Q /\ (nth 1 mix 0 < c_delta_min (cfg_ex false))%Q.
Proof. eexists. split; [vm_compute; reflexivity|]. vm_compute. auto. Qed.
Print Assumptions C39_stale_feedback_refuted.
Print Assumptions C39_refused_feedback_refuted.
Print Assumptions C40_large_chunk_refuted.
Print Assumptions C59_new_domain_refuted.
Print Assumptions C59_fewer_domains_refuted.
Print Assumptions C60_minimum_refuted.
