(** Without a cycle of implicit transitions, none is reported, and decoding does not run out of fuel. *)
From Verif Require Import Base.Bytes Model.Endian Model.Varint Model.Chunk Model.SimpleChunk Model.TransposeEncoder Model.TransposeDecoder.
From Verif Require Import Proof.TransposePath.

Lemma update_spec {A} (f : A -> A) l : forall i l', update i f l = Some l' ->
  length l' = length l /\ (i < length l)%nat /\ (forall j, j <> i -> nth_error l' j = nth_error l j) /\
  (exists x, nth_error l i = Some x /\ nth_error l' i = Some (f x)).
Proof.
  induction l as [|x l IH]; intros i l'; cbn [update]; [destruct i; discriminate|]. destruct i as [|i].
  - intros E; injection E as <-. cbn [length nth_error]. split; [reflexivity|]. split; [lia|]. split; [intros [|j] H; [contradiction|reflexivity]|].
    exists x; auto.
  - cbn [update]. destruct (update i f l) as [l1|] eqn:E; [|discriminate]. intros EE; injection EE as <-. destruct (IH i l1 E) as (H1 & H2 & H3 & H4).
    cbn [length nth_error]. split; [lia|]. split; [lia|]. split; [intros [|j] H; [reflexivity|apply H3; lia]|exact H4].
Qed.
Lemma update_total {A} (f : A -> A) l : forall i, (i < length l)%nat -> exists l', update i f l = Some l'.
Proof.
  induction l as [|x l IH]; intros i H; cbn [length] in H; [lia|]. destruct i as [|i]; cbn [update]; [eexists; reflexivity|].
  destruct (IH i ltac:(lia)) as [l' ->]. eexists; reflexivity.
Qed.

Lemma filter_le {A} (f g : A -> bool) l : (forall x, In x l -> f x = true -> g x = true) -> (length (filter f l) <= length (filter g l))%nat.
Proof.
  induction l as [|x l IH]; intros H; [reflexivity|]. cbn [filter]. specialize (IH (fun y Hy => H y (or_intror Hy))).
  destruct (f x) eqn:F; [rewrite (H x (or_introl eq_refl) F); cbn [length]; lia|]. destruct (g x); cbn [length]; lia.
Qed.
Lemma filter_lt {A} (f g : A -> bool) l x : (forall y, In y l -> f y = true -> g y = true) -> In x l -> f x = false -> g x = true ->
  (length (filter f l) < length (filter g l))%nat.
Proof.
  induction l as [|y l IH]; intros H Hx Fx Gx; [destruct Hx|]. cbn [filter].
  pose proof (filter_le f g l (fun z Hz => H z (or_intror Hz))) as LE. destruct Hx as [->|Hx].
  - rewrite Fx, Gx. cbn [length]. lia.
  - specialize (IH (fun z Hz => H z (or_intror Hz)) Hx Fx Gx). destruct (f y) eqn:F; [rewrite (H y (or_introl eq_refl) F); cbn [length]; lia|].
    destruct (g y); cbn [length]; lia.
Qed.

Lemma filter_length_le {A} (f : A -> bool) l : (length (filter f l) <= length l)%nat.
Proof. induction l as [|x l IH]; cbn [filter length]; [lia|]. destruct (f x); cbn [length]; lia. Qed.

Section Ranks.
Variable nodes : list node.
Variable rank : nat -> nat.
Hypothesis ranked : forall i n, nth_error nodes i = Some n -> n_implicit n = true -> (n_next n < length nodes)%nat /\ (rank (n_next n) < rank i)%nat.

Definition crank (i : nat) : nat := length (filter (fun j => Nat.ltb (rank j) (rank i)) (seq 0 (length nodes))).
Lemma crank_le i : (crank i <= length nodes)%nat.
Proof. unfold crank. transitivity (length (seq 0 (length nodes))); [|rewrite seq_length; lia]. apply (filter_length_le (fun j => Nat.ltb (rank j) (rank i))). Qed.
Lemma crank_lt i j : (j < length nodes)%nat -> (rank j < rank i)%nat -> (crank j < crank i)%nat.
Proof.
  intros Hj Hr. unfold crank. apply filter_lt with (x := j).
  - intros y _ H. apply Nat.ltb_lt in H. apply Nat.ltb_lt. lia.
  - apply in_seq. lia.
  - apply Nat.ltb_irrefl.
  - apply Nat.ltb_lt. exact Hr.
Qed.
Lemma visits_length i offs l : visits nodes i offs l -> (length l <= length offs * (length nodes + 1) + crank i + 1)%nat.
Proof.
  induction 1 as [i n Hn Hi|i n offs l Hn Hi Hv IH|i n o offs l Hn Hi Hv IH]; cbn [length].
  - lia.
  - destruct (ranked i n Hn Hi) as [R1 R2]. pose proof (crank_lt i (n_next n) R1 R2). lia.
  - pose proof (crank_le (n_next n + o)). lia.
Qed.

Lemma follow_false loop_id fuel : forall i ids, (i < length nodes)%nat -> length ids = length nodes -> (1 <= loop_id)%nat ->
  Forall (fun x => (x <= loop_id)%nat) ids -> (forall j, nth_error ids j = Some loop_id -> (rank i <= rank j)%nat) ->
  (length (filter (Nat.eqb 0) ids) < fuel)%nat ->
  exists ids', follow_implicit None fuel nodes loop_id i ids = Some (false, ids') /\ length ids' = length nodes /\ Forall (fun x => (x <= loop_id)%nat) ids'.
Proof.
  induction fuel as [|fuel IH]; intros i ids Hi Hl Hid F Hr Hf; [lia|]. cbn [follow_implicit].
  destruct (nth_error nodes i) as [n|] eqn:En; [|apply nth_error_None in En; lia].
  destruct (n_implicit n) eqn:Ei; [|exists ids; auto]. destruct (ranked i n En Ei) as [R1 R2]. set (j := n_next n) in *.
  destruct (nth_error ids j) as [id|] eqn:Ej; [|apply nth_error_None in Ej; lia].
  destruct (Nat.eqb_spec id loop_id) as [->|N]; [apply Hr in Ej; lia|]. destruct (Nat.eqb_spec id 0) as [->|N0]; cbn [negb]; [|exists ids; auto].
  destruct (update_total (fun _ => loop_id) ids j) as [ids1 E1]; [lia|]. rewrite E1. destruct (update_spec _ _ _ _ E1) as (U1 & U2 & U3 & (x & U4 & U5)).
  apply IH; try assumption; try lia.
  - apply Forall_forall. intros y Hy. apply In_nth_error in Hy. destruct Hy as [k Hk]. destruct (Nat.eq_dec k j) as [->|Nk]; [rewrite U5 in Hk; injection Hk as <-; lia|].
    rewrite U3 in Hk by assumption. rewrite Forall_forall in F. apply F. eapply nth_error_In, Hk.
  - intros k Hk. destruct (Nat.eq_dec k j) as [->|Nk]; [lia|]. rewrite U3 in Hk by assumption. apply Hr in Hk. lia.
  - assert (E2 : length (filter (Nat.eqb 0) ids) = S (length (filter (Nat.eqb 0) ids1))); [|lia].
    clear - E1 Ej Hid. clearbody j. revert j ids1 E1 Ej. induction ids as [|a ids IHi]; intros j ids1 E1 Ej; [destruct j; discriminate|].
    destruct j as [|j]; cbn [update nth_error] in E1, Ej.
    + injection E1 as <-. injection Ej as ->. cbn [filter]. destruct loop_id; [lia|]. reflexivity.
    + destruct (update j (fun _ => loop_id) ids) as [l1|] eqn:E; [|discriminate]. injection E1 as <-. cbn [filter].
      specialize (IHi j l1 E Ej). destruct (Nat.eqb 0 a); cbn [length]; lia.
Qed.
Lemma implicit_loop_false n : forall i loop_id ids, (i + n = length nodes)%nat -> length ids = length nodes -> (1 <= loop_id)%nat ->
  Forall (fun x => (x < loop_id)%nat) ids -> implicit_loop None n i loop_id nodes ids = Some false.
Proof.
  induction n as [|n IH]; intros i loop_id ids Hi Hl Hid F; cbn [implicit_loop]; [reflexivity|].
  destruct (nth_error ids i) as [[|x]|] eqn:Ei; [| |apply nth_error_None in Ei; lia].
  - destruct (update_total (fun _ => loop_id) ids i) as [ids1 E1]; [lia|]. rewrite E1. destruct (update_spec _ _ _ _ E1) as (U1 & U2 & U3 & (x & U4 & U5)).
    assert (OTH : forall k y, nth_error ids1 k = Some y -> k = i /\ y = loop_id \/ (y < loop_id)%nat).
    { intros k y Hk. destruct (Nat.eq_dec k i) as [->|Nk]; [rewrite U5 in Hk; injection Hk as <-; auto|]. right. rewrite U3 in Hk by assumption.
      rewrite Forall_forall in F. apply F. eapply nth_error_In, Hk. }
    destruct (follow_false loop_id (S (length nodes)) i ids1) as (ids2 & -> & L2 & F2); try assumption; try lia.
    + apply Forall_forall. intros y Hy. apply In_nth_error in Hy. destruct Hy as [k Hk]. apply OTH in Hk. lia.
    + intros k Hk. apply OTH in Hk. destruct Hk as [[-> _]|Hk]; lia.
    + pose proof (filter_length_le (Nat.eqb 0) ids1). lia.
    + apply IH; try lia. eapply Forall_impl; [|exact F2]. cbv beta. lia.
  - apply IH; try lia; assumption.
Qed.
Lemma ContainsImplicitLoop_false : ContainsImplicitLoop None nodes = Some false.
Proof.
  unfold ContainsImplicitLoop. apply implicit_loop_false; try lia; [rewrite repeat_length; reflexivity|].
  apply Forall_forall. intros x Hx. apply repeat_spec in Hx. lia.
Qed.
End Ranks.
