(** Lemmas about buffered sources (Model/BufferedSource.v). *)
From Verif Require Import Base.Bytes Model.BufferedSource.

(** ** Bytes at a position *)
Definition byte_at (i : Z) (l : list Z) : option Z := nth_error l (Z.to_nat i).
Lemma byte_at_app_l i l1 l2 : 0 <= i < zlen l1 -> byte_at i (l1 ++ l2) = byte_at i l1.
Proof. intro H. unfold byte_at. rewrite nth_error_app1; [reflexivity|]. unfold zlen in H. lia. Qed.
Lemma byte_at_app_r i l1 l2 : zlen l1 <= i -> byte_at i (l1 ++ l2) = byte_at (i - zlen l1) l2.
Proof. intro H. unfold byte_at. rewrite nth_error_app2; unfold zlen in *; [f_equal|]; lia. Qed.
Lemma byte_at_some i l : 0 <= i < zlen l -> exists c, byte_at i l = Some c.
Proof.
  intro H. unfold byte_at. destruct (nth_error l (Z.to_nat i)) eqn:E; [eexists; reflexivity|].
  apply nth_error_None in E. unfold zlen in H. lia.
Qed.
Lemma byte_at_bound i l c : 0 <= i -> byte_at i l = Some c -> i < zlen l.
Proof. intros H E. unfold byte_at in E. apply nth_error_Some_lt in E || (assert (H1 : nth_error l (Z.to_nat i) <> None) by congruence; apply nth_error_Some in H1; unfold zlen; lia). Qed.
Lemma byte_at_take i n l : 0 <= i < n -> byte_at i (ztake n l) = byte_at i l.
Proof.
  intro H. destruct (Z.le_gt_cases n (zlen l)).
  - rewrite <- (ztake_zdrop n l) at 2. rewrite byte_at_app_l; [reflexivity|]. rewrite zlen_ztake by lia. lia.
  - rewrite ztake_all by lia. reflexivity.
Qed.
Lemma byte_at_drop i n l : 0 <= i -> 0 <= n <= zlen l -> byte_at i (zdrop n l) = byte_at (n + i) l.
Proof.
  intros Hi H. rewrite <- (ztake_zdrop n l) at 2. rewrite byte_at_app_r; rewrite zlen_ztake by lia; f_equal; lia.
Qed.
Lemma byte_at_in i l c : byte_at i l = Some c -> In c l.
Proof. apply nth_error_In. Qed.
Lemma byte_at_split i l c : 0 <= i -> byte_at i l = Some c -> l = ztake i l ++ c :: zdrop (i + 1) l.
Proof.
  intros Hi E. pose proof (byte_at_bound _ _ _ Hi E) as Hb.
  rewrite <- (ztake_zdrop i l) at 1. f_equal. unfold byte_at in E. unfold zdrop.
  replace (Z.to_nat (i + 1)) with (S (Z.to_nat i)) by lia.
  revert E. generalize (Z.to_nat i). clear. intro n. revert l.
  induction n as [|n IH]; intros [|x l] E; cbn in *; try discriminate; [congruence|apply IH, E].
Qed.

(** ** index_of_byte *)
Lemma index_of_byte_none c l : index_of_byte c l = None <-> ~ In c l.
Proof.
  induction l as [|x l IH]; cbn; [tauto|]. destruct (x =? c) eqn:E.
  - apply Z.eqb_eq in E. split; intro H; [inversion H|exfalso; tauto].
  - apply Z.eqb_neq in E. destruct (index_of_byte c l) as [i|] eqn:F; cbn.
    + split; intro H; [inversion H|]. destruct IH as [_ IH]. discriminate IH. tauto.
    + split; [|reflexivity]. intros _ [H|H]; [congruence|]. apply IH; [reflexivity|exact H].
Qed.
Lemma index_of_byte_some c l i : index_of_byte c l = Some i -> 0 <= i < zlen l /\ byte_at i l = Some c /\ ~ In c (ztake i l).
Proof.
  revert i. induction l as [|x l IH]; intro i; cbn [index_of_byte]; [discriminate|]. destruct (x =? c) eqn:E.
  - apply Z.eqb_eq in E. intro H. injection H as <-. rewrite zlen_cons. pose proof (zlen_nonneg l).
    split; [lia|]. split; [cbn; congruence|]. cbn. tauto.
  - apply Z.eqb_neq in E. destruct (index_of_byte c l) as [j|] eqn:F; cbn [option_map]; [|discriminate].
    intro H. assert (i = 1 + j) as -> by congruence. clear H. destruct (IH j eq_refl) as (H1 & H2 & H3). rewrite zlen_cons. split; [lia|]. split.
    + unfold byte_at in *. replace (Z.to_nat (1 + j)) with (S (Z.to_nat j)) by lia. exact H2.
    + rewrite ztake_cons by lia. intros [H|H]; [congruence|]. replace (1 + j - 1) with j in H by lia. contradiction.
Qed.
Lemma index_of_byte_app c l1 l2 :
  index_of_byte c (l1 ++ l2) = match index_of_byte c l1 with Some i => Some i | None => option_map (Z.add (zlen l1)) (index_of_byte c l2) end.
Proof.
  induction l1 as [|x l1 IH]; cbn [index_of_byte app].
  - change (zlen (@nil Z)) with 0. destruct (index_of_byte c l2); reflexivity.
  - destruct (x =? c); [reflexivity|]. rewrite IH. destruct (index_of_byte c l1); [reflexivity|].
    destruct (index_of_byte c l2); cbn [option_map]; [|reflexivity]. rewrite zlen_cons. f_equal. lia.
Qed.
Lemma index_of_byte_iff c l i : 0 <= i -> (index_of_byte c l = Some i <-> byte_at i l = Some c /\ ~ In c (ztake i l)).
Proof.
  intro Hi. split.
  - intro H. apply index_of_byte_some in H. tauto.
  - intros [H1 H2]. rewrite (byte_at_split _ _ _ Hi H1). rewrite index_of_byte_app.
    apply index_of_byte_none in H2. rewrite H2. cbn [index_of_byte]. rewrite Z.eqb_refl. cbn [option_map].
    pose proof (byte_at_bound _ _ _ Hi H1). rewrite zlen_ztake by lia. f_equal. lia.
Qed.
Lemma not_in_take (c n m : Z) (l : list Z) : n <= m -> ~ In c (ztake m l) -> ~ In c (ztake n l).
Proof.
  intros H H1 H2. apply H1. rewrite <- (ztake_zdrop n (ztake m l)). apply in_or_app. left.
  rewrite ztake_ztake. replace (Z.min n m) with n by lia. exact H2.
Qed.

(** ** Sources *)
Definition wf (s : source) : Prop := 0 <= s_avail s <= zlen (s_rest s).
Definition same_but_buffer (s s' : source) : Prop := s_rest s' = s_rest s /\ s_fails s' = s_fails s.
Lemma Pull_true n s s' : wf s -> 0 <= n -> Pull n s = (true, s') ->
  same_but_buffer s s' /\ s_ok s' = s_ok s /\ wf s' /\ n <= s_avail s' /\ s_avail s <= s_avail s' /\ n <= zlen (s_rest s).
Proof.
  unfold Pull, wf, same_but_buffer. intros H Hn. destruct (n <=? s_avail s) eqn:E1.
  - intro E. injection E as <-. repeat split; lia.
  - destruct (zlen (s_rest s) <? n) eqn:E2; [discriminate|]. intro E. injection E as <-. cbn. repeat split; lia.
Qed.
Lemma Pull_false n s s' : wf s -> 0 <= n -> Pull n s = (false, s') ->
  same_but_buffer s s' /\ s_ok s' = s_ok s && negb (s_fails s) /\ wf s' /\ s_avail s' = zlen (s_rest s) /\ zlen (s_rest s) < n.
Proof.
  unfold Pull, wf, same_but_buffer. intros H Hn. destruct (n <=? s_avail s) eqn:E1; [discriminate|].
  destruct (zlen (s_rest s) <? n) eqn:E2; [|discriminate]. intro E. injection E as <-. cbn. repeat split; lia.
Qed.
Lemma Pull_iff n s : wf s -> 0 <= n -> fst (Pull n s) = true <-> n <= zlen (s_rest s).
Proof.
  intros H Hn. destruct (Pull n s) as [[] s'] eqn:E; cbn.
  - apply Pull_true in E; [|assumption..]. intuition lia.
  - apply Pull_false in E; [|assumption..]. intuition (try discriminate; lia).
Qed.
Lemma move_cursor_some n s : 0 <= n <= s_avail s -> wf s -> exists s', move_cursor n s = Some s' /\
  s_rest s' = zdrop n (s_rest s) /\ s_avail s' = s_avail s - n /\ s_ok s' = s_ok s /\ s_fails s' = s_fails s /\ wf s'.
Proof.
  intros H W. unfold move_cursor. replace ((0 <=? n) && (n <=? s_avail s)) with true by lia. eexists. split; [reflexivity|].
  unfold wf in *. cbn. rewrite zlen_zdrop by lia. repeat split; lia.
Qed.
Lemma cursor_at_eq i s : wf s -> 0 <= i < s_avail s -> cursor_at i s = byte_at i (s_rest s).
Proof. intros W H. unfold cursor_at. replace ((0 <=? i) && (i <? s_avail s)) with true by lia. reflexivity. Qed.
Lemma memchr_from_eq n c s : wf s -> 0 <= n <= s_avail s -> ~ In c (ztake n (s_rest s)) ->
  memchr_from n c s = Some (index_of_byte c (buffer s)).
Proof.
  intros W H N. unfold memchr_from. replace ((0 <=? n) && (n <=? s_avail s)) with true by lia. f_equal.
  unfold wf in W. rewrite <- (ztake_zdrop n (buffer s)) at 2. rewrite index_of_byte_app.
  assert (E : ztake n (buffer s) = ztake n (s_rest s)). { unfold buffer. rewrite ztake_ztake by lia. f_equal. lia. }
  rewrite E. apply index_of_byte_none in N. rewrite N. rewrite zlen_ztake by lia. f_equal. destruct (index_of_byte c (zdrop n (buffer s))); f_equal; lia.
Qed.
Lemma index_buffer_some c s i : wf s -> index_of_byte c (buffer s) = Some i -> index_of_byte c (s_rest s) = Some i /\ 0 <= i < s_avail s.
Proof.
  unfold wf, buffer. intros W H. split.
  - rewrite <- (ztake_zdrop (s_avail s) (s_rest s)), index_of_byte_app, H. reflexivity.
  - apply index_of_byte_some in H. rewrite zlen_ztake in H by lia. lia.
Qed.
