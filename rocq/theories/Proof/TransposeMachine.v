(** The state machine which is written: all transitions can be written, and the nodes read back follow them. *)
From Coq Require Import Permutation.
From Verif Require Import Base.Bytes Model.Endian Model.Varint Model.Chunk Model.SimpleChunk Model.TransposeEncoder Model.TransposeDecoder.
From Verif Require Import Proof.TransposeColumns Proof.TransposeBuffers Proof.TransposeLoops Proof.TransposePath Proof.TransposeStates.
From Verif Require Import Proof.TransposeFill Proof.TransposeList Proof.TransposeCollect Proof.TransposePrivate Proof.TransposePublic Proof.TransposeCreate.

(** ** Ranks of tags: how far from the end the last occurrence is *)
Fixpoint rk (l : list nat) (t : nat) : nat :=
  match l with
  | [] => O
  | x :: r => match rk r t with O => if Nat.eqb x t then S (length r) else O | S k => S k end
  end.
Lemma rk_le l t : (rk l t <= length l)%nat.
Proof. induction l as [|x l IH]; [apply Nat.le_refl|]. cbn [rk length]. destruct (rk l t) as [|k]; [destruct (Nat.eqb x t); lia|lia]. Qed.
Lemma rk_in l t : In t l <-> rk l t <> O.
Proof.
  induction l as [|x l IH]; cbn [rk In]; [split; [intros []|contradiction]|]. destruct (rk l t) as [|k].
  - destruct (Nat.eqb_spec x t) as [->|N]; (split; [intros X|intros X]); [discriminate|left; reflexivity|destruct X; [contradiction|tauto]|contradiction].
  - split; [discriminate|]. intros _. right. apply IH. discriminate.
Qed.
Lemma rk_next l t : In t l -> t <> last l O -> exists c, adjacent l t c /\ (rk l c < rk l t)%nat.
Proof.
  induction l as [|x l IH]; intros HI HL; [destruct HI|]. destruct (in_dec Nat.eq_dec t l) as [I1|I1].
  - destruct IH as (c & (l1 & l2 & ->) & C2); [exact I1|destruct l; [destruct I1|exact HL]|]. exists c. split; [exists (x :: l1), l2; reflexivity|]. cbn [rk].
    assert (Ic : In c (l1 ++ t :: c :: l2)) by (apply in_or_app; right; right; left; reflexivity). apply rk_in in Ic. apply rk_in in I1. destruct (rk _ c); [contradiction|]. destruct (rk _ t); [contradiction|]. exact C2.
  - destruct HI as [->|HI]; [|contradiction]. destruct l as [|y l]; [contradiction HL; reflexivity|]. exists y. split; [exists [], l; reflexivity|].
    assert (Iy : In y (y :: l)) by (left; reflexivity). apply rk_in in Iy. assert (It : rk (y :: l) t = O) by (destruct (rk (y :: l) t) eqn:E; [reflexivity|exfalso; apply I1, rk_in; congruence]).
    pose proof (rk_le (y :: l) y) as LE. change (rk (t :: y :: l) y) with (match rk (y :: l) y with O => if Nat.eqb t y then S (length (y :: l)) else O | S k => S k end).
    change (rk (t :: y :: l) t) with (match rk (y :: l) t with O => if Nat.eqb t t then S (length (y :: l)) else O | S k => S k end). rewrite It, Nat.eqb_refl. destruct (rk (y :: l) y); [contradiction|]. lia.
Qed.
Lemma adjacent_in l a b : adjacent l a b -> In a l /\ In b l.
Proof. intros (l1 & l2 & ->). split; apply in_or_app; right; [left|right; left]; reflexivity. Qed.

(** ** The second destination of the last tag *)
Record faked (z : nat) (T T' : list tag_info) : Prop := {
  k_length : length T' = length T;
  k_row : forall t ti, nth_error T t = Some ti -> exists ti', nth_error T' t = Some ti' /\ t_base ti' = t_base ti /\ t_state ti' = t_state ti /\ t_noop ti' = t_noop ti /\
    (forall k d, find_dest k (t_dests ti) = Some d -> find_dest k (t_dests ti') = Some d) /\
    (forall k d, In (k, d) (t_dests ti') -> In (k, d) (t_dests ti) \/ d_pos d = None) /\
    (length (t_dests ti') = 1%nat -> t_dests ti' = t_dests ti /\ t <> z) }.
Lemma add_fake_dest_ok first rest T : (last (first :: rest) O < length T)%nat -> exists T', add_fake_dest (first :: rest) T = Some T' /\ faked (last (first :: rest) O) T T'.
Proof.
  intros H. unfold add_fake_dest. set (z := last (first :: rest) O) in *. clearbody z.
  destruct (update_total (fun t => match t_dests t with [(key, _)] => set_dests (update_dest (S key) (fun d => d) (t_dests t)) t | _ => t end) T z H) as [T' E]. exists T'. split; [exact E|].
  destruct (update_spec _ _ _ _ E) as (U1 & U2 & U3 & (x & U4 & U5)). constructor; [exact U1|]. intros t ti Ht. destruct (Nat.eq_dec t z) as [->|N].
  - rewrite Ht in U4. injection U4 as <-. eexists. split; [exact U5|]. destruct (t_dests ti) as [|[key d0] [|e r]] eqn:ED.
    + rewrite ED. cbn [length]. split; [reflexivity|]. split; [reflexivity|]. split; [reflexivity|]. split; [auto|]. split; [auto|discriminate].
    + cbn [set_dests t_base t_state t_noop t_dests update_dest]. split; [reflexivity|]. split; [reflexivity|]. split; [reflexivity|]. assert (X : Nat.eqb key (S key) = false) by (apply Nat.eqb_neq; lia). rewrite X.
      split; [|split].
      * intros k d. cbn [find_dest]. destruct (Nat.eqb key k); [auto|discriminate].
      * intros k d [Y|[Y|[]]]; [left; left; exact Y|right]. injection Y as <- <-. reflexivity.
      * cbn [length]. discriminate.
    + rewrite ED. cbn [length]. split; [reflexivity|]. split; [reflexivity|]. split; [reflexivity|]. split; [auto|]. split; [auto|discriminate].
  - exists ti. rewrite U3 by assumption. split; [exact Ht|]. do 3 (split; [reflexivity|]). split; [auto|]. split; [auto|]. auto.
Qed.

(** ** The lengths of paths *)
Lemma path_length mt fuel : forall machine base pos written w, path mt fuel machine base pos written = Some w -> (length w <= fuel + length written)%nat.
Proof.
  induction fuel as [|fuel IH]; intros machine base pos written w; cbn [path]; [discriminate|]. destruct (_ || _).
  - destruct (checked_source mt machine pos) as [cs|]; [|discriminate]. destruct (base_of machine cs); [|discriminate]. intros E. apply IH in E. cbn [length] in E. lia.
  - intros E; injection E as <-. cbn [length]. lia.
Qed.
Lemma transition_length mt machine T prev tag w : transition mt machine T prev tag = Some w -> (length w <= 64)%nat.
Proof.
  assert (P : forall base pos v, path mt kWriteBufSize machine base pos [] = Some v -> (length v <= 32)%nat) by (intros base pos v E; apply path_length in E; unfold kWriteBufSize in E; cbn [length] in E; lia).
  unfold transition. destruct (nth_error T prev) as [t|]; [|discriminate]. destruct (Nat.eqb _ 1).
  - destruct (t_base t); [|discriminate]. destruct (nth_error machine n) as [[[?|] ? ?]|]; try discriminate. destruct (Nat.eqb _ _); [|discriminate]. intros E; injection E as <-. cbn [length]. lia.
  - cbv zeta. destruct (match find_dest tag (t_dests t) with Some d => d_pos d | None => None end).
    + destruct (t_base t); [|discriminate]. destruct (Nat.ltb _ _); [|discriminate]. intros E. apply P in E. lia.
    + destruct (nth_error T tag); [|discriminate]. destruct (t_state t0); [|discriminate]. destruct (negb _); [discriminate|]. destruct (t_base t); [|discriminate]. destruct (t_noop t).
      * destruct (path mt kWriteBufSize machine n0 n1 []) as [v|] eqn:E1; [|discriminate]. destruct (base_of machine n1); [|discriminate]. destruct (path mt kWriteBufSize machine n2 n []) as [v'|] eqn:E2; [|discriminate].
        intros E; injection E as <-. apply P in E1, E2. rewrite app_length. lia.
      * intros E. apply P in E. lia.
Qed.
Lemma transitions_length mt machine T rest : forall prev w, transitions mt machine T prev rest = Some w -> (length w <= 64 * length rest)%nat.
Proof.
  induction rest as [|tag rest IH]; intros prev w; cbn [transitions]; [intros E; injection E as <-; cbn [length]; lia|].
  destruct (transition mt machine T prev tag) as [a|] eqn:E1; [|discriminate]. destruct (transitions mt machine T tag rest) as [b|] eqn:E2; [|discriminate]. intros E; injection E as <-.
  apply transition_length in E1. apply IH in E2. rewrite app_length. cbn [length]. lia.
Qed.
Lemma path_bound mt fuel : forall machine base pos written w, path mt fuel machine base pos written = Some w -> Forall (fun o => (o <= mt)%nat) written -> Forall (fun o => (o <= mt)%nat) w.
Proof.
  induction fuel as [|fuel IH]; intros machine base pos written w; cbn [path]; [discriminate|]. destruct (_ || _) eqn:Q.
  - destruct (checked_source mt machine pos) as [cs|] eqn:C; [|discriminate]. destruct (base_of machine cs) as [b|] eqn:B; [|discriminate]. intros E F. apply IH in E; [exact E|]. constructor; [|exact F].
    unfold checked_source in C. destruct (source_of machine pos) as [[c|]|]; try discriminate. destruct (base_of machine c) as [b'|] eqn:B'; [|discriminate]. destruct (Nat.leb b' pos && Nat.leb (pos - b') mt) eqn:Q'; [|discriminate].
    injection C as ->. rewrite B in B'. injection B' as <-. apply andb_true_iff in Q'. destruct Q' as [_ Q']. apply Nat.leb_le in Q'. exact Q'.
  - intros E F; injection E as <-. apply orb_false_iff in Q. destruct Q as [_ Q]. apply Nat.ltb_ge in Q. constructor; assumption.
Qed.
Lemma transitions_bound mt machine T rest : forall prev w, transitions mt machine T prev rest = Some w -> Forall (fun o => (o <= mt)%nat) w.
Proof.
  assert (P : forall base pos v, path mt kWriteBufSize machine base pos [] = Some v -> Forall (fun o => (o <= mt)%nat) v) by (intros base pos v E; eapply path_bound; [exact E|constructor]).
  assert (TB : forall prev tag w, transition mt machine T prev tag = Some w -> Forall (fun o => (o <= mt)%nat) w).
  { intros prev tag w. unfold transition. destruct (nth_error T prev) as [t|]; [|discriminate]. destruct (Nat.eqb _ 1).
    - destruct (t_base t); [|discriminate]. destruct (nth_error machine n) as [[[?|] ? ?]|]; try discriminate. destruct (Nat.eqb _ _); [|discriminate]. intros E; injection E as <-. constructor.
    - cbv zeta. destruct (match find_dest tag (t_dests t) with Some d => d_pos d | None => None end).
      + destruct (t_base t); [|discriminate]. destruct (Nat.ltb _ _); [|discriminate]. intros E. eapply P, E.
      + destruct (nth_error T tag); [|discriminate]. destruct (t_state t0); [|discriminate]. destruct (negb _); [discriminate|]. destruct (t_base t); [|discriminate]. destruct (t_noop t).
        * destruct (path mt kWriteBufSize machine n0 n1 []) as [v|] eqn:E1; [|discriminate]. destruct (base_of machine n1); [|discriminate]. destruct (path mt kWriteBufSize machine n2 n []) as [v'|] eqn:E2; [|discriminate].
          intros E; injection E as <-. apply P in E1, E2. apply Forall_app. auto.
        * intros E. eapply P, E. }
  induction rest as [|tag rest IH]; intros prev w; cbn [transitions]; [intros E; injection E as <-; constructor|].
  destruct (transition mt machine T prev tag) as [a|] eqn:E1; [|discriminate]. destruct (transitions mt machine T tag rest) as [b|] eqn:E2; [|discriminate]. intros E; injection E as <-.
  apply Forall_app. split; [eapply TB, E1|eapply IH, E2].
Qed.
Lemma merge_shorter l : forall o, (length (merge o l) <= length l + match o with None => 0 | Some _ => 1 end)%nat.
Proof.
  induction l as [|x l IH]; intros o; cbn [merge]; [destruct o; cbn [length]; lia|]. destruct o as [b|].
  - destruct (_ && _); [specialize (IH (Some (b + 1))); cbn [length] in *; lia|]. specialize (IH (Some (Z.shiftl (Z.of_nat x) 2))). cbn [length] in *. lia.
  - specialize (IH (Some (Z.shiftl (Z.of_nat x) 2))). cbn [length] in *. lia.
Qed.

(** ** The nodes *)
Definition ranked (nodes : list node) (rank : nat -> nat) : Prop :=
  forall i n, nth_error nodes i = Some n -> n_implicit n = true -> (n_next n < length nodes)%nat /\ (rank (n_next n) < rank i)%nat.
Definition failures : list node := repeat failure_node 255.
Definition follows (c : columns) (M : list state_info) (T : list tag_info) (p : nat) (offs : list nat) (seq : list nat) : Prop :=
  forall nds, Forall2 (node_for c T) M nds -> (exists l, visits (nds ++ failures) p offs l /\
      filter is_op l = filter is_op (map (fun t => entry_callback (buffer_ids c) (nth t (c_tags c) entry0)) seq)) /\ exists rank, ranked (nds ++ failures) rank.

Lemma Forall2_nth {A B} (R : A -> B -> Prop) l l' : Forall2 R l l' -> (forall i a, nth_error l i = Some a -> exists b, nth_error l' i = Some b /\ R a b) /\ length l' = length l.
Proof.
  induction 1 as [|a b l l' Hab H [I1 I2]]; [split; [intros [|i] a E; discriminate|reflexivity]|]. split; [|cbn [length]; lia]. intros [|i] x E; cbn [nth_error] in *; [injection E as <-; exists b; auto|apply I1, E].
Qed.
Lemma failures_explicit nds i n : nth_error (nds ++ failures) i = Some n -> n_implicit n = true -> (i < length nds)%nat.
Proof.
  intros H HI. destruct (Nat.lt_ge_cases i (length nds)) as [L|L]; [exact L|]. rewrite nth_error_app2 in H by exact L. apply nth_error_In in H. apply repeat_spec in H. subst n. discriminate.
Qed.

Section Machine.
Variable order : nat -> dests -> dests.
Hypothesis order_perm : forall t l, Permutation (order t l) l.
Variable c : columns.

Lemma machine_empty min_count : exists M T, CreateStateMachine order kMaxTransition min_count [] (length (c_tags c)) = Some (M, T) /\ add_fake_dest [] T = Some T /\
  M = [{| s_tag := None; s_base := Some O; s_source := None |}] /\ follows c M T 0 [] [].
Proof.
  eexists _, _. split; [reflexivity|]. split; [reflexivity|]. split; [reflexivity|]. intros nds F. inversion F as [|? nd ? nds' N1 N2]; subst. inversion N2; subst.
  cbn [node_for s_tag s_base] in N1. destruct N1 as (N1 & N3 & N4). split.
  - exists [n_callback nd]. split; [|rewrite N1; reflexivity]. constructor; [reflexivity|exact N3].
  - exists (fun _ => O). intros i n Hi HI. pose proof (failures_explicit [nd] i n Hi HI) as L. cbn [length] in L. assert (i = O) as -> by lia. cbn [nth_error app] in Hi. injection Hi as <-. congruence.
Qed.

Lemma machine_nonempty min_count first rest : Forall (fun t => (t < length (c_tags c))%nat) (first :: rest) -> zlen rest + 1 < 2 ^ 63 ->
  exists M T T' offs p, CreateStateMachine order kMaxTransition min_count (first :: rest) (length (c_tags c)) = Some (M, T) /\ add_fake_dest (first :: rest) T = Some T' /\
    zlen M <= 2 * (zlen rest + zlen (c_tags c)) /\ Forall (based T' (length M)) M /\ length T' = length (c_tags c) /\
    (forall q s, nth_error M q = Some s -> match s_tag s with Some k => (k < length (c_tags c))%nat | None => s_base s <> None end) /\
    find_index (fun s => match s_tag s with Some tag => Nat.eqb tag first | None => false end) M = Some p /\ (p < length M)%nat /\
    transitions kMaxTransition M T' first rest = Some offs /\ Forall (fun o => (o <= 63)%nat) offs /\ follows c M T' p offs (first :: rest).
Proof.
  intros F NS. set (n := length (c_tags c)) in *.
  destruct (CreateStateMachine_ok order order_perm kMaxTransition ltac:(unfold kMaxTransition; lia) min_count n first rest F NS) as (M & T & K & E & CR & ADJ & KS & FROM).
  assert (LN : (last (first :: rest) O < n)%nat).
  { rewrite Forall_forall in F. apply F. clear. revert first. induction rest as [|y r IH]; intros x; [left; reflexivity|]. right. apply (IH y). }
  destruct (add_fake_dest_ok first rest T) as (T' & ET & FK); [rewrite (cr_len _ _ _ _ _ _ CR); exact LN|].
  destruct FK as [FL FR].
  (* rows *)
  assert (ROW : forall t ti', nth_error T' t = Some ti' -> exists ti, nth_error T t = Some ti /\ t_base ti' = t_base ti /\ t_state ti' = t_state ti /\ t_noop ti' = t_noop ti /\
    (forall k d, find_dest k (t_dests ti) = Some d -> find_dest k (t_dests ti') = Some d) /\
    (forall k d, In (k, d) (t_dests ti') -> In (k, d) (t_dests ti) \/ d_pos d = None) /\
    (length (t_dests ti') = 1%nat -> t_dests ti' = t_dests ti /\ t <> last (first :: rest) O)).
  { intros t ti' Ht. destruct (nth_error T t) as [ti|] eqn:Et; [|apply nth_error_None in Et; assert (t < length T')%nat by (apply nth_error_Some; congruence); lia].
    exists ti. destruct (FR t ti Et) as (ti2 & X1 & X2). split; [reflexivity|]. rewrite X1 in Ht. injection Ht as <-. exact X2. }
  assert (SINGLE : forall t ti', nth_error T' t = Some ti' -> length (t_dests ti') = 1%nat -> exists b k, t_base ti' = Some b /\ tag_at M b k /\ (rk (first :: rest) k < rk (first :: rest) t)%nat /\
     forall k', In k' (dkeys (t_dests ti')) -> k' = k).
  { intros t ti' Ht HL. destruct (ROW t ti' Ht) as (ti & X1 & X2 & X3 & X4 & X5 & X6 & X7). destruct (X7 HL) as [X8 X9].
    destruct (t_dests ti') as [|[k d] [|? ?]] eqn:ED; cbn [length] in HL; try discriminate.
    assert (Hk : find_dest k (t_dests ti) = Some d) by (rewrite <- X8; cbn [find_dest]; rewrite Nat.eqb_refl; reflexivity).
    destruct (cr_row _ _ _ _ _ _ CR t ti k d X1 Hk) as (base & tk & Y1 & Y2 & Y3 & _). exists base, k. split; [congruence|]. split; [apply Y3; rewrite <- X8; reflexivity|]. split.
    - assert (IT : In t (first :: rest)) by (apply (FROM t k); exists ti; split; [exact X1|]; rewrite <- X8; left; reflexivity).
      destruct (rk_next _ t IT X9) as (c0 & Z1 & Z2). destruct (ADJ t c0 Z1) as (ti0 & Z3 & Z4). rewrite X1 in Z3. injection Z3 as <-. rewrite <- X8 in Z4. destruct Z4 as [<-|[]]. exact Z2.
    - intros k' [<-|[]]. reflexivity. }
  assert (MOK : machine_ok M T').
  { constructor.
    - apply (cr_source _ _ _ _ _ _ CR).
    - intros t ti' k d pos Ht Hk Hd. destruct (ROW t ti' Ht) as (ti & X1 & _ & _ & _ & _ & X6 & _). destruct (X6 k d Hk) as [Y|Y]; [|congruence].
      apply find_dest_some in Y; [|apply (cr_nodup _ _ _ _ _ _ CR t ti X1)]. destruct (cr_row _ _ _ _ _ _ CR t ti k d X1 Y) as (base & tk & _ & _ & _ & Z). rewrite Hd in Z. apply Z.
    - intros t ti' pos Ht Hp. destruct (ROW t ti' Ht) as (ti & X1 & _ & X3 & _). apply (cr_state _ _ _ _ _ _ CR t ti pos X1). congruence.
    - intros t ti' pos Ht Hp. destruct (ROW t ti' Ht) as (ti & X1 & _ & _ & X4 & _). apply (cr_noop _ _ _ _ _ _ CR t ti pos X1). congruence. }
  assert (TR : forall prev tag, adjacent (first :: rest) prev tag -> exists offs, transition kMaxTransition M T' prev tag = Some offs).
  { intros prev tag A. destruct (ADJ prev tag A) as (ti & X1 & X2). destruct (FR prev ti X1) as (ti' & Y1 & Y2 & Y3 & Y4 & Y5 & Y6 & Y7). unfold transition. rewrite Y1.
    apply find_dest_key in X2. destruct X2 as [d Hd]. destruct (cr_row _ _ _ _ _ _ CR prev ti tag d X1 Hd) as (base & tk & Z1 & Z2 & Z3 & Z4). pose proof (Y5 tag d Hd) as Hd'.
    destruct (Nat.eqb_spec (length (t_dests ti')) 1) as [L|L].
    - destruct (Y7 L) as [Y8 _]. rewrite Y2, Z1. destruct (Z3 ltac:(rewrite <- Y8; exact L)) as (s & S1 & S2). rewrite S1. destruct s as [st sb ss]. cbn [s_tag] in S2. rewrite S2, Nat.eqb_refl. eexists; reflexivity.
    - cbv zeta. rewrite Hd'. destruct (d_pos d) as [q|].
      + rewrite Y2, Z1. destruct Z4 as ((s & S1 & S2) & w & W). assert (Lq : (q < length M)%nat) by (apply nth_error_Some; congruence). apply Nat.ltb_lt in Lq. rewrite Lq. exists w. exact W.
      + destruct Z4 as (q & Q1 & Q2 & Q3). destruct (FR tag tk Z2) as (tk' & V1 & V2 & V3 & _). rewrite V1, V3, Q1. apply Nat.ltb_lt in Q2. rewrite Q2. cbn [negb]. rewrite Y2, Z1, Y4. destruct (t_noop ti) as [z|].
        * destruct Q3 as ((w1 & W1) & m & B & (w2 & W2)). rewrite W1, B, W2. eexists; reflexivity.
        * destruct Q3 as (w & W). exists w. exact W. }
  assert (TRS : exists offs, transitions kMaxTransition M T' first rest = Some offs).
  { assert (G : forall r prev, (forall a b, adjacent (prev :: r) a b -> exists offs, transition kMaxTransition M T' a b = Some offs) -> exists offs, transitions kMaxTransition M T' prev r = Some offs).
    { induction r as [|tag r IH]; intros prev H; cbn [transitions]; [eexists; reflexivity|]. destruct (H prev tag) as [a ->]; [exists [], r; reflexivity|].
      destruct (IH tag) as [b ->]; [|eexists; reflexivity]. intros a0 b0 (l1 & l2 & El). apply H. exists (prev :: l1), l2. rewrite El. reflexivity. }
    apply G, TR. }
  destruct TRS as [offs EO].
  (* the first tag *)
  destruct (cr_first _ _ _ _ _ _ CR) as (q0 & s0 & S1 & S2).
  destruct (find_index (fun s => match s_tag s with Some tag => Nat.eqb tag first | None => false end) M) as [p|] eqn:EP.
  2: { exfalso. pose proof (find_index_none _ _ EP s0 (nth_error_In _ _ S1)) as X. cbv beta in X. rewrite S2, Nat.eqb_refl in X. discriminate. }
  destruct (find_index_some _ _ _ EP) as (sp & P1 & P2 & P3). assert (P4 : s_tag sp = Some first) by (destruct (s_tag sp); [apply Nat.eqb_eq in P2; congruence|discriminate]).
  (* following *)
  assert (NOTL : ~ single T' (last (first :: rest) O)).
  { intros (ti' & X1 & X2). destruct (ROW _ ti' X1) as (ti & _ & _ & _ & _ & _ & _ & X7). destruct (X7 X2) as [_ X8]. apply X8. reflexivity. }
  assert (FOL : follows c M T' p offs (first :: rest) /\ forall nds, Forall2 (node_for c T') M nds -> Forall (fun o => (o <= 63)%nat) offs).
  { assert (G : forall nds, Forall2 (node_for c T') M nds -> ((exists l, visits (nds ++ failures) p offs l /\
      filter is_op l = filter is_op (map (fun t => entry_callback (buffer_ids c) (nth t (c_tags c) entry0)) (first :: rest))) /\ Forall (fun o => (o <= kMaxTransition)%nat) offs) /\ exists rank, ranked (nds ++ failures) rank).
    { intros nds F2. destruct (Forall2_nth _ _ _ F2) as [N1 N2].
      assert (N1' : forall i s, nth_error M i = Some s -> exists nd, nth_error (nds ++ failures) i = Some nd /\ node_for c T' s nd).
      { intros i s Hs. destruct (N1 i s Hs) as (nd & X1 & X2). exists nd. split; [|exact X2]. rewrite nth_error_app1; [exact X1|]. apply nth_error_Some. congruence. }
      split.
      - eapply walk with (s := sp); [exact MOK| |exact EO|exact P1|exact P4|exact NOTL].
        intros i s Hs. destruct (N1' i s Hs) as (nd & X1 & X2). exists nd. split; [exact X1|]. unfold node_for in X2. destruct (s_tag s) as [t|]; [|exact X2].
        destruct X2 as (ti & e & Y1 & Y2 & Y3 & Y4 & Y5). exists ti. split; [exact Y1|]. split; [|auto]. rewrite Y3. rewrite (nth_error_nth _ _ entry0 Y2). reflexivity.
      - exists (fun i => match nth_error M i with Some s => match s_tag s with Some t => rk (first :: rest) t | None => O end | None => O end).
        intros i nd Hi HI. pose proof (failures_explicit _ _ _ Hi HI) as Li. destruct (nth_error M i) as [s|] eqn:Es; [|apply nth_error_None in Es; lia].
        destruct (N1' i s Es) as (nd' & X1 & X2). rewrite X1 in Hi. injection Hi as ->. unfold node_for in X2. destruct (s_tag s) as [t|] eqn:Et; [|destruct X2 as (_ & X2 & _); congruence].
        destruct X2 as (ti' & e & Y1 & Y2 & Y3 & Y4 & Y5). rewrite HI in Y4. symmetry in Y4. apply Nat.eqb_eq in Y4. destruct (SINGLE t ti' Y1 Y4) as (b & k & Z1 & (sb & Z2 & Z3) & Z4 & _). rewrite (Y5 b Z1).
        split; [rewrite app_length; assert (b < length M)%nat by (apply nth_error_Some; congruence); lia|]. rewrite Z2, Z3. exact Z4. }
    split; [intros nds F2; destruct (G nds F2) as [[X1 _] X2]; auto|]. intros nds F2. destruct (G nds F2) as [[_ X] _]. exact X. }
  destruct FOL as [FOL _].
  assert (KIND : forall q s, nth_error M q = Some s -> match s_tag s with Some k => (k < n)%nat | None => s_base s <> None end).
  { intros q s Hs. pose proof (cr_kind _ _ _ _ _ _ CR q s Hs) as X. destruct (s_tag s); [exact X|]. destruct X as (b & X & _). congruence. }
  exists M, T, T', offs, p. split; [exact E|]. split; [exact ET|]. split; [|split; [|split; [|split; [|split; [|split; [|split; [|split]]]]]]].
  - pose proof (cr_size _ _ _ _ _ _ CR) as X. unfold zlen in *. fold n. lia.
  - apply Forall_forall. intros s Hs. apply In_nth_error in Hs. destruct Hs as [q Hs]. unfold based. destruct (s_tag s) as [t|] eqn:Et.
    + intros ti' Ht. destruct (ROW t ti' Ht) as (ti & X1 & X2 & _). split.
      * intros b Hb. apply (cr_base _ _ _ _ _ _ CR t ti b X1). congruence.
      * intros HL. destruct (SINGLE t ti' Ht HL) as (b & k & Z1 & _). congruence.
    + intros b Hb. pose proof (cr_kind _ _ _ _ _ _ CR q s Hs) as X. rewrite Et in X. destruct X as (b' & X1 & X2). rewrite Hb in X1. injection X1 as ->. exact X2.
  - rewrite FL, (cr_len _ _ _ _ _ _ CR). reflexivity.
  - exact KIND.
  - exact EP.
  - exact P3.
  - exact EO.
  - apply (transitions_bound kMaxTransition M T' rest first offs EO).
  - exact FOL.
Qed.
End Machine.
