(** Statistics of transitions, and marking frequent transitions for private lists. *)
From Coq Require Import Permutation.
From Verif Require Import Base.Bytes Model.Endian Model.Varint Model.Chunk Model.SimpleChunk Model.TransposeEncoder Model.TransposeDecoder.
From Verif Require Import Proof.TransposeLoops Proof.TransposePath Proof.TransposeFill Proof.TransposeList.

Notation dests := (list (nat * dest_info)).
Notation dkeys := (map (@fst nat dest_info)).
Lemma nth_ext {A} : forall l l' : list A, (forall k, nth_error l k = nth_error l' k) -> l = l'.
Proof.
  induction l as [|x l IH]; intros [|y l'] H; [reflexivity|specialize (H O); discriminate|specialize (H O); discriminate|].
  pose proof (H O) as H0. cbn in H0. injection H0 as ->. f_equal. apply IH. intros k. exact (H (S k)).
Qed.
Lemma find_dest_some k (l : dests) d : NoDup (dkeys l) -> (find_dest k l = Some d <-> In (k, d) l).
Proof.
  intros ND. split; [apply find_dest_in|]. induction l as [|[k' d'] l IH]; intros H; [destruct H|]. cbn [map fst] in ND. apply NoDup_cons_iff in ND. destruct ND as [N1 N2].
  cbn [find_dest]. destruct H as [H|H]; [injection H as -> ->; rewrite Nat.eqb_refl; reflexivity|]. destruct (Nat.eqb_spec k' k) as [->|]; [|auto].
  exfalso. apply N1. apply in_map_iff. exists (k, d). auto.
Qed.
Lemma find_dest_none k (l : dests) : ~ In k (dkeys l) -> find_dest k l = None.
Proof. intros N. destruct (find_dest k l) as [d|] eqn:E; [|reflexivity]. exfalso. apply N, find_dest_key. exists d; assumption. Qed.
Lemma find_dest_perm k (l l' : dests) : Permutation l l' -> NoDup (dkeys l) -> find_dest k l = find_dest k l'.
Proof.
  intros P ND. assert (ND' : NoDup (dkeys l')) by (eapply Permutation_NoDup; [apply Permutation_map, P|exact ND]).
  destruct (find_dest k l) as [d|] eqn:E.
  - apply find_dest_some in E; [|assumption]. symmetry. apply find_dest_some; [assumption|]. eapply Permutation_in; eassumption.
  - destruct (find_dest k l') as [d|] eqn:E'; [|reflexivity]. apply find_dest_some in E'; [|assumption].
    apply (Permutation_in _ (Permutation_sym P)) in E'. apply find_dest_some in E'; [|assumption]. congruence.
Qed.
(** dest_info[key] for a new key or for an old one *)
Definition no_dest : dest_info := {| d_pos := None; d_count := 0 |}.
Lemma find_update_dest key f l k : find_dest k (update_dest key f l) = if Nat.eqb k key then Some (f match find_dest key l with Some d => d | None => no_dest end) else find_dest k l.
Proof.
  induction l as [|[k' d] l IH]; cbn [update_dest find_dest].
  - rewrite Nat.eqb_sym. destruct (Nat.eqb_spec k key); reflexivity.
  - destruct (Nat.eqb_spec k' key) as [->|N]; cbn [find_dest].
    + rewrite (Nat.eqb_sym key k). destruct (Nat.eqb_spec k key); reflexivity.
    + rewrite IH. destruct (Nat.eqb_spec k' k) as [->|N']; [|reflexivity]. destruct (Nat.eqb_spec k key); [contradiction|reflexivity].
Qed.
Lemma keys_update_dest key f l k : In k (dkeys (update_dest key f l)) <-> k = key \/ In k (dkeys l).
Proof.
  induction l as [|[k' d] l IH]; cbn [update_dest map fst In].
  - split; [intros [->|[]]; auto|intros [->|[]]; auto].
  - destruct (Nat.eqb_spec k' key) as [->|N]; cbn [map fst In]; [split; [intros [->|H]; auto|intros [->|[->|H]]; auto]|]. rewrite IH. tauto.
Qed.
Lemma nodup_update_dest key f l : NoDup (dkeys l) -> NoDup (dkeys (update_dest key f l)).
Proof.
  induction l as [|[k' d] l IH]; intros ND; cbn [update_dest map fst]; [constructor; [intros []|constructor]|].
  cbn [map fst] in ND. apply NoDup_cons_iff in ND. destruct ND as [N1 N2]. destruct (Nat.eqb_spec k' key) as [->|N]; cbn [map fst]; [constructor; assumption|].
  constructor; [|auto]. intros H. apply keys_update_dest in H. destruct H as [H|H]; [congruence|contradiction].
Qed.

(** ** Sums over the tags *)
Definition rows_sum (f : tag_info -> Z) (T : list tag_info) : Z := fold_right (fun t a => f t + a) 0 T.
Lemma rows_sum_change f : forall T T' t ti ti', length T' = length T -> nth_error T t = Some ti -> nth_error T' t = Some ti' ->
  (forall j, j <> t -> option_map f (nth_error T' j) = option_map f (nth_error T j)) -> rows_sum f T' = rows_sum f T - f ti + f ti'.
Proof.
  assert (EXT : forall T T', length T' = length T -> (forall j, option_map f (nth_error T' j) = option_map f (nth_error T j)) -> rows_sum f T' = rows_sum f T).
  { induction T as [|a T IH]; intros [|b T'] L H; cbn [length] in L; try discriminate; [reflexivity|]. cbn [rows_sum fold_right].
    pose proof (H O) as H0. cbn in H0. injection H0 as H0. fold (rows_sum f T). fold (rows_sum f T'). rewrite (IH T'); [lia|lia|]. intros j. exact (H (S j)). }
  induction T as [|a T IH]; intros [|b T'] t ti ti' L H1 H2 H; cbn [length] in L; try discriminate; try (destruct t; discriminate). cbn [rows_sum fold_right]. fold (rows_sum f T). fold (rows_sum f T').
  destruct t as [|t]; cbn [nth_error] in H1, H2.
  - injection H1 as ->. injection H2 as ->. rewrite (EXT T T'); [lia|lia|]. intros j. exact (H (S j) ltac:(discriminate)).
  - rewrite (IH T' t ti ti'); try assumption; [|lia|intros j N; exact (H (S j) ltac:(congruence))].
    pose proof (H O ltac:(discriminate)) as H0. cbn in H0. injection H0 as H0. lia.
Qed.
Lemma rows_sum_le f : forall T T', length T' = length T -> (forall j a b, nth_error T j = Some a -> nth_error T' j = Some b -> f b <= f a) -> rows_sum f T' <= rows_sum f T.
Proof.
  induction T as [|a T IH]; intros [|b T'] L H; cbn [length] in L; try discriminate. cbn [rows_sum fold_right]. fold (rows_sum f T). fold (rows_sum f T').
  pose proof (H O a b eq_refl eq_refl). specialize (IH T' ltac:(lia) (fun j => H (S j))). lia.
Qed.
Lemma rows_sum_nonneg f T : (forall t ti, nth_error T t = Some ti -> 0 <= f ti) -> 0 <= rows_sum f T.
Proof.
  induction T as [|a T IH]; intros H; [cbn; lia|]. cbn [rows_sum fold_right]. fold (rows_sum f T). pose proof (H O a eq_refl). specialize (IH (fun t => H (S t))). lia.
Qed.
Lemma rows_sum_one f : forall T t ti, (forall t ti, nth_error T t = Some ti -> 0 <= f ti) -> nth_error T t = Some ti -> f ti <= rows_sum f T.
Proof.
  induction T as [|a T IH]; intros t ti H Ht; [destruct t; discriminate|]. cbn [rows_sum fold_right]. fold (rows_sum f T). pose proof (rows_sum_nonneg f T (fun t => H (S t))).
  destruct t as [|t]; cbn [nth_error] in Ht; [injection Ht as ->; lia|]. pose proof (H O a eq_refl). specialize (IH t ti (fun t => H (S t)) Ht). lia.
Qed.
Lemma rows_sum_zero f n t0 : f t0 = 0 -> rows_sum f (repeat t0 n) = 0.
Proof. intros H. induction n as [|n IH]; [reflexivity|]. cbn [repeat rows_sum fold_right]. fold (rows_sum f (repeat t0 n)). lia. Qed.

(** The transitions of one tag: all of them, and those to [k] not through the private list *)
Definition row_sum (l : dests) : Z := fold_right (fun kd a => d_count (snd kd) + a) 0 l.
Definition np (k : nat) (l : dests) : Z := match find_dest k l with Some d => match d_pos d with None => d_count d | Some _ => 0 end | None => 0 end.
Definition npsum (k : nat) (T : list tag_info) : Z := rows_sum (fun t => np k (t_dests t)) T.
Definition row_sum_of (t : tag_info) : Z := row_sum (t_dests t).
Lemma row_sum_keys : forall l l', dkeys l' = dkeys l -> NoDup (dkeys l) -> (forall k d, find_dest k l = Some d -> exists d', find_dest k l' = Some d' /\ d_count d' = d_count d) ->
  row_sum l' = row_sum l.
Proof.
  induction l as [|[k d] l IH]; intros [|[k' d'] l'] E ND H; cbn [map fst] in E; try discriminate; [reflexivity|]. injection E as -> E. cbn [map fst] in ND. apply NoDup_cons_iff in ND. destruct ND as [N1 N2].
  cbn [row_sum fold_right snd]. fold (row_sum l). fold (row_sum l'). destruct (H k d) as (d1 & D1 & D2); [cbn [find_dest]; rewrite Nat.eqb_refl; reflexivity|].
  cbn [find_dest] in D1. rewrite Nat.eqb_refl in D1. injection D1 as <-. rewrite (IH l'); [lia|assumption|assumption|].
  intros k0 d0 H0. destruct (Nat.eq_dec k0 k) as [->|N]; [exfalso; apply N1, find_dest_key; exists d0; assumption|].
  destruct (H k0 d0) as (d1 & D1 & D3); [cbn [find_dest]; destruct (Nat.eqb_spec k k0); [congruence|assumption]|].
  exists d1. split; [|assumption]. cbn [find_dest] in D1. destruct (Nat.eqb_spec k k0); [congruence|assumption].
Qed.
Lemma row_sum_update key l : row_sum (update_dest key (fun d => {| d_pos := d_pos d; d_count := d_count d + 1 |}) l) = row_sum l + 1.
Proof.
  induction l as [|[k d] l IH]; [reflexivity|]. cbn [update_dest]. destruct (Nat.eqb k key); cbn [row_sum fold_right snd d_count]; fold (row_sum l); [lia|].
  fold (row_sum (update_dest key (fun d => {| d_pos := d_pos d; d_count := d_count d + 1 |}) l)). lia.
Qed.

(** ** Collecting the statistics *)
Definition adjacent (l : list nat) (a b : nat) : Prop := exists l1 l2, l = l1 ++ a :: b :: l2.
Definition has_dest (T : list tag_info) (a b : nat) : Prop := exists ti, nth_error T a = Some ti /\ In b (dkeys (t_dests ti)).
Record collected (n : nat) (N : Z) (T : list tag_info) : Prop := {
  q_len : length T = n;
  q_row : forall t ti, nth_error T t = Some ti -> NoDup (dkeys (t_dests ti)) /\
    (forall k d, find_dest k (t_dests ti) = Some d -> (k < n)%nat /\ d_pos d = None /\ 1 <= d_count d) /\ t_state ti = None /\ t_noop ti = None /\ t_base ti = None;
  q_in : forall k tk, nth_error T k = Some tk -> t_incoming tk = npsum k T;
  q_rows : rows_sum row_sum_of T = N;
  q_total : rows_sum t_incoming T = N }.
Lemma collect_ok n l : forall prev T N, collected n N T -> (prev < n)%nat -> Forall (fun t => (t < n)%nat) l ->
  exists T', collect prev l T = Some T' /\ collected n (N + zlen l) T' /\ (forall a b, has_dest T a b -> has_dest T' a b) /\
    (forall a b, adjacent (prev :: l) a b -> has_dest T' a b) /\ (forall k tk tk', nth_error T k = Some tk -> nth_error T' k = Some tk' -> t_incoming tk <= t_incoming tk').
Proof.
  induction l as [|pos l IH]; intros prev T N C HP F; cbn [collect].
  - exists T. split; [reflexivity|]. change (zlen (@nil nat)) with 0. rewrite Z.add_0_r. split; [assumption|]. split; [auto|]. split.
    + intros a b (l1 & l2 & E). exfalso. destruct l1 as [|x [|y l1]]; cbn [app] in E; discriminate.
    + intros k tk tk' H1 H2. rewrite H1 in H2. injection H2 as ->. lia.
  - inversion F as [|? ? HPOS F']; subst. destruct C as [C1 C2 C3 C4 C5].
    set (g := fun d : dest_info => {| d_pos := d_pos d; d_count := d_count d + 1 |}).
    destruct (update_total (fun t => set_dests (update_dest pos g (t_dests t)) t) T prev) as [T1 E1]; [lia|].
    change (update prev (fun t => set_dests (update_dest pos (fun d => {| d_pos := d_pos d; d_count := d_count d + 1 |}) (t_dests t)) t) T)
      with (update prev (fun t => set_dests (update_dest pos g (t_dests t)) t) T). rewrite E1.
    destruct (update_spec _ _ _ _ E1) as (U1 & U2 & U3 & (ti & U4 & U5)).
    destruct (update_total (fun t => set_incoming (t_incoming t + 1) t) T1 pos) as [T2 E2]; [lia|]. rewrite E2.
    destruct (update_spec _ _ _ _ E2) as (V1 & V2 & V3 & (tp & V4 & V5)).
    (* the rows *)
    assert (ROW : forall k, option_map t_dests (nth_error T2 k) = option_map t_dests (nth_error T1 k)).
    { intros k. destruct (Nat.eq_dec k pos) as [->|N0]; [rewrite V4, V5; reflexivity|rewrite V3 by assumption; reflexivity]. }
    assert (NP : forall k, npsum k T2 = npsum k T + (if Nat.eqb k pos then 1 else 0)).
    { intros k. unfold npsum.
      assert (NP1 : rows_sum (fun t => np k (t_dests t)) T2 = rows_sum (fun t => np k (t_dests t)) T1).
      { rewrite (rows_sum_change _ T1 T2 pos tp (set_incoming (t_incoming tp + 1) tp)); try assumption; [cbn [set_incoming t_dests]; lia|]. intros j Nj. rewrite V3 by assumption. reflexivity. }
      rewrite NP1. rewrite (rows_sum_change (fun t => np k (t_dests t)) T T1 prev ti (set_dests (update_dest pos g (t_dests ti)) ti)); [|assumption|assumption|assumption|intros j Nj; rewrite U3 by assumption; reflexivity].
      cbn [set_dests t_dests]. unfold np. rewrite find_update_dest. destruct (Nat.eqb_spec k pos) as [->|]; [|lia]. cbn [g d_pos d_count].
      destruct (find_dest pos (t_dests ti)) as [d|] eqn:Ed; cbn [no_dest d_pos d_count]; [|lia]. destruct (C2 prev ti U4) as (_ & X & _). destruct (X pos d Ed) as (_ & -> & _). lia. }
    assert (C' : collected n (N + 1) T2).
    { constructor.
      - lia.
      - intros t ti2 H2. assert (exists ti1, nth_error T1 t = Some ti1 /\ t_dests ti2 = t_dests ti1 /\ t_state ti2 = t_state ti1 /\ t_noop ti2 = t_noop ti1 /\ t_base ti2 = t_base ti1) as (ti1 & H1 & -> & -> & -> & ->).
        { destruct (Nat.eq_dec t pos) as [->|N0]; [rewrite V5 in H2; injection H2 as <-; exists tp; auto|rewrite V3 in H2 by assumption; exists ti2; auto]. }
        destruct (Nat.eq_dec t prev) as [->|N0].
        + rewrite U5 in H1. injection H1 as <-. cbn [set_dests t_dests t_state t_noop t_base]. destruct (C2 prev ti U4) as (X1 & X2 & X3 & X4 & X5).
          split; [apply nodup_update_dest, X1|]. split; [|auto]. intros k d. rewrite find_update_dest. destruct (Nat.eqb_spec k pos) as [->|Nk]; [|apply X2].
          intros Hd. injection Hd as <-. split; [assumption|]. cbn [g d_pos d_count]. destruct (find_dest pos (t_dests ti)) as [d|] eqn:Ed; [|cbn; split; [reflexivity|lia]].
          destruct (X2 pos d Ed) as (_ & Y1 & Y2). split; [assumption|lia].
        + rewrite U3 in H1 by assumption. apply (C2 t ti1 H1).
      - intros k tk H. rewrite NP. destruct (Nat.eqb_spec k pos) as [->|Nk].
        + rewrite V5 in H. injection H as <-. cbn [set_incoming t_incoming]. destruct (Nat.eq_dec pos prev) as [->|Np].
          * rewrite U5 in V4. injection V4 as <-. cbn [set_dests t_incoming]. rewrite (C3 prev ti U4). lia.
          * rewrite U3 in V4 by assumption. rewrite (C3 pos tp V4). lia.
        + rewrite V3 in H by assumption. destruct (Nat.eq_dec k prev) as [->|Np].
          * rewrite U5 in H. injection H as <-. cbn [set_dests t_incoming]. rewrite (C3 prev ti U4). lia.
          * rewrite U3 in H by assumption. rewrite (C3 k tk H). lia.
      - rewrite (rows_sum_change row_sum_of T1 T2 pos tp (set_incoming (t_incoming tp + 1) tp)); try assumption; [|intros j Nj; rewrite V3 by assumption; reflexivity].
        rewrite (rows_sum_change row_sum_of T T1 prev ti (set_dests (update_dest pos g (t_dests ti)) ti)); try assumption; [|intros j Nj; rewrite U3 by assumption; reflexivity].
        unfold row_sum_of in C4 |- *. cbn [set_dests set_incoming t_dests]. unfold g. rewrite row_sum_update. lia.
      - rewrite (rows_sum_change t_incoming T1 T2 pos tp (set_incoming (t_incoming tp + 1) tp)); try assumption; [|intros j Nj; rewrite V3 by assumption; reflexivity].
        rewrite (rows_sum_change t_incoming T T1 prev ti (set_dests (update_dest pos g (t_dests ti)) ti)); try assumption; [|intros j Nj; rewrite U3 by assumption; reflexivity].
        cbn [set_dests set_incoming t_incoming]. lia. }
    assert (K1 : has_dest T2 prev pos).
    { assert (Q : option_map t_dests (nth_error T2 prev) = Some (update_dest pos g (t_dests ti))) by (rewrite ROW, U5; reflexivity).
      destruct (nth_error T2 prev) as [t2|] eqn:Et; [|discriminate]. cbn in Q. injection Q as Q. exists t2. split; [assumption|]. rewrite Q. apply keys_update_dest. auto. }
    assert (K2 : forall a b, has_dest T a b -> has_dest T2 a b).
    { intros a b (ta & A1 & A2). destruct (Nat.eq_dec a prev) as [->|Na].
      - rewrite U4 in A1. injection A1 as <-. assert (Q : option_map t_dests (nth_error T2 prev) = Some (update_dest pos g (t_dests ti))) by (rewrite ROW, U5; reflexivity).
        destruct (nth_error T2 prev) as [t2|] eqn:Et; [|discriminate]. cbn in Q. injection Q as Q. exists t2. split; [assumption|]. rewrite Q. apply keys_update_dest. auto.
      - assert (Q : option_map t_dests (nth_error T2 a) = Some (t_dests ta)) by (rewrite ROW, U3, A1 by assumption; reflexivity).
        destruct (nth_error T2 a) as [t2|] eqn:Et; [|discriminate]. cbn in Q. injection Q as Q. exists t2. split; [assumption|]. rewrite Q. assumption. }
    destruct (IH pos T2 (N + 1) C' HPOS F') as (T' & I1 & I2 & I3 & I4 & I5). exists T'. split; [exact I1|]. split; [rewrite zlen_cons; replace (N + (1 + zlen l)) with (N + 1 + zlen l) by lia; exact I2|].
    split; [auto|]. split.
    + intros a b (l1 & l2 & E). destruct l1 as [|x l1]; cbn [app] in E; [injection E as -> -> _; auto|]. injection E as _ E. apply I4. exists l1, l2. exact E.
    + intros k tk tk' H1 H2. assert (exists t2, nth_error T2 k = Some t2 /\ t_incoming tk <= t_incoming t2) as (t2 & H3 & H4).
      { destruct (Nat.eq_dec k pos) as [->|Nk].
        - exists (set_incoming (t_incoming tp + 1) tp). split; [assumption|]. cbn [set_incoming t_incoming]. destruct (Nat.eq_dec pos prev) as [->|Np].
          + rewrite U5 in V4. injection V4 as <-. rewrite U4 in H1. injection H1 as <-. cbn [set_dests t_incoming]. lia.
          + rewrite U3, H1 in V4 by assumption. injection V4 as <-. lia.
        - rewrite V3 by assumption. destruct (Nat.eq_dec k prev) as [->|Np]; [rewrite U5; eexists; split; [reflexivity|]; rewrite U4 in H1; injection H1 as <-; cbn [set_dests t_incoming]; lia|].
          rewrite U3 by assumption. exists tk. split; [assumption|lia]. }
      specialize (I5 k t2 tk' H3 H2). lia.
Qed.

(** What holds from then on *)
Record counted (n : nat) (N : Z) (first : nat) (K : list (list nat)) (T : list tag_info) : Prop := {
  v_len : length T = n;
  v_keys : map (fun t => dkeys (t_dests t)) T = K;
  v_row : forall t ti, nth_error T t = Some ti -> NoDup (dkeys (t_dests ti)) /\ forall k d, find_dest k (t_dests ti) = Some d -> (k < n)%nat /\ 1 <= d_count d;
  v_in : forall k tk, nth_error T k = Some tk -> npsum k T <= t_incoming tk;
  v_rows : rows_sum row_sum_of T <= N;
  v_total : rows_sum t_incoming T <= N + 1;
  v_first : (exists tf, nth_error T first = Some tf /\ 1 <= t_incoming tf) \/
            exists t ti d, nth_error T t = Some ti /\ find_dest first (t_dests ti) = Some d /\ d_pos d <> None }.
Lemma npsum_nonneg n N first K T k : counted n N first K T -> 0 <= npsum k T.
Proof.
  intros C. apply rows_sum_nonneg. intros t ti H. unfold np. destruct (find_dest k (t_dests ti)) as [d|] eqn:E; [|lia]. destruct (v_row _ _ _ _ _ C t ti H) as [_ X]. specialize (X k d E). destruct (d_pos d); lia.
Qed.
Lemma npsum_one n N first K T t ti k d : counted n N first K T -> nth_error T t = Some ti -> find_dest k (t_dests ti) = Some d -> d_pos d = None -> d_count d <= npsum k T.
Proof.
  intros C H1 H2 H3. pose proof (rows_sum_one (fun t => np k (t_dests t)) T t ti) as X. cbv beta in X. replace (np k (t_dests ti)) with (d_count d) in X by (unfold np; rewrite H2, H3; reflexivity).
  apply X; [|assumption]. intros t0 ti0 H. unfold np. destruct (find_dest k (t_dests ti0)) as [d0|] eqn:E; [|lia]. destruct (v_row _ _ _ _ _ C t0 ti0 H) as [_ Y]. specialize (Y k d0 E). destruct (d_pos d0); lia.
Qed.
Lemma CollectTransitionStatistics_ok n first rest : Forall (fun t => (t < n)%nat) (first :: rest) ->
  exists T K, CollectTransitionStatistics (first :: rest) (repeat new_tag_info n) = Some T /\ counted n (zlen rest) first K T /\
    (forall a b, adjacent (first :: rest) a b -> has_dest T a b) /\
    (forall t ti, nth_error T t = Some ti -> (forall k d, find_dest k (t_dests ti) = Some d -> d_pos d = None) /\ t_state ti = None /\ t_noop ti = None /\ t_base ti = None).
Proof.
  intros F. inversion F as [|? ? HF FR]; subst. unfold CollectTransitionStatistics.
  assert (C0 : collected n 0 (repeat new_tag_info n)).
  { assert (NT : forall t ti, nth_error (repeat new_tag_info n) t = Some ti -> ti = new_tag_info) by (intros t ti H; apply nth_error_In, repeat_spec in H; exact H).
    assert (Z0 : forall k, npsum k (repeat new_tag_info n) = 0) by (intros k; apply rows_sum_zero; reflexivity).
    constructor.
    - apply repeat_length.
    - intros t ti H. rewrite (NT t ti H). split; [constructor|]. split; [intros k d Hd; discriminate|auto].
    - intros k tk H. rewrite (NT k tk H), Z0. reflexivity.
    - apply rows_sum_zero; reflexivity.
    - apply rows_sum_zero; reflexivity. }
  destruct (collect_ok n rest first (repeat new_tag_info n) 0 C0 HF FR) as (T & E & [C1 C2 C3 C4 C5] & _ & H2 & _). rewrite E. cbn [Z.add] in C4, C5.
  destruct (update_total (fun t => if t_incoming t =? 0 then set_incoming 1 t else t) T first) as [T' E1]; [lia|]. rewrite E1.
  destruct (update_spec _ _ _ _ E1) as (U1 & U2 & U3 & (tf & U4 & U5)).
  set (tf' := if t_incoming tf =? 0 then set_incoming 1 tf else tf) in *.
  assert (ND : forall (f : tag_info -> dests), True) by auto. clear ND.
  assert (SAME : forall k tk', nth_error T' k = Some tk' -> exists tk, nth_error T k = Some tk /\ t_dests tk' = t_dests tk /\ t_state tk' = t_state tk /\ t_noop tk' = t_noop tk /\ t_base tk' = t_base tk /\ t_incoming tk <= t_incoming tk').
  { intros k tk' H. destruct (Nat.eq_dec k first) as [->|Nk].
    - rewrite U5 in H. injection H as <-. exists tf. unfold tf'. destruct (Z.eqb_spec (t_incoming tf) 0); cbn [set_incoming t_dests t_state t_noop t_base t_incoming]; repeat (split; [auto|]); lia.
    - rewrite U3 in H by assumption. exists tk'. repeat (split; [auto|]). lia. }
  assert (SD : t_dests tf' = t_dests tf) by (unfold tf'; destruct (t_incoming tf =? 0); reflexivity).
  assert (INC : 0 <= t_incoming tf).
  { rewrite (C3 first tf U4). apply rows_sum_nonneg. intros t ti H. unfold np. destruct (find_dest first (t_dests ti)) as [d|] eqn:Ed; [|lia]. destruct (C2 t ti H) as (_ & X & _). specialize (X first d Ed). destruct (d_pos d); lia. }
  assert (NPS : forall k, npsum k T' = npsum k T).
  { intros k. unfold npsum. rewrite (rows_sum_change (fun t => np k (t_dests t)) T T' first tf tf'); try assumption; [rewrite SD; lia|]. intros j Nj. rewrite U3 by assumption. reflexivity. }
  exists T', (map (fun t => dkeys (t_dests t)) T'). split; [reflexivity|]. split; [constructor|split].
  - lia.
  - reflexivity.
  - intros t ti H. destruct (SAME t ti H) as (ti0 & S1 & -> & _). destruct (C2 t ti0 S1) as (X1 & X2 & _). split; [assumption|]. intros k d Hd. specialize (X2 k d Hd). tauto.
  - intros k tk H. destruct (SAME k tk H) as (tk0 & S1 & _ & _ & _ & _ & S2). rewrite NPS, <- (C3 k tk0 S1). exact S2.
  - rewrite (rows_sum_change row_sum_of T T' first tf tf'); try assumption; [unfold row_sum_of in C4 |- *; rewrite SD; lia|]. intros j Nj. rewrite U3 by assumption. reflexivity.
  - rewrite (rows_sum_change t_incoming T T' first tf tf'); try assumption; [|intros j Nj; rewrite U3 by assumption; reflexivity].
    unfold tf'. destruct (Z.eqb_spec (t_incoming tf) 0); cbn [set_incoming t_incoming]; lia.
  - left. exists tf'. split; [assumption|]. unfold tf'. destruct (Z.eqb_spec (t_incoming tf) 0); cbn [set_incoming t_incoming]; lia.
  - intros a b H. destruct (H2 a b H) as (ti & X1 & X2). destruct (Nat.eq_dec a first) as [->|Na].
    + exists tf'. split; [assumption|]. rewrite SD. rewrite U4 in X1. injection X1 as <-. assumption.
    + exists ti. rewrite U3 by assumption. auto.
  - intros t ti H. destruct (SAME t ti H) as (ti0 & S1 & -> & -> & -> & -> & _). destruct (C2 t ti0 S1) as (_ & X2 & X3). split; [|assumption]. intros k d Hd. specialize (X2 k d Hd). tauto.
Qed.

(** ** Moving transitions to a private list *)
Definition lowered (f : nat -> Z) (T T' : list tag_info) : Prop :=
  length T' = length T /\ forall k tk, nth_error T k = Some tk -> nth_error T' k = Some (set_incoming (t_incoming tk - f k) tk).
Definition lowered_eq T T' : lowered (fun _ => 0) T T' -> T' = T.
Proof.
  intros [L H]. apply nth_ext. intros k. destruct (nth_error T k) as [tk|] eqn:E.
  - rewrite (H k tk E). f_equal. destruct tk. unfold set_incoming. cbn. f_equal. lia.
  - apply nth_error_None in E. apply nth_error_None. lia.
Qed.
Record privatized (t : nat) (f : nat -> Z) (T T' : list tag_info) : Prop := {
  z_len : length T' = length T;
  z_other : forall k tk, k <> t -> nth_error T k = Some tk -> nth_error T' k = Some (set_incoming (t_incoming tk - f k) tk);
  z_row : exists ti ti', nth_error T t = Some ti /\ nth_error T' t = Some ti' /\ t_incoming ti' = t_incoming ti - f t /\ dkeys (t_dests ti') = dkeys (t_dests ti) /\
    (forall k, ~ In k (dkeys (t_dests ti)) -> f k = 0) /\
    forall k d, find_dest k (t_dests ti) = Some d -> exists d', find_dest k (t_dests ti') = Some d' /\ d_count d' = d_count d /\
      ((f k = 0 /\ (d_pos d' = None <-> d_pos d = None)) \/ (f k = d_count d /\ d_pos d = None /\ d_pos d' <> None)) }.
Lemma privatized_counted n N first K T T' t f : counted n N first K T -> privatized t f T T' -> counted n N first K T'.
Proof.
  intros [C1 C2 C3 C4 C5 C6 C7] [Z1 Z2 (ti & ti' & R1 & R2 & R3 & R4 & R5 & R6)].
  destruct (C3 t ti R1) as [ND ROW].
  assert (ND' : NoDup (dkeys (t_dests ti'))) by (rewrite R4; exact ND).
  assert (FIND : forall k d', find_dest k (t_dests ti') = Some d' -> exists d, find_dest k (t_dests ti) = Some d /\ d_count d' = d_count d /\
      ((f k = 0 /\ (d_pos d' = None <-> d_pos d = None)) \/ (f k = d_count d /\ d_pos d = None /\ d_pos d' <> None))).
  { intros k d' H. assert (IK : In k (dkeys (t_dests ti))) by (rewrite <- R4; apply find_dest_key; exists d'; assumption). apply find_dest_key in IK. destruct IK as [d Hd].
    destruct (R6 k d Hd) as (d1 & D1 & D2). rewrite H in D1. injection D1 as <-. exists d. auto. }
  assert (F0 : forall k, 0 <= f k).
  { intros k. destruct (in_dec Nat.eq_dec k (dkeys (t_dests ti))) as [IK|IK]; [|rewrite R5 by assumption; lia]. apply find_dest_key in IK. destruct IK as [d Hd].
    destruct (R6 k d Hd) as (d1 & _ & _ & [[X _]|[X _]]); [lia|]. specialize (ROW k d Hd). lia. }
  assert (OTH : forall j, j <> t -> exists g : tag_info -> tag_info, nth_error T' j = option_map g (nth_error T j) /\ forall x, g x = set_incoming (t_incoming x - f j) x).
  { intros j Nj. exists (fun x => set_incoming (t_incoming x - f j) x). split; [|reflexivity]. destruct (nth_error T j) as [tj|] eqn:E; cbn [option_map]; [apply Z2; assumption|].
    apply nth_error_None in E. apply nth_error_None. lia. }
  assert (OD : forall {A} (h : tag_info -> A), (forall x n, h (set_incoming n x) = h x) -> forall j, j <> t -> option_map h (nth_error T' j) = option_map h (nth_error T j)).
  { intros A h Hh j Nj. destruct (OTH j Nj) as (g & -> & G). destruct (nth_error T j); cbn [option_map]; [rewrite G, Hh; reflexivity|reflexivity]. }
  assert (NP : forall k, npsum k T' = npsum k T - f k).
  { intros k. unfold npsum. rewrite (rows_sum_change (fun t => np k (t_dests t)) T T' t ti ti'); try assumption; [|intros j Nj; apply (OD _ (fun t => np k (t_dests t))); [reflexivity|assumption]].
    cut (np k (t_dests ti') = np k (t_dests ti) - f k); [lia|]. unfold np. destruct (find_dest k (t_dests ti)) as [d|] eqn:E.
    - destruct (R6 k d E) as (d' & -> & -> & [[-> X]|[-> [X1 X2]]]).
      + destruct (d_pos d'), (d_pos d); destruct X as [X1 X2]; try lia; [specialize (X2 eq_refl); discriminate|specialize (X1 eq_refl); discriminate].
      + rewrite X1. destruct (d_pos d'); [lia|congruence].
    - assert (N1 : ~ In k (dkeys (t_dests ti))) by (intros H; apply find_dest_key in H; destruct H; congruence). rewrite (find_dest_none k (t_dests ti')); [|rewrite R4; assumption]. rewrite R5 by assumption. lia. }
  assert (INC : forall k tk', nth_error T' k = Some tk' -> exists tk, nth_error T k = Some tk /\ t_incoming tk' = t_incoming tk - f k).
  { intros k tk' H. destruct (Nat.eq_dec k t) as [->|Nk]; [rewrite R2 in H; injection H as <-; exists ti; auto|]. destruct (nth_error T k) as [tk|] eqn:E; [|apply nth_error_None in E; assert (k < length T')%nat by (apply nth_error_Some; congruence); lia].
    rewrite (Z2 k tk Nk E) in H. injection H as <-. exists tk. auto. }
  constructor.
  - lia.
  - rewrite <- C2. apply nth_ext. intros j. rewrite !nth_error_map. destruct (Nat.eq_dec j t) as [->|Nj]; [rewrite R1, R2; cbn [option_map]; rewrite R4; reflexivity|].
    apply (OD _ (fun t => dkeys (t_dests t))); [reflexivity|assumption].
  - intros j tj H. destruct (Nat.eq_dec j t) as [->|Nj].
    + rewrite R2 in H. injection H as <-. split; [assumption|]. intros k d' Hd. destruct (FIND k d' Hd) as (d & D1 & D2 & _). specialize (ROW k d D1). lia.
    + destruct (OTH j Nj) as (g & X & G). rewrite X in H. destruct (nth_error T j) as [tj0|] eqn:E; [|discriminate]. cbn [option_map] in H. injection H as <-. rewrite G. exact (C3 j tj0 E).
  - intros k tk' H. destruct (INC k tk' H) as (tk & X1 & ->). rewrite NP. specialize (C4 k tk X1). lia.
  - rewrite (rows_sum_change row_sum_of T T' t ti ti'); try assumption; [|intros j Nj; apply (OD _ row_sum_of); [reflexivity|assumption]].
    unfold row_sum_of at 2 3. rewrite (row_sum_keys (t_dests ti) (t_dests ti') R4 ND); [lia|]. intros k d Hd. destruct (R6 k d Hd) as (d' & D1 & D2 & _). exists d'; auto.
  - transitivity (rows_sum t_incoming T); [|assumption]. apply rows_sum_le; [assumption|]. intros j a b Ha Hb. destruct (INC j b Hb) as (a' & X1 & X2). rewrite Ha in X1. injection X1 as <-. specialize (F0 j). lia.
  - destruct C7 as [(tf & X1 & X2)|(j & tj & d & X1 & X2 & X3)].
    + destruct (in_dec Nat.eq_dec first (dkeys (t_dests ti))) as [IK|IK].
      * apply find_dest_key in IK. destruct IK as [d Hd]. destruct (R6 first d Hd) as (d' & D1 & D2 & [[X _]|(X & _ & X4)]).
        -- left. destruct (Nat.eq_dec first t) as [->|Nf]; [exists ti'; split; [assumption|]; rewrite R1 in X1; injection X1 as <-; lia|].
           exists (set_incoming (t_incoming tf - f first) tf). split; [apply Z2; assumption|]. cbn [set_incoming t_incoming]. lia.
        -- right. exists t, ti', d'. auto.
      * left. specialize (R5 first IK). destruct (Nat.eq_dec first t) as [->|Nf]; [exists ti'; split; [assumption|]; rewrite R1 in X1; injection X1 as <-; lia|].
        exists (set_incoming (t_incoming tf - f first) tf). split; [apply Z2; assumption|]. cbn [set_incoming t_incoming]. lia.
    + right. destruct (Nat.eq_dec j t) as [->|Nj].
      * rewrite R1 in X1. injection X1 as <-. destruct (R6 first d X2) as (d' & D1 & D2 & [[_ X]|(_ & _ & X)]); exists t, ti', d'; [|auto]. split; [assumption|]. split; [assumption|]. rewrite X. assumption.
      * exists j, (set_incoming (t_incoming tj - f j) tj), d. split; [apply Z2; assumption|]. auto.
Qed.

Section Mark.
Variable order : nat -> dests -> dests.
Hypothesis order_perm : forall t l, Permutation (order t l) l.
Variable min_count : Z.
Definition frequent (d : dest_info) : bool := min_count <=? d_count d.
Lemma mark_dests_ok l : forall T, NoDup (dkeys l) -> (forall k, In k (dkeys l) -> (k < length T)%nat) ->
  exists T', mark_dests min_count l T = Some T' /\ lowered (fun k => match find_dest k l with Some d => if frequent d then d_count d else 0 | None => 0 end) T T'.
Proof.
  induction l as [|[k d] l IH]; intros T ND HK; cbn [mark_dests].
  - exists T. split; [reflexivity|]. split; [reflexivity|]. intros k tk H. rewrite H. f_equal. destruct tk. unfold set_incoming. cbn. f_equal. lia.
  - cbn [map fst] in ND. apply NoDup_cons_iff in ND. destruct ND as [N1 N2]. fold (frequent d).
    assert (NF : find_dest k l = None) by (apply find_dest_none; assumption).
    destruct (frequent d) eqn:Ef.
    + destruct (update_total (fun t => set_incoming (t_incoming t - d_count d) t) T k) as [T1 E1]; [apply HK; left; reflexivity|]. rewrite E1.
      destruct (update_spec _ _ _ _ E1) as (U1 & U2 & U3 & (tk & U4 & U5)).
      destruct (IH T1 N2) as (T' & E' & L1 & L2); [intros k0 H0; rewrite U1; apply HK; right; exact H0|]. exists T'. split; [exact E'|]. split; [lia|].
      intros k0 tk0 H0. cbn [find_dest]. destruct (Nat.eqb_spec k k0) as [<-|Nk].
      * rewrite U4 in H0. injection H0 as <-. rewrite Ef. specialize (L2 k _ U5). rewrite NF in L2. rewrite L2. f_equal. unfold set_incoming. cbn. f_equal. lia.
      * apply L2. rewrite U3; [assumption|congruence].
    + destruct (IH T N2) as (T' & E' & L1 & L2); [intros k0 H0; apply HK; right; exact H0|]. exists T'. split; [exact E'|]. split; [assumption|].
      intros k0 tk0 H0. cbn [find_dest]. destruct (Nat.eqb_spec k k0) as [<-|Nk]; [|apply L2; assumption]. rewrite Ef. specialize (L2 k _ H0). rewrite NF in L2. exact L2.
Qed.
(** Rows whose destinations are not placed yet *)
Definition fresh (ti : tag_info) : Prop := t_state ti = None /\ t_noop ti = None /\ t_base ti = None.
Definition unplaced (ti : tag_info) : Prop := forall k d, find_dest k (t_dests ti) = Some d -> d_pos d = None \/ d_pos d = Some O.
Lemma mark_all_ok n N first K : forall m id T, (id + m = n)%nat -> counted n N first K T ->
  (forall t ti, nth_error T t = Some ti -> fresh ti /\ unplaced ti /\ ((id <= t)%nat -> forall k d, find_dest k (t_dests ti) = Some d -> d_pos d = None)) ->
  exists T', mark_all order min_count m id T = Some T' /\ counted n N first K T' /\ (forall t ti, nth_error T' t = Some ti -> fresh ti /\ unplaced ti).
Proof.
  induction m as [|m IH]; intros id T Hm C R; cbn [mark_all].
  - exists T. split; [reflexivity|]. split; [assumption|]. intros t ti H. destruct (R t ti H) as (X1 & X2 & _). auto.
  - pose proof (v_len _ _ _ _ _ C) as CL. destruct (nth_error T id) as [ti|] eqn:Et; [|apply nth_error_None in Et; lia].
    destruct (v_row _ _ _ _ _ C id ti Et) as [ND ROW]. pose proof (order_perm id (t_dests ti)) as OP.
    assert (ND' : NoDup (dkeys (order id (t_dests ti)))) by (eapply Permutation_NoDup; [apply Permutation_map, Permutation_sym, OP|exact ND]).
    assert (FE : forall k, find_dest k (order id (t_dests ti)) = find_dest k (t_dests ti)) by (intros k; apply find_dest_perm; assumption).
    destruct (mark_dests_ok (order id (t_dests ti)) T ND') as (T1 & E1 & L1 & L2).
    { intros k H. apply find_dest_key in H. destruct H as [d Hd]. rewrite FE in Hd. specialize (ROW k d Hd). lia. }
    rewrite E1. set (g := fun kd : nat * dest_info => let (k, d) := kd in if min_count <=? d_count d then (k, {| d_pos := Some O; d_count := d_count d |}) else (k, d)).
    destruct (update_total (fun t => set_dests (map g (t_dests t)) t) T1 id) as [T2 E2]; [lia|]. rewrite E2. destruct (update_spec _ _ _ _ E2) as (U1 & U2 & U3 & (t1 & U4 & U5)).
    set (f := fun k => match find_dest k (t_dests ti) with Some d => if frequent d then d_count d else 0 | None => 0 end).
    assert (LW : forall k tk, nth_error T k = Some tk -> nth_error T1 k = Some (set_incoming (t_incoming tk - f k) tk)).
    { intros k tk H. rewrite (L2 k tk H). unfold f. rewrite FE. reflexivity. }
    rewrite (LW id ti Et) in U4. injection U4 as <-. cbn [set_incoming t_dests] in U5.
    assert (FG : forall k l, find_dest k (map g l) = option_map (fun d => if frequent d then {| d_pos := Some O; d_count := d_count d |} else d) (find_dest k l)).
    { intros k l. induction l as [|[k0 d0] l IHl]; [reflexivity|]. cbn [map find_dest g]. unfold frequent. destruct (min_count <=? d_count d0) eqn:Q; cbn [find_dest]; destruct (Nat.eqb k0 k); cbn [option_map]; rewrite ?Q; auto. }
    assert (KG : forall l, dkeys (map g l) = dkeys l).
    { intros l. rewrite map_map. apply map_ext. intros [k0 d0]. cbn [g]. destruct (min_count <=? d_count d0); reflexivity. }
    assert (P : privatized id f T T2).
    { constructor.
      - lia.
      - intros k tk Nk H. rewrite U3 by assumption. apply LW; assumption.
      - exists ti. eexists. split; [assumption|]. split; [exact U5|]. cbn [set_dests t_incoming t_dests]. split; [reflexivity|]. split; [apply KG|]. split.
        + intros k Nk. unfold f. rewrite find_dest_none by assumption. reflexivity.
        + intros k d Hd. rewrite FG, Hd. cbn [option_map]. eexists. split; [reflexivity|]. unfold f. rewrite Hd. destruct (frequent d); cbn [d_count d_pos]; (split; [reflexivity|]).
          * right. split; [reflexivity|]. split; [|discriminate]. destruct (R id ti Et) as (_ & _ & X). eapply X; [lia|eassumption].
          * left. split; [reflexivity|tauto]. }
    destruct (IH (S id) T2) as (T' & I1 & I2 & I3); [lia|eapply privatized_counted; eassumption| |exists T'; auto].
    intros t tt H. destruct (Nat.eq_dec t id) as [->|Nt].
    + rewrite U5 in H. injection H as <-. destruct (R id ti Et) as ((X1 & X2 & X3) & X4 & X5). split; [unfold fresh; cbn [set_dests t_state t_noop t_base]; auto|]. split; [|lia].
      intros k d. cbn [set_dests t_dests]. rewrite FG. destruct (find_dest k (t_dests ti)) as [d0|] eqn:Ed; [|discriminate]. cbn [option_map]. intros H; injection H as <-.
      destruct (frequent d0); [right; reflexivity|apply (X4 k d0 Ed)].
    + rewrite U3 in H by assumption. destruct (nth_error T t) as [tt0|] eqn:E0; [|apply nth_error_None in E0; assert (t < length T1)%nat by (apply nth_error_Some; congruence); lia].
      rewrite (LW t tt0 E0) in H. injection H as <-. destruct (R t tt0 E0) as ((X1 & X2 & X3) & X4 & X5). unfold fresh, unplaced. cbn [set_incoming t_state t_noop t_base t_dests].
      split; [auto|]. split; [exact X4|]. intros Ht. apply X5. lia.
Qed.
End Mark.
