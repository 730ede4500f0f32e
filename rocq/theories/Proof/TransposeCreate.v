(** CreateStateMachine: the machine it makes, and how every transition is made in it. *)
From Coq Require Import Permutation.
From Verif Require Import Base.Bytes Model.Endian Model.Varint Model.Chunk Model.SimpleChunk Model.TransposeEncoder Model.TransposeDecoder.
From Verif Require Import Proof.TransposeLoops Proof.TransposePath Proof.TransposeFill Proof.TransposeList Proof.TransposeCollect Proof.TransposePrivate Proof.TransposePublic.

Section Create.
Variable order : nat -> dests -> dests.
Hypothesis order_perm : forall t l, Permutation (order t l) l.
Variable mt : nat.

(** ** The bases of the public list *)
Definition public_list (machine : list state_info) (L H : nat) : Prop := (exists ht, segment mt machine L H ht) \/ (H <= L)%nat.
Lemma public_list_extends a b L H : public_list a L H -> extends a b -> public_list b L H.
Proof. intros [[ht G]|G] E; [left; exists ht; eapply segment_extends; eassumption|right; exact G]. Qed.
Lemma min_pos_private machine T L l : forall base m, (forall k d, In (k, d) l -> d_pos d <> None) -> min_pos_of mt machine T L base m l = Some m.
Proof.
  induction l as [|[k d] l IH]; intros base m H; cbn [min_pos_of]; [reflexivity|]. destruct (d_pos d) eqn:E; [|exfalso; apply (H k d (or_introl eq_refl) E)].
  apply IH. intros k0 d0 H0. apply (H k0 d0). right; exact H0.
Qed.
Lemma min_pos_order machine T L H st t l : public_list machine L H -> states st T -> pub_ok L H st l ->
  (min_pos_of mt machine T L None None (order t l) = Some None /\ forall k d, In (k, d) l -> d_pos d <> None) \/
  (exists m, min_pos_of mt machine T L None None (order t l) = Some (Some m) /\ (L <= m < H)%nat /\ (exists k d, In (k, d) l /\ d_pos d = None) /\
    (forall k d q, In (k, d) l -> d_pos d = None -> st k = Some q -> (L <= q < H)%nat /\ reach mt machine m q) /\
    (length l = 1%nat -> forall k d q, In (k, d) l -> d_pos d = None -> st k = Some q -> m = q)).
Proof.
  intros PL ST P. pose proof (order_perm t l) as OP. assert (TO : forall x, In x l -> In x (order t l)) by (intros x; apply Permutation_in, Permutation_sym, OP).
  assert (FROM : forall x, In x (order t l) -> In x l) by (intros x; apply Permutation_in, OP). destruct PL as [[ht G]|PL].
  - assert (P' : pub_ok L H st (order t l)) by (intros k d Hk; apply P, FROM, Hk).
    destruct (min_pos_ok mt machine L H ht G st T (order t l) ST P') as [[X1 X2]|(m & X1 & X2 & (k & d & X3 & X4) & X5 & X6)].
    + left. split; [exact X1|]. intros k d Hk. apply (X2 k d), TO, Hk.
    + right. exists m. split; [exact X1|]. split; [exact X2|]. split; [exists k, d; auto|]. split; [intros k0 d0 q Hk; apply (X5 k0 d0 q), TO, Hk|].
      intros E k0 d0 q Hk. apply (X6 ltac:(rewrite (Permutation_length OP); exact E) k0 d0 q), TO, Hk.
  - left. assert (X : forall k d, In (k, d) l -> d_pos d <> None) by (intros k d Hk Hd; destruct (P k d Hk Hd) as (q & _ & Q); lia).
    split; [|exact X]. apply min_pos_private. intros k d Hk. apply (X k d), FROM, Hk.
Qed.

Lemma noop_bases_ok T L H st : states st T -> forall noops machine, public_list machine L H -> NoDup (map snd noops) ->
  (forall t q, In (t, q) noops -> exists ti s, nth_error T t = Some ti /\ pub_ok L H st (t_dests ti) /\ (exists k d, In (k, d) (t_dests ti) /\ d_pos d = None) /\
     nth_error machine q = Some s /\ s_base s = None) ->
  exists machine', noop_bases order mt noops T L machine = Some machine' /\ length machine' = length machine /\ extends machine machine' /\
    (forall q, ~ In q (map snd noops) -> nth_error machine' q = nth_error machine q) /\
    forall t q ti, In (t, q) noops -> nth_error T t = Some ti -> exists m, base_of machine' q = Some m /\ (L <= m < H)%nat /\
      forall k d x, In (k, d) (t_dests ti) -> d_pos d = None -> st k = Some x -> (L <= x < H)%nat /\ reach mt machine' m x.
Proof.
  intros ST. induction noops as [|[t q] noops IH]; intros machine PL ND HN; cbn [noop_bases].
  - exists machine. split; [reflexivity|]. split; [reflexivity|]. split; [apply extends_refl|]. split; [auto|]. intros t q ti [].
  - destruct (HN t q (or_introl eq_refl)) as (ti & s & T1 & T2 & T3 & T4 & T5). rewrite T1. cbn [map snd] in ND. apply NoDup_cons_iff in ND. destruct ND as [ND1 ND2].
    destruct (min_pos_order machine T L H st t (t_dests ti) PL ST T2) as [[_ X]|(m & X1 & X2 & X3 & X4 & _)]; [exfalso; destruct T3 as (k & d & Y1 & Y2); apply (X k d Y1 Y2)|].
    rewrite X1. destruct (update_total (fun s => {| s_tag := s_tag s; s_base := Some m; s_source := s_source s |}) machine q) as [m1 E1]; [apply nth_error_Some; congruence|].
    rewrite E1. destruct (update_spec _ _ _ _ E1) as (U1 & U2 & U3 & (s0 & U4 & U5)). rewrite T4 in U4. injection U4 as <-.
    assert (EX : extends machine m1).
    { intros p sp Hp. destruct (Nat.eq_dec p q) as [->|N]; [|exists sp; rewrite U3 by assumption; auto]. rewrite T4 in Hp. injection Hp as <-. eexists. split; [exact U5|]. cbn [s_tag s_source s_base]. split; [reflexivity|]. split; [reflexivity|]. congruence. }
    destruct (IH m1 (public_list_extends _ _ _ _ PL EX) ND2) as (m2 & I1 & I2 & I3 & I4 & I5).
    { intros t0 q0 Hq. destruct (HN t0 q0 (or_intror Hq)) as (ti0 & s0 & Y1 & Y2 & Y3 & Y4 & Y5). exists ti0, s0. split; [assumption|]. split; [assumption|]. split; [assumption|]. split; [|assumption].
      rewrite U3; [exact Y4|]. intros ->. apply ND1. apply in_map_iff. exists (t0, q). auto. }
    exists m2. split; [exact I1|]. split; [lia|]. split; [eapply extends_trans; eassumption|]. split.
    + intros p Hp. cbn [map snd In] in Hp. rewrite I4 by tauto. apply U3. intros ->. tauto.
    + intros t0 q0 ti0 [Hq|Hq] Ht; [|apply (I5 t0 q0 ti0 Hq Ht)]. injection Hq as <- <-. rewrite T1 in Ht. injection Ht as <-. exists m.
      split; [unfold base_of; rewrite (I4 q ND1), U5; reflexivity|]. split; [exact X2|]. intros k d x Hk Hd Hx. destruct (X4 k d x Hk Hd Hx) as [Y1 Y2]. split; [exact Y1|].
      eapply reach_extends; [|exact Y2]. eapply extends_trans; eassumption.
Qed.

Definition based_row (machine : list state_info) (L H : nat) (st : nat -> option nat) (ti ti' : tag_info) : Prop :=
  (ti' = ti /\ (t_base ti = None -> forall k d, In (k, d) (t_dests ti) -> d_pos d <> None)) \/
  (t_base ti = None /\ exists m, ti' = set_base m ti /\ (L <= m < H)%nat /\
    (forall k d q, In (k, d) (t_dests ti) -> d_pos d = None -> st k = Some q -> (L <= q < H)%nat /\ reach mt machine m q) /\
    (length (t_dests ti) = 1%nat -> forall k d q, In (k, d) (t_dests ti) -> d_pos d = None -> st k = Some q -> m = q)).
Lemma tag_bases_ok machine L H st : public_list machine L H -> forall m id T, (id + m = length T)%nat -> states st T ->
  (forall t ti, nth_error T t = Some ti -> pub_ok L H st (t_dests ti)) ->
  exists T', tag_bases order mt m id machine L T = Some T' /\ length T' = length T /\ (forall t, (t < id)%nat -> nth_error T' t = nth_error T t) /\
    forall t ti, (id <= t)%nat -> nth_error T t = Some ti -> exists ti', nth_error T' t = Some ti' /\ based_row machine L H st ti ti'.
Proof.
  intros PL. induction m as [|m IH]; intros id T Hm ST P; cbn [tag_bases].
  - exists T. split; [reflexivity|]. split; [reflexivity|]. split; [auto|]. intros t ti H1 H2. exfalso. assert (t < length T)%nat by (apply nth_error_Some; congruence). lia.
  - destruct (nth_error T id) as [ti|] eqn:Et; [|apply nth_error_None in Et; lia].
    assert (SKIP : based_row machine L H st ti ti -> exists T', tag_bases order mt m (S id) machine L T = Some T' /\ length T' = length T /\ (forall t, (t < id)%nat -> nth_error T' t = nth_error T t) /\
      forall t ti, (id <= t)%nat -> nth_error T t = Some ti -> exists ti', nth_error T' t = Some ti' /\ based_row machine L H st ti ti').
    { intros B. destruct (IH (S id) T ltac:(lia) ST P) as (T' & I1 & I2 & I3 & I4). exists T'. split; [exact I1|]. split; [exact I2|]. split; [intros t Ht; apply I3; lia|].
      intros t t0 H1 H2. destruct (Nat.eq_dec t id) as [->|N]; [|apply I4; [lia|exact H2]]. rewrite Et in H2. injection H2 as <-. exists ti. split; [rewrite I3 by lia; exact Et|exact B]. }
    destruct (t_base ti) as [b|] eqn:Eb; [apply SKIP; left; split; [reflexivity|congruence]|].
    destruct (min_pos_order machine T L H st id (t_dests ti) PL ST (P id ti Et)) as [[X1 X2]|(p & X1 & X2 & X3 & X4 & X5)]; rewrite X1.
    + apply SKIP. left. auto.
    + destruct (update_total (set_base p) T id) as [T1 E1]; [lia|]. rewrite E1. destruct (update_spec _ _ _ _ E1) as (U1 & U2 & U3 & (t1 & U4 & U5)). rewrite Et in U4. injection U4 as <-.
      assert (FW : forall t t0, nth_error T t = Some t0 -> exists t2, nth_error T1 t = Some t2 /\ t_dests t2 = t_dests t0 /\ t_state t2 = t_state t0).
      { intros t t0 Ht. destruct (Nat.eq_dec t id) as [->|N]; [rewrite Et in Ht; injection Ht as <-; eexists; split; [exact U5|split; reflexivity]|exists t0; rewrite U3 by assumption; auto]. }
      destruct (IH (S id) T1 ltac:(lia)) as (T' & I1 & I2 & I3 & I4).
      { intros k q Hq. destruct (ST k q Hq) as (tk & Y1 & Y2). destruct (FW k tk Y1) as (t2 & Z1 & _ & Z2). exists t2. split; [assumption|congruence]. }
      { intros t t2 Ht. destruct (Nat.eq_dec t id) as [->|N]; [rewrite U5 in Ht; injection Ht as <-; apply (P id ti Et)|]. rewrite U3 in Ht by assumption. apply (P t t2 Ht). }
      exists T'. split; [exact I1|]. split; [lia|]. split; [intros t Ht; rewrite I3 by lia; apply U3; lia|].
      intros t t0 H1 H2. destruct (Nat.eq_dec t id) as [->|N].
      * rewrite Et in H2. injection H2 as <-. exists (set_base p ti). split; [rewrite I3 by lia; exact U5|]. right. split; [exact Eb|]. exists p. auto.
      * apply I4; [lia|]. rewrite U3 by assumption. exact H2.
Qed.

(** ** What is created *)
Variable mt_big : (63 <= mt)%nat.
Definition tag_at (M : list state_info) (q k : nat) : Prop := exists s, nth_error M q = Some s /\ s_tag s = Some k.
Definition led (M : list state_info) (T : list tag_info) (ti : tag_info) (k : nat) (d : dest_info) : Prop :=
  exists base tk, t_base ti = Some base /\ nth_error T k = Some tk /\ (length (t_dests ti) = 1%nat -> tag_at M base k) /\
    match d_pos d with
    | Some q => tag_at M q k /\ climbs mt M base q
    | None => exists q, t_state tk = Some q /\ (q < length M)%nat /\
        match t_noop ti with
        | None => climbs mt M base q
        | Some z => climbs mt M base z /\ exists m, base_of M z = Some m /\ climbs mt M m q
        end
    end.
Record created (n : nat) (first : nat) (K : list (list nat)) (M : list state_info) (T : list tag_info) : Prop := {
  cr_len : length T = n;
  cr_keys : map (fun t => dkeys (t_dests t)) T = K;
  cr_nodup : forall t ti, nth_error T t = Some ti -> NoDup (dkeys (t_dests ti));
  cr_size : (length M <= 2 * (length (concat K) + n))%nat;
  cr_kind : forall q s, nth_error M q = Some s -> match s_tag s with Some k => (k < n)%nat | None => exists b, s_base s = Some b /\ (b < length M)%nat end;
  cr_source : forall q s c, nth_error M q = Some s -> s_source s = Some c -> exists s', nth_error M c = Some s' /\ s_tag s' = None;
  cr_row : forall t ti k d, nth_error T t = Some ti -> find_dest k (t_dests ti) = Some d -> led M T ti k d;
  cr_base : forall t ti b, nth_error T t = Some ti -> t_base ti = Some b -> (b < length M)%nat;
  cr_state : forall t ti q, nth_error T t = Some ti -> t_state ti = Some q -> tag_at M q t;
  cr_noop : forall t ti q, nth_error T t = Some ti -> t_noop ti = Some q -> exists s, nth_error M q = Some s /\ s_tag s = None;
  cr_first : exists q, tag_at M q first }.
Lemma row_length l : (forall k d, In (k, d) l -> 1 <= d_count d) -> zlen l <= row_sum l.
Proof.
  induction l as [|[k d] l IH]; intros H; [cbn; lia|]. cbn [row_sum fold_right snd]. fold (row_sum l). rewrite zlen_cons. pose proof (H k d (or_introl eq_refl)). specialize (IH (fun k0 d0 Hk => H k0 d0 (or_intror Hk))). lia.
Qed.
Lemma rows_length T : (forall t ti, nth_error T t = Some ti -> zlen (t_dests ti) <= row_sum_of ti) -> zlen (concat (map (fun t => dkeys (t_dests t)) T)) <= rows_sum row_sum_of T.
Proof.
  induction T as [|t T IH]; intros H; [cbn; lia|]. cbn [map concat rows_sum fold_right]. fold (rows_sum row_sum_of T). rewrite zlen_app. pose proof (H O t eq_refl) as H0. specialize (IH (fun k => H (S k))).
  unfold zlen in *. rewrite map_length. lia.
Qed.
Lemma collect_from l : forall prev T T', collect prev l T = Some T' -> forall a b, has_dest T' a b -> has_dest T a b \/ In a (prev :: l).
Proof.
  induction l as [|pos l IH]; intros prev T T' E a b H; cbn [collect] in E; [injection E as <-; auto|].
  destruct (update prev _ T) as [T1|] eqn:E1; [|discriminate]. destruct (update pos _ T1) as [T2|] eqn:E2; [|discriminate].
  destruct (IH pos T2 T' E a b H) as [(t2 & X1 & X2)|X]; [|right; right; exact X]. destruct (update_spec _ _ _ _ E1) as (_ & _ & U3 & _). destruct (update_spec _ _ _ _ E2) as (_ & _ & V3 & (x & V4 & V5)).
  destruct (Nat.eq_dec a prev) as [->|N]; [right; left; reflexivity|]. destruct (Nat.eq_dec a pos) as [->|N']; [right; right; left; reflexivity|]. left. exists t2. rewrite <- U3, <- V3 by assumption. auto.
Qed.
Lemma collected_from n first rest T : CollectTransitionStatistics (first :: rest) (repeat new_tag_info n) = Some T -> forall a b, has_dest T a b -> In a (first :: rest).
Proof.
  unfold CollectTransitionStatistics. destruct (collect first rest (repeat new_tag_info n)) as [T1|] eqn:E; [|discriminate]. intros E1 a b (t & X1 & X2). destruct (update_spec _ _ _ _ E1) as (_ & _ & U3 & (x & U4 & U5)).
  destruct (Nat.eq_dec a first) as [->|N]; [left; reflexivity|]. rewrite U3 in X1 by assumption. destruct (collect_from rest first _ T1 E a b) as [(t0 & Y1 & Y2)|Y]; [exists t; auto| |exact Y].
  apply nth_error_In, repeat_spec in Y1. subst t0. destruct Y2.
Qed.
Lemma list_eq_dec_nil {A} (l : list A) : l = [] \/ l <> [].
Proof. destruct l; [left; reflexivity|right; discriminate]. Qed.
Lemma pq_length T : forall i, (length (pq i T) <= length T)%nat.
Proof.
  induction T as [|t T IH]; intros i; [apply Nat.le_refl|]. cbn [pq]. specialize (IH (S i)). destruct (t_incoming t =? 0); cbn [app length]; lia.
Qed.
Lemma length_one k k' (l : dests) d : find_dest k l = Some d -> length l = 1%nat -> In k' (dkeys l) -> k' = k.
Proof.
  intros F L I. destruct l as [|[k0 d0] [|? ?]]; cbn [length] in L; try discriminate. cbn [find_dest] in F. destruct (Nat.eqb_spec k0 k) as [->|]; [|discriminate]. destruct I as [I|[]]. symmetry; exact I.
Qed.

Lemma assemble n N first K M0 T0 noops : N + 1 < 2 ^ 63 -> built mt n N first K n M0 T0 noops ->
  exists M T, (match (match public_queue 0 T0 [] with [] => Some (M0, T0, noops) | _ => create_list mt None (public_queue 0 T0 []) M0 T0 noops end) with
    | None => None
    | Some (machine, tags, noops) =>
        match noop_bases order mt noops tags (length M0) machine with
        | None => None
        | Some machine => match tag_bases order mt n 0 machine (length M0) tags with None => None | Some tags => Some (machine, tags) end
        end
    end) = Some (M, T) /\ created n first K M T.
Proof.
  intros NS [C R UN UD UK US UZ UB]. pose proof (v_len _ _ _ _ _ C) as CL.
  destruct (public_queue_perm T0 0 []) as [QP QS]. rewrite app_nil_r in QP. specialize (QS ltac:(constructor)). set (Q := public_queue 0 T0 []) in *.
  assert (KQ : forall k, In (DTag k) (keys Q) <-> exists tk, nth_error T0 k = Some tk /\ t_incoming tk <> 0).
  { intros k. split.
    - intros H. apply (Permutation_in _ (Permutation_map fst QP)) in H. apply in_map_iff in H. destruct H as (e & E1 & E2). apply pq_in in E2. destruct E2 as (j & tj & X1 & X2 & ->). cbn [fst] in E1. injection E1 as <-. exists tj. auto.
    - intros (tk & X1 & X2). apply (Permutation_in _ (Permutation_sym (Permutation_map fst QP))). apply in_map_iff. exists (DTag k, t_incoming tk). split; [reflexivity|]. apply pq_in. exists k, tk. auto. }
  assert (INC : forall k tk, nth_error T0 k = Some tk -> 0 <= t_incoming tk) by (intros k tk H; pose proof (v_in _ _ _ _ _ C k tk H); pose proof (npsum_nonneg _ _ _ _ _ k C); lia).
  assert (PUBQ : forall t ti k d, nth_error T0 t = Some ti -> In (k, d) (t_dests ti) -> d_pos d = None -> In (DTag k) (keys Q)).
  { intros t ti k d Ht Hk Hd. destruct (v_row _ _ _ _ _ C t ti Ht) as [ND ROW]. apply find_dest_some in Hk; [|exact ND]. destruct (ROW k d Hk) as [Kn Kc].
    destruct (nth_error T0 k) as [tk|] eqn:Ek; [|apply nth_error_None in Ek; lia]. apply KQ. exists tk. split; [exact Ek|]. pose proof (v_in _ _ _ _ _ C k tk Ek). pose proof (npsum_one _ _ _ _ _ _ _ _ _ C Ht Hk Hd). lia. }
  (* the public list *)
  set (L := length M0).
  assert (PUB : exists M1 T1 H, (match Q with [] => Some (M0, T0, noops) | _ => create_list mt None Q M0 T0 noops end) = Some (M1, T1, noops) /\ length T1 = n /\ (L <= H)%nat /\ length M1 = H /\ (H <= L + 2 * n)%nat /\
     extends M0 M1 /\ (forall q, (q < L)%nat -> nth_error M1 q = nth_error M0 q) /\ public_list M1 L H /\
     (forall q s, (L <= q)%nat -> nth_error M1 q = Some s -> match s_tag s with Some k => (k < n)%nat | None => exists b, s_base s = Some b /\ (b < H)%nat end) /\
     (forall q s c, (L <= q)%nat -> nth_error M1 q = Some s -> s_source s = Some c -> exists s', nth_error M1 c = Some s' /\ s_tag s' = None) /\
     forall k ti, nth_error T0 k = Some ti -> exists ti1, nth_error T1 k = Some ti1 /\ t_dests ti1 = t_dests ti /\ t_base ti1 = t_base ti /\ t_noop ti1 = t_noop ti /\
       (forall q, t_state ti1 = Some q -> (L <= q < H)%nat /\ tag_at M1 q k) /\ (t_incoming ti <> 0 -> t_state ti1 <> None)).
  { clearbody Q. destruct (list_eq_dec_nil Q) as [->|QNE].
    - exists M0, T0, L. split; [reflexivity|]. split; [exact CL|]. split; [lia|]. split; [reflexivity|]. split; [lia|]. split; [apply extends_refl|]. split; [auto|]. split; [right; lia|]. split; [|split].
      + intros q s Hq Hs. exfalso. assert (q < length M0)%nat by (apply nth_error_Some; congruence). unfold L in Hq. lia.
      + intros q s c Hq Hs. exfalso. assert (q < length M0)%nat by (apply nth_error_Some; congruence). unfold L in Hq. lia.
      + intros k ti Hk. exists ti. split; [exact Hk|]. do 3 (split; [reflexivity|]). destruct (R k ti Hk) as (X & _). split; [intros q Hq; congruence|]. intros N0. exfalso. apply (proj2 (KQ k)). exists ti. auto.
    - assert (QPOS : Forall (fun e : entry => 1 <= snd e) Q).
      { apply Forall_forall. intros e He. apply (Permutation_in _ QP) in He. apply pq_in in He. destruct He as (k & tk & X1 & X2 & ->). cbn [snd]. pose proof (INC k tk X1). lia. }
      assert (QND : NoDup (keys Q)) by (eapply Permutation_NoDup; [apply Permutation_map, Permutation_sym, QP|apply pq_nodup]).
      assert (QT : forall x, In x (keys Q) -> exists k, x = DTag k).
      { intros x Hx. apply (Permutation_in _ (Permutation_map fst QP)) in Hx. apply in_map_iff in Hx. destruct Hx as (e & E1 & E2). apply pq_in in E2. destruct E2 as (j & tj & X1 & X2 & ->). exists j. symmetry. exact E1. }
      assert (QSUM : sum Q < 2 ^ 63) by (rewrite (sum_perm _ _ QP), pq_sum; pose proof (v_total _ _ _ _ _ C); lia).
      assert (QLEN : (length Q <= n)%nat).
      { rewrite (Permutation_length QP), <- CL. apply pq_length. }
      replace (match Q with [] => Some (M0, T0, noops) | _ => create_list mt None Q M0 T0 noops end) with (create_list mt None Q M0 T0 noops) by (destruct Q; [contradiction|reflexivity]).
      destruct (create_list_ok mt None Q M0 T0 noops mt_big QNE QND) as (new & T1 & noops1 & ht & E1 & E2 & _ & E3 & E4 & -> & E5 & E6).
      { intros i Hi. destruct (QT _ Hi). discriminate. }
      { split; [intros Hi; destruct (QT _ Hi); discriminate|]. intros k Hk. apply KQ in Hk. destruct Hk as (tk & X & _). apply nth_error_Some. congruence. }
      { exact QPOS. } { exact QS. } { exact QSUM. }
      exists (M0 ++ new), T1, (length M0 + length new)%nat. split; [exact E1|]. split; [lia|]. fold L in E3, E4, E6 |- *. split; [lia|]. split; [rewrite app_length; reflexivity|].
      split; [change (@length (dest_index * Z) Q) with (@length entry Q) in *; lia|]. split; [apply extends_app|]. split; [intros q Hq; apply nth_error_app1; exact Hq|]. split; [left; exists ht; exact E3|].
      assert (RNG : forall q s, nth_error (M0 ++ new) q = Some s -> (q < L + length new)%nat) by (intros q s Hs; unfold L; rewrite <- app_length; apply nth_error_Some; congruence).
      split; [|split].
      + intros q s Hq Hs. specialize (E4 q s (conj Hq (RNG q s Hs)) Hs). destruct (s_tag s) as [k|].
        * apply KQ in E4. destruct E4 as (tk & X & _). rewrite <- CL. apply nth_error_Some. congruence.
        * destruct E4 as [(b & X1 & X2)|(_ & t & X & _)]; [exists b; split; [assumption|lia]|discriminate].
      + intros q s c Hq Hs Hc. pose proof (g_state _ _ _ _ _ E3 q s (conj Hq (RNG q s Hs)) Hs) as X. rewrite Hc in X. destruct X as (_ & b & _ & _ & (sc & Y1 & Y2 & _) & _). exists sc. auto.
      + intros k ti Hk. destruct (E6 k ti Hk) as [X1 X2]. destruct (R k ti Hk) as (X0 & _). destruct (Z.eq_dec (t_incoming ti) 0) as [Z0|Z0].
        * exists ti. split; [apply X2; rewrite KQ; intros (tk & Y1 & Y2); congruence|]. do 3 (split; [reflexivity|]). split; [intros q Hq; congruence|]. intros; contradiction.
        * destruct X1 as (q & Y1 & Y2 & Y3); [apply KQ; exists ti; auto|]. exists (set_state q ti). split; [exact Y1|]. do 3 (split; [reflexivity|]). split; [|intros _; discriminate].
          intros q0 Hq0. cbn [set_state t_state] in Hq0. injection Hq0 as <-. split; [exact Y2|exact Y3]. }
  destruct PUB as (M1 & T1 & H & PE & TL1 & LH & MH & HN & EX1 & SAME & PL1 & PK & PS & PT). rewrite PE.
  assert (PT' : forall k ti1, nth_error T1 k = Some ti1 -> exists ti, nth_error T0 k = Some ti /\ t_dests ti1 = t_dests ti /\ t_base ti1 = t_base ti /\ t_noop ti1 = t_noop ti /\
       (forall q, t_state ti1 = Some q -> (L <= q < H)%nat /\ tag_at M1 q k) /\ (t_incoming ti <> 0 -> t_state ti1 <> None)).
  { intros k ti1 Hk. destruct (nth_error T0 k) as [ti|] eqn:Ek; [|apply nth_error_None in Ek; assert (k < length T1)%nat by (apply nth_error_Some; congruence); lia].
    exists ti. destruct (PT k ti Ek) as (ti' & X1 & X2). split; [reflexivity|]. rewrite X1 in Hk. injection Hk as <-. exact X2. }
  set (st := fun k => match nth_error T1 k with Some tk => t_state tk | None => None end).
  assert (ST : states st T1).
  { intros k q Hq. unfold st in Hq. destruct (nth_error T1 k) as [tk|]; [|discriminate]. exists tk. auto. }
  assert (PO : forall t ti, nth_error T1 t = Some ti -> pub_ok L H st (t_dests ti)).
  { intros t ti1 Ht k d Hk Hd. destruct (PT' t ti1 Ht) as (ti & X1 & X2 & _). rewrite X2 in Hk. pose proof (PUBQ t ti k d X1 Hk Hd) as Y. apply KQ in Y. destruct Y as (tk & Y1 & Y2).
    destruct (PT k tk Y1) as (tk1 & Z1 & _ & _ & _ & Z2 & Z3). specialize (Z3 Y2). unfold st. rewrite Z1. destruct (t_state tk1) as [q|] eqn:Eq; [|contradiction]. exists q. split; [reflexivity|]. apply Z2. reflexivity. }
  (* the bases *)
  destruct (noop_bases_ok T1 L H st ST noops M1 PL1 UD) as (M2 & B1 & B2 & B3 & B4 & B5).
  { intros t q Hq. destruct (UN t q Hq) as (X1 & X2 & ti & X3 & X4). destruct (UB t q Hq) as (s & S1 & S2 & S3). destruct (PT t ti X3) as (ti1 & Y1 & Y2 & Y3 & Y4 & _). exists ti1, s.
    split; [exact Y1|]. split; [apply (PO t ti1 Y1)|]. split; [|split; [rewrite SAME by exact X2; exact S1|exact S3]].
    destruct (R t ti X3) as (_ & PLC & _). destruct (PLC X1) as [(_ & Z1 & _)|(lo & hi & ht & Z0 & Z1 & Z2 & Z3 & Z4)]; [congruence|].
    destruct (Z3 q X4) as (_ & _ & _ & k & d & W1 & W2). exists k, d. split; [|exact W2]. rewrite Y2. apply find_dest_some in W1; [exact W1|]. apply (v_row _ _ _ _ _ C t ti X3). }
  fold L. rewrite B1. pose proof (public_list_extends _ _ _ _ PL1 B3) as PL2.
  destruct (tag_bases_ok M2 L H st PL2 n 0 T1 ltac:(lia) ST PO) as (T2 & D1 & D2 & _ & D3). rewrite D1. exists M2, T2. split; [reflexivity|].
  assert (D3' : forall k ti2, nth_error T2 k = Some ti2 -> exists ti1, nth_error T1 k = Some ti1 /\ based_row M2 L H st ti1 ti2 /\ t_dests ti2 = t_dests ti1 /\ t_state ti2 = t_state ti1 /\ t_noop ti2 = t_noop ti1).
  { intros k ti2 Hk. destruct (nth_error T1 k) as [ti|] eqn:Ek; [|apply nth_error_None in Ek; assert (k < length T2)%nat by (apply nth_error_Some; congruence); lia].
    exists ti. split; [reflexivity|]. destruct (D3 k ti ltac:(lia) Ek) as (ti' & X1 & X2). rewrite X1 in Hk. injection Hk as <-. split; [exact X2|]. destruct X2 as [[-> _]|(_ & m & -> & _)]; repeat split. }
  assert (TA : forall q k, tag_at M1 q k -> tag_at M2 q k) by (intros q k (s & S1 & S2); destruct (B3 q s S1) as (s' & S3 & S4 & _); exists s'; split; [assumption|congruence]).
  assert (EX2 : extends M0 M2) by (eapply extends_trans; eassumption).
  assert (ML2 : length M2 = H) by lia.
  assert (STEP : forall k q, st k = Some q -> (L <= q < H)%nat /\ tag_at M2 q k).
  { intros k q Hq. unfold st in Hq. destruct (nth_error T1 k) as [tk|] eqn:Ek; [|discriminate]. destruct (PT' k tk Ek) as (t0 & _ & _ & _ & _ & X & _). destruct (X q Hq) as [X1 X2]. split; [exact X1|apply TA, X2]. }
  assert (PCL : forall m q, (L <= q < H)%nat -> reach mt M2 m q -> climbs mt M2 m q).
  { intros m q Hq Hr. destruct PL2 as [[ht G]|X]; [|lia]. eapply reach_climbs; eassumption. }
  constructor.
  - lia.
  - rewrite <- (v_keys _ _ _ _ _ C). apply nth_ext. intros k. rewrite !nth_error_map. destruct (nth_error T2 k) as [ti2|] eqn:E2; cbn [option_map].
    + destruct (D3' k ti2 E2) as (ti1 & X1 & _ & X2 & _). destruct (PT' k ti1 X1) as (ti & Y1 & Y2 & _). rewrite Y1. cbn [option_map]. congruence.
    + apply nth_error_None in E2. destruct (nth_error T0 k) as [ti|] eqn:E0; [|reflexivity]. assert (k < length T0)%nat by (apply nth_error_Some; congruence). lia.
  - intros t ti2 Ht. destruct (D3' t ti2 Ht) as (ti1 & X1 & _ & X2 & _). destruct (PT' t ti1 X1) as (ti & Y1 & Y2 & _). rewrite X2, Y2. apply (v_row _ _ _ _ _ C t ti Y1).
  - rewrite firstn_all2 in UZ. 2: { rewrite <- (v_keys _ _ _ _ _ C), map_length. lia. } unfold L in *. lia.
  - intros q s Hs. assert (q < H)%nat by (rewrite <- ML2; apply nth_error_Some; congruence). destruct (extends_back M1 M2 q s B3 Hs ltac:(lia)) as (s1 & S1 & S2 & S3 & S4). rewrite S2, ML2.
    destruct (Nat.lt_ge_cases q L) as [Hq|Hq].
    + rewrite SAME in S1 by exact Hq. specialize (UK q s1 S1). destruct (s_tag s1); [exact UK|]. destruct UK as [(b & X1 & X2)|(X1 & t & X2)].
      * exists b. rewrite S4 by congruence. split; [exact X1|]. unfold L in LH. lia.
      * destruct (UN t q X2) as (_ & _ & ti & Y1 & Y2). destruct (PT t ti Y1) as (ti1 & Y3 & _). destruct (B5 t q ti1 X2 Y3) as (m & Z1 & Z2 & _). exists m. unfold base_of in Z1. rewrite Hs in Z1. split; [exact Z1|lia].
    + specialize (PK q s1 Hq S1). destruct (s_tag s1); [exact PK|]. destruct PK as (b & X1 & X2). exists b. rewrite S4 by congruence. auto.
  - intros q s c Hs Hc. assert (q < H)%nat by (rewrite <- ML2; apply nth_error_Some; congruence). destruct (extends_back M1 M2 q s B3 Hs ltac:(lia)) as (s1 & S1 & S2 & S3 & S4). rewrite S3 in Hc.
    assert (X : exists s', nth_error M1 c = Some s' /\ s_tag s' = None).
    { destruct (Nat.lt_ge_cases q L) as [Hq|Hq]; [|apply (PS q s1 c Hq S1 Hc)]. rewrite SAME in S1 by exact Hq. destruct (US q s1 c S1 Hc) as (s' & X1 & X2). destruct (EX1 c s' X1) as (s2 & X3 & X4 & _). exists s2. split; [assumption|congruence]. }
    destruct X as (s' & X1 & X2). destruct (B3 c s' X1) as (s2 & X3 & X4 & _). exists s2. split; [assumption|congruence].
  - (* the way to a destination *)
    intros t ti2 k d Ht Hd. destruct (D3' t ti2 Ht) as (ti1 & X1 & BR & X2 & X3 & X4). destruct (PT' t ti1 X1) as (ti & Y1 & Y2 & Y3 & Y4 & _). rewrite X2, Y2 in Hd.
    destruct (v_row _ _ _ _ _ C t ti Y1) as [ND ROW]. destruct (ROW k d Hd) as [Kn _]. assert (Hd' : In (k, d) (t_dests ti1)) by (rewrite Y2; apply find_dest_some in Hd; assumption).
    destruct (nth_error T2 k) as [tk2|] eqn:Ek; [|apply nth_error_None in Ek; lia]. destruct (D3' k tk2 Ek) as (tk1 & W1 & _ & _ & W2 & _).
    assert (STK : st k = t_state tk2) by (unfold st; rewrite W1; congruence).
    destruct (R t ti Y1) as (_ & PLC & _). specialize (PLC ltac:(rewrite <- CL; apply nth_error_Some; congruence)).
    destruct PLC as [(Z1 & Z2 & Z3)|(lo & hi & ht & Z0 & Z1 & Z2 & Z3 & Z4)].
    + specialize (Z3 k d Hd). destruct BR as [[-> BR]|(_ & m & -> & BR1 & BR2 & BR3)]; [exfalso; apply (BR ltac:(congruence) k d Hd' Z3)|].
      destruct (PO t ti1 X1 k d Hd' Z3) as (q & Q1 & Q2). exists m, tk2. split; [reflexivity|]. split; [exact Ek|]. split.
      * cbn [set_base t_dests]. intros LL. rewrite (BR3 LL k d q Hd' Z3 Q1). apply (STEP k q Q1).
      * rewrite Z3. exists q. split; [congruence|]. split; [lia|]. cbn [set_base t_noop]. rewrite Y4, Z2. apply PCL; [exact Q2|]. apply (BR2 k d q Hd' Z3 Q1).
    + destruct BR as [[-> BR]|(BN & _)]; [|congruence]. exists lo, tk2. split; [congruence|]. split; [exact Ek|].
      pose proof (segment_extends _ _ _ _ _ _ Z1 EX2) as G2. assert (CLB : forall z, (lo <= z < hi)%nat -> climbs mt M2 lo z) by (intros z Hz; eapply reach_climbs; [exact G2|exact Hz|]; eapply reach_lo; [exact G2|exact Hz]).
      split.
      * intros LL. rewrite Y2 in LL. destruct (Z4 LL) as (k' & d' & V1 & V2). assert (k' = k) as ->. { eapply length_one; [exact Hd|exact LL|]. apply find_dest_key. exists d'. exact V1. }
        destruct (tag_in_extends _ _ _ _ _ _ V2 EX2) as [_ V3]. exact V3.
      * specialize (Z2 k d Hd). destruct (d_pos d) as [q|] eqn:Ed.
        -- destruct (tag_in_extends _ _ _ _ _ _ Z2 EX2) as [V2 V3]. split; [exact V3|apply CLB, V2].
        -- destruct (PO t ti1 X1 k d Hd' Ed) as (q & Q1 & Q2). exists q. split; [congruence|]. split; [lia|]. destruct (t_noop ti) as [z|] eqn:Ez; [|contradiction].
           replace (t_noop ti1) with (Some z) by congruence. destruct (Z3 z eq_refl) as (V1 & _ & V2 & _). split; [apply CLB, V1|]. destruct (B5 t z ti1 V2 X1) as (m & V3 & V4 & V5). exists m. split; [exact V3|].
           destruct (V5 k d q Hd' Ed Q1) as [V6 V7]. apply PCL; assumption.
  - intros t ti2 b Ht Hb. destruct (D3' t ti2 Ht) as (ti1 & X1 & BR & _). destruct (PT' t ti1 X1) as (ti & Y1 & Y2 & Y3 & Y4 & _). rewrite ML2. destruct BR as [[-> _]|(_ & m & -> & BR1 & _)].
    + rewrite Y3 in Hb. destruct (R t ti Y1) as (_ & PLC & _). specialize (PLC ltac:(rewrite <- CL; apply nth_error_Some; congruence)). destruct PLC as [(Z1 & _)|(lo & hi & ht & Z0 & Z1 & _)]; [congruence|].
      pose proof (g_range _ _ _ _ _ Z1) as GR. rewrite Z0 in Hb. injection Hb as <-. unfold L in LH. lia.
    + cbn [set_base t_base] in Hb. injection Hb as <-. lia.
  - intros t ti2 q Ht Hq. destruct (D3' t ti2 Ht) as (ti1 & X1 & _ & _ & X2 & _). apply (STEP t q). unfold st. rewrite X1. congruence.
  - intros t ti2 q Ht Hq. destruct (D3' t ti2 Ht) as (ti1 & X1 & _ & _ & _ & X2). destruct (PT' t ti1 X1) as (ti & Y1 & Y2 & Y3 & Y4 & _). destruct (R t ti Y1) as (_ & PLC & _).
    specialize (PLC ltac:(rewrite <- CL; apply nth_error_Some; congruence)). destruct PLC as [(_ & Z1 & _)|(lo & hi & ht & Z0 & Z1 & Z2 & Z3 & _)]; [congruence|].
    destruct (Z3 q ltac:(congruence)) as (_ & (s & S1 & S2) & _). destruct (EX2 q s S1) as (s' & S3 & S4 & _). exists s'. split; [exact S3|congruence].
  - destruct (v_first _ _ _ _ _ C) as [(tf & F1 & F2)|(t & ti & d & F1 & F2 & F3)].
    + destruct (PT first tf F1) as (tf1 & Y1 & _ & _ & _ & Y2 & Y3). specialize (Y3 ltac:(lia)). destruct (t_state tf1) as [q|] eqn:Eq; [|contradiction]. exists q. apply TA. apply (Y2 q eq_refl).
    + destruct (R t ti F1) as (_ & PLC & _). specialize (PLC ltac:(rewrite <- CL; apply nth_error_Some; congruence)). destruct PLC as [(_ & _ & Z1)|(lo & hi & ht & Z0 & Z1 & Z2 & _)]; [exfalso; apply F3, (Z1 first d F2)|].
      specialize (Z2 first d F2). destruct (d_pos d) as [q|]; [|contradiction]. exists q. destruct (tag_in_extends _ _ _ _ _ _ Z2 EX2) as [_ V]. exact V.
Qed.

Lemma CreateStateMachine_ok min_count n first rest : Forall (fun t => (t < n)%nat) (first :: rest) -> zlen rest + 1 < 2 ^ 63 ->
  exists M T K, CreateStateMachine order mt min_count (first :: rest) n = Some (M, T) /\ created n first K M T /\
    (forall a b, adjacent (first :: rest) a b -> has_dest T a b) /\ zlen (concat K) <= zlen rest /\ (forall a b, has_dest T a b -> In a (first :: rest)).
Proof.
  intros F NS. destruct (CollectTransitionStatistics_ok n first rest F) as (T0 & K & E0 & C0 & A0 & R0). unfold CreateStateMachine. rewrite E0.
  destruct (mark_all_ok order order_perm min_count n (zlen rest) first K n 0 T0 eq_refl C0) as (T1 & E1 & C1 & R1).
  { intros t ti Ht. destruct (R0 t ti Ht) as (X1 & X2). split; [exact X2|]. split; [intros k d Hd; left; apply (X1 k d Hd)|intros _; exact X1]. }
  rewrite E1.
  assert (B0 : built mt n (zlen rest) first K 0 [] T1 []).
  { constructor.
    - exact C1.
    - intros t ti Ht. destruct (R1 t ti Ht) as (X1 & X2). split; [apply X1|]. split; [lia|auto].
    - intros t q [].
    - constructor.
    - intros q s Hs. destruct q; discriminate.
    - intros q s c Hs. destruct q; discriminate.
    - cbn. lia.
    - intros t q []. }
  destruct (private_lists_ok order order_perm mt mt_big n (zlen rest) NS first K n 0 [] T1 [] eq_refl B0) as (M0 & T2 & noops & E2 & B). rewrite E2. cbv zeta.
  destruct (assemble n (zlen rest) first K M0 T2 noops NS B) as (M & T & E3 & CR).
  exists M, T, K. split; [exact E3|]. split; [exact CR|].
  assert (KEYS : forall a, option_map (fun t => dkeys (t_dests t)) (nth_error T a) = option_map (fun t => dkeys (t_dests t)) (nth_error T0 a)).
  { intros a. rewrite <- !nth_error_map. rewrite (cr_keys _ _ _ _ _ CR), (v_keys _ _ _ _ _ C0). reflexivity. }
  split.
  - intros a b H. destruct (A0 a b H) as (ti & X1 & X2). specialize (KEYS a). rewrite X1 in KEYS. cbn [option_map] in KEYS. destruct (nth_error T a) as [ta|] eqn:Ea; [|discriminate]. cbn [option_map] in KEYS. injection KEYS as KEYS.
    exists ta. split; [exact Ea|]. rewrite KEYS. exact X2.
  - split.
    + rewrite <- (v_keys _ _ _ _ _ C0). etransitivity; [|apply (v_rows _ _ _ _ _ C0)]. apply rows_length. intros t ti Ht. apply row_length. intros k d Hk. destruct (v_row _ _ _ _ _ C0 t ti Ht) as [ND ROW].
    apply find_dest_some in Hk; [|exact ND]. apply (ROW k d Hk).
    + intros a b (ta & X1 & X2). specialize (KEYS a). rewrite X1 in KEYS. cbn [option_map] in KEYS. destruct (nth_error T0 a) as [ti|] eqn:Ea; [|discriminate]. cbn [option_map] in KEYS. injection KEYS as KEYS.
      apply (collected_from n first rest T0 E0 a b). exists ti. split; [exact Ea|]. rewrite <- KEYS. exact X2.
Qed.
End Create.
