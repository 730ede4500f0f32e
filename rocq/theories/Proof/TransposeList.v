(** Creating the states of one list succeeds, and the NoOp states are not nested deeply. *)
From Coq Require Import Permutation.
From Verif Require Import Base.Bytes Model.Endian Model.Varint Model.Chunk Model.SimpleChunk Model.TransposeEncoder Model.TransposeDecoder.
From Verif Require Import Proof.TransposeLoops Proof.TransposeFill.
Notation keys := (map (@fst dest_index Z)).

(** The least weight of a NoOp state of a given height *)
Fixpoint least (h : nat) : Z := match h with O => 1 | S O => 1 | S (S h) => 64 * least h end.
Lemma least_both h : (1 <= least h /\ least h <= least (S h)) /\ (1 <= least (S h) /\ least (S h) <= least (S (S h))).
Proof.
  induction h as [|h [[I1 I2] [I3 I4]]]; [cbn; lia|]. split; [lia|]. change (least (S (S (S h)))) with (64 * least (S h)). change (least (S (S h))) with (64 * least h) in *. lia.
Qed.
Lemma least_pos h : 1 <= least h. Proof. apply least_both. Qed.
Lemma least_mono a b : (a <= b)%nat -> least a <= least b.
Proof. induction 1 as [|b H IH]; [lia|]. pose proof (least_both b). lia. Qed.
Lemma least_height h total : least h <= total -> total < 2 ^ 63 -> (h <= 21)%nat.
Proof.
  intros H T. destruct (Nat.le_gt_cases h 21) as [Q|Q]; [assumption|]. pose proof (least_mono 22 h Q) as M. change (least 22) with (2 ^ 66) in M. 
  assert (2 ^ 63 < 2 ^ 66) by (apply Z.pow_lt_mono_r; lia). lia.
Qed.
Lemma least_step x : (1 <= x)%nat -> least (S x) = 64 * least (x - 1).
Proof. destruct x as [|x]; [lia|]. intros _. replace (S x - 1)%nat with x by lia. reflexivity. Qed.

Section Levels.
Variable mt : nat.
Hypothesis mt_big : (63 <= mt)%nat.
Variable owner : option nat.
Variable Q0 : list entry.
Variable T0 : list tag_info.
Variable noops0 : list (nat * nat).
Variable hi : nat.
Variable total : Z.

Definition hof (hb : nat -> nat) (e : dest_index) : nat := match e with DNoOp i => hb i | _ => O end.
Record leveled (ht hb : nat -> nat) (x : nat) (m0 m weight : Z) (n : nat) (queue : list entry) (p : partial) (cur : nat) : Prop := {
  l_chain : forall q s c, at_pos p q = Some s -> s_source s = Some c -> (ht q < ht c)%nat;
  l_free : forall i b q s, In (DNoOp i) (keys queue) -> nth_error (p_bases p) i = Some b -> (b <= q <= b + mt)%nat -> at_pos p q = Some s -> (ht q < hb i)%nat;
  l_small : forall q s, at_pos p q = Some s -> least (ht q) <= total;
  l_cur : forall q s, at_pos p q = Some s -> (q < cur)%nat -> (ht q <= x)%nat;
  l_weight : forall e, In e queue -> least (hof hb (fst e)) <= snd e;
  l_min : forall e, In e queue -> m <= snd e;
  l_m : 1 <= m0 <= m;
  l_hb : forall i, (i < length (p_bases p))%nat -> least (hb i - 1) <= m0;
  l_x : least x <= m;
  l_x0 : x = O \/ (least (x - 1) <= m0 /\ p_bases p <> []);
  l_n : Z.of_nat n * m0 <= weight /\ (n = O \/ m <= weight);
  l_total : sum queue + weight = total;
  l_sorted : sorted queue }.
Notation filling := (filling mt owner Q0 hi).

Lemma leveled_add ht hb x m0 m weight n e queue p p' cur : leveled ht hb x m0 m weight n (e :: queue) p cur -> filling (e :: queue) p cur -> (1 <= p_pos p)%nat -> added mt e p p' ->
  leveled (fun q => if Nat.eqb q (p_pos p') then hof hb (fst e) else ht q) hb (Nat.max x (hof hb (fst e))) m0 (snd e) (weight + snd e) (S n) queue p' cur.
Proof.
  intros [L1 L2 L3 L4 L5 L6 L7 L8 L9 L10 L11 L12 L13] F HP (E1 & E2 & s0 & E3 & A). pose proof (f_len _ _ _ _ _ _ _ F) as FL.
  assert (A1 : forall q s, at_pos p' q = Some s -> (q = p_pos p' /\ s = s0) \/
     (q <> p_pos p' /\ touched mt e p q = true /\ exists s1, at_pos p q = Some s1 /\ s = with_source (p_pos p') s1) \/ (q <> p_pos p' /\ at_pos p q = Some s)).
  { intros q s. rewrite A. destruct (Nat.eqb_spec q (p_pos p')) as [->|N]; [intros EE; injection EE as <-; auto|]. destruct (touched mt e p q) eqn:Q.
    - destruct (at_pos p q) as [s1|]; [|discriminate]. intros EE; injection EE as <-. right; left. split; [assumption|]. split; [reflexivity|]. exists s1; auto.
    - auto. }
  assert (A2 : forall q s, at_pos p' q = Some s -> (q = p_pos p' /\ s = s0) \/ (q <> p_pos p' /\ exists s1, at_pos p q = Some s1)).
  { intros q s Hs. destruct (A1 q s Hs) as [X|[(X1 & _ & s1 & X2 & _)|(X1 & X2)]]; [auto|right; split; [assumption|exists s1; assumption]|right; split; [assumption|exists s; assumption]]. }
  assert (We : 1 <= snd e) by (pose proof (L5 e (or_introl eq_refl)) as X; pose proof (least_pos (hof hb (fst e))); lia).
  assert (NN : Forall (fun f : entry => 0 <= snd f) queue).
  { apply Forall_forall. intros f Hf. pose proof (L5 f (or_intror Hf)). pose proof (least_pos (hof hb (fst f))). lia. }
  assert (W0 : 0 <= weight) by nia.
  cbn [sum fold_right] in L12. fold (sum queue) in L12.
  assert (SQ : 0 <= sum queue).
  { clear - NN. induction NN as [|f l H1 H2 IH]; cbn [sum fold_right]; [lia|]. fold (sum l). lia. }
  cbn [sorted] in L13. destruct L13 as [S1 S2]. rewrite Forall_forall in S1.
  pose proof (L6 e (or_introl eq_refl)) as Me. pose proof (L5 e (or_introl eq_refl)) as Fe.
  constructor; rewrite ?E2.
  - intros q s c Hs Hc. destruct (A1 q s Hs) as [[-> ->]|[(N & T & s1 & Hs1 & ->)|(N & Hs1)]].
    + congruence.
    + cbn [with_source s_source] in Hc. injection Hc as <-. rewrite Nat.eqb_refl. destruct (Nat.eqb_spec q (p_pos p')); [contradiction|].
      unfold touched in T. destruct e as [d w]. cbn [fst] in *. destruct d as [k|i|]; try discriminate. destruct (nth_error (p_bases p) i) as [b|] eqn:Eb; [|discriminate].
      apply andb_true_iff in T. rewrite !Nat.leb_le in T. cbn [hof]. apply (L2 i b q s1); try assumption. left; reflexivity.
    + pose proof (f_state _ _ _ _ _ _ _ F q s Hs1) as FS. rewrite Hc in FS. destruct FS as (b & B1 & _). 
      destruct (Nat.eqb_spec q (p_pos p')); [contradiction|]. destruct (Nat.eqb_spec c (p_pos p')); [lia|]. eapply L1; eassumption.
  - intros i b q s Hi Hb Hq Hs. assert (Hi' : In (DNoOp i) (keys (e :: queue))) by (right; exact Hi). pose proof (f_bases _ _ _ _ _ _ _ F i b Hb). pose proof (f_cur _ _ _ _ _ _ _ F).
    destruct (A2 q s Hs) as [[-> _]|(N & s1 & Hs1)]; [lia|]. destruct (Nat.eqb_spec q (p_pos p')); [contradiction|]. eapply L2; eassumption.
  - intros q s Hs. destruct (A2 q s Hs) as [[-> _]|(N & s1 & Hs1)]; [rewrite Nat.eqb_refl; lia|]. destruct (Nat.eqb_spec q (p_pos p')); [contradiction|]. eapply L3; eassumption.
  - intros q s Hs Hq. destruct (A2 q s Hs) as [[-> _]|(N & s1 & Hs1)]; [rewrite Nat.eqb_refl; lia|]. destruct (Nat.eqb_spec q (p_pos p')); [contradiction|].
    pose proof (L4 q s1 Hs1 Hq). lia.
  - intros f Hf. apply L5. right; exact Hf.
  - intros f Hf. apply S1, Hf.
  - lia.
  - exact L8.
  - destruct (Nat.max_spec x (hof hb (fst e))) as [[_ ->]|[_ ->]]; lia.
  - destruct (Nat.max_spec x (hof hb (fst e))) as [[Q ->]|[_ ->]]; [|exact L10]. right. destruct e as [d w]. cbn [fst] in *. destruct d as [k|i|]; cbn [hof] in *; try lia.
    assert (Li : (i < length (p_bases p))%nat) by (apply (f_noop_in _ _ _ _ _ _ _ F); left; reflexivity). split; [apply L8, Li|]. destruct (p_bases p); [cbn in Li; lia|discriminate].
  - destruct L11 as [L11 _]. split; [|right; lia]. nia.
  - lia.
  - exact S2.
Qed.
Lemma leveled_block ht hb x m0 m weight n queue p cur : leveled ht hb x m0 m weight n queue p cur -> filling queue p cur ->
  (p_pos p < cur)%nat -> (cur <= p_pos p + S mt)%nat -> (cur = hi \/ cur = p_pos p + S mt)%nat -> (1 <= n)%nat -> (p_bases p = [] \/ S mt <= n)%nat ->
  leveled ht (fun i => if Nat.eqb i (length (p_bases p)) then S x else hb i) 0 m m 0 0 (insert (DNoOp (length (p_bases p)), weight) queue)
    {| p_pos := p_pos p; p_tail := p_tail p; p_tags := p_tags p; p_noops := p_noops p; p_bases := p_bases p ++ [p_pos p] |} (p_pos p).
Proof.
  intros [L1 L2 L3 L4 L5 L6 L7 L8 L9 L10 L11 L12 L13] F H1 H2 H3 H4 H5. set (e := (DNoOp (length (p_bases p)), weight) : entry).
  set (p' := {| p_pos := p_pos p; p_tail := p_tail p; p_tags := p_tags p; p_noops := p_noops p; p_bases := p_bases p ++ [p_pos p] |}).
  assert (A : forall q, at_pos p' q = at_pos p q) by reflexivity.
  assert (IP : forall f, In f (insert e queue) <-> f = e \/ In f queue).
  { intros f. split; intros H.
    - apply (Permutation_in f (insert_perm e queue)) in H. destruct H as [<-|H]; auto.
    - apply (Permutation_in f (Permutation_sym (insert_perm e queue))). destruct H as [->|H]; [left; reflexivity|right; exact H]. }
  assert (OLD : forall f, In f queue -> hof (fun i => if Nat.eqb i (length (p_bases p)) then S x else hb i) (fst f) = hof hb (fst f)).
  { intros f Hf. destruct f as [d w]. cbn [fst]. destruct d as [k|i|]; try reflexivity. cbn [hof]. destruct (Nat.eqb_spec i (length (p_bases p))) as [->|]; [|reflexivity].
    assert (X : (length (p_bases p) < length (p_bases p))%nat); [|lia]. apply (f_noop_in _ _ _ _ _ _ _ F). apply in_map_iff. exists (DNoOp (length (p_bases p)), w). auto. }
  assert (WX : least (S x) <= weight /\ m <= weight).
  { destruct L11 as [N1 [N2|N2]]; [lia|]. split; [|assumption]. destruct L10 as [->|[X1 X2]]; [cbn; lia|]. destruct H5 as [H5|H5]; [contradiction|].
    destruct x as [|x]; [cbn; lia|]. rewrite least_step by lia. nia. }
  constructor.
  - exact L1.
  - cbn [p' p_bases]. intros i b q s Hi Hb Hq. rewrite A. intros Hs. cbv beta.
    assert (R : (p_pos p <= q < hi)%nat) by (eapply (at_range mt ltac:(lia)); [exact Hs|apply (f_len _ _ _ _ _ _ _ F)]).
    destruct (Nat.eqb_spec i (length (p_bases p))) as [->|N].
    + rewrite nth_error_app2, Nat.sub_diag in Hb by lia. injection Hb as <-. assert (ht q <= x)%nat by (eapply L4; [exact Hs|lia]). lia.
    + apply (L2 i b q s); try assumption.
      * apply in_map_iff in Hi. destruct Hi as (f & Hf1 & Hf2). apply IP in Hf2. destruct Hf2 as [->|Hf2]; [cbn [e fst] in Hf1; injection Hf1 as X; congruence|].
        apply in_map_iff. exists f; auto.
      * destruct (Nat.lt_ge_cases i (length (p_bases p))) as [Q|Q]; [rewrite nth_error_app1 in Hb by assumption; assumption|].
        rewrite nth_error_app2 in Hb by assumption. destruct (i - length (p_bases p))%nat as [|k] eqn:D; [lia|]. destruct k; discriminate.
  - exact L3.
  - intros q s. rewrite A. intros Hs Hq. exfalso. assert (R : (p_pos p <= q < hi)%nat) by (eapply (at_range mt ltac:(lia)); [exact Hs|apply (f_len _ _ _ _ _ _ _ F)]). lia.
  - intros f Hf. apply IP in Hf. destruct Hf as [->|Hf]; [|rewrite OLD by assumption; apply L5, Hf]. cbn [e fst snd hof]. rewrite Nat.eqb_refl. apply WX.
  - intros f Hf. apply IP in Hf. destruct Hf as [->|Hf]; [apply WX|apply L6, Hf].
  - lia.
  - cbn [p' p_bases]. intros i Hi. rewrite app_length in Hi. cbn [length] in Hi. destruct (Nat.eqb_spec i (length (p_bases p))) as [->|N].
    + replace (S x - 1)%nat with x by lia. exact L9.
    + specialize (L8 i ltac:(lia)). lia.
  - cbn. lia.
  - left; reflexivity.
  - split; [cbn; lia|left; reflexivity].
  - rewrite (sum_perm _ _ (insert_perm e queue)). cbn [sum fold_right e snd]. fold (sum queue). lia.
  - apply insert_sorted, L13.
Qed.

Hypothesis Q0_noop : forall i, ~ In (DNoOp i) (keys Q0).
Hypothesis Q0_owner : match owner with
  | None => ~ In DPublic (keys Q0) /\ forall k, In (DTag k) (keys Q0) -> (k < length T0)%nat
  | Some t => exists ti0, nth_error T0 t = Some ti0 /\ forall k, In (DTag k) (keys Q0) -> In k (map fst (t_dests ti0))
  end.
Notation tagged := (tagged owner Q0 T0 noops0).
Lemma fill_block_ok k : forall ht hb x m0 m weight n queue p cur, (k <= length queue)%nat -> (k <= p_pos p)%nat ->
  filling queue p cur -> tagged queue p -> leveled ht hb x m0 m weight n queue p cur ->
  exists weight' queue' p' ht' x' m', fill_block mt k owner weight queue p = Some (weight', queue', p') /\
    (length queue' + k = length queue)%nat /\ (p_pos p' + k = p_pos p)%nat /\ p_bases p' = p_bases p /\
    filling queue' p' cur /\ tagged queue' p' /\ leveled ht' hb x' m0 m' weight' (n + k) queue' p' cur.
Proof.
  induction k as [|k IH]; intros ht hb x m0 m weight n queue p cur Hq Hp F T L; cbn [fill_block].
  - exists weight, queue, p, ht, x, m. rewrite !Nat.add_0_r. auto 8.
  - destruct queue as [|e queue]; cbn [length] in Hq; [lia|].
    destruct (add_state_ok mt ltac:(lia) owner Q0 T0 noops0 hi Q0_noop Q0_owner e queue p cur F T ltac:(lia)) as (p1 & E1 & A1 & F1 & T1). rewrite E1.
    pose proof (leveled_add ht hb x m0 m weight n e queue p p1 cur L F ltac:(lia) A1) as L1. destruct A1 as (A1 & A2 & _).
    destruct (IH _ _ _ _ _ _ _ queue p1 cur ltac:(lia) ltac:(lia) F1 T1 L1) as (w' & q' & p' & ht' & x' & m' & I1 & I2 & I3 & I4 & I5 & I6 & I7).
    exists w', q', p', ht', x', m'. split; [exact I1|]. split; [cbn [length]; lia|]. split; [lia|]. split; [congruence|]. split; [assumption|]. split; [assumption|].
    replace (n + S k)%nat with (S n + k)%nat by lia. exact I7.
Qed.
Lemma tagged_same queue queue' p p' : tagged queue p -> p_tags p' = p_tags p -> p_noops p' = p_noops p -> (forall q, at_pos p' q = at_pos p q) ->
  (forall e, (forall i, e <> DNoOp i) -> In e (keys queue) <-> In e (keys queue')) -> tagged queue' p'.
Proof.
  intros [TL TG] E1 E2 A K. assert (KT : forall k, In (DTag k) (keys queue) <-> In (DTag k) (keys queue')) by (intros k; apply K; discriminate).
  assert (KP : In DPublic (keys queue) <-> In DPublic (keys queue')) by (apply K; discriminate).
  assert (TA : forall q k, tag_at p q k -> tag_at p' q k) by (intros q k (s & S1 & S2); exists s; rewrite A; auto).
  assert (BA : forall q, bare_at p q -> bare_at p' q) by (intros q (s & S1 & S2); exists s; rewrite A; auto).
  split; [congruence|]. destruct owner as [t|].
  - destruct TG as [G1 G2]. rewrite E1, E2. split; [exact G1|]. intros ti0 H0. destruct (G2 ti0 H0) as (ti & H1 & H2 & H3 & H4 & H5 & H6 & H7 & H8).
    exists ti. repeat (split; [assumption|]). split; [|split].
    + intros k d0 Hd. destruct (H6 k d0 Hd) as [A1 A2]. rewrite KT in A1, A2. split; [|exact A2]. intros X1 X2. destruct (A1 X1 X2) as (q & Q1 & Q2). exists q. auto.
    + rewrite KP in H7. intros X1 X2. destruct (H7 X1 X2) as (q & Q1 & Q2 & Q3). exists q. auto.
    + rewrite KP in H8. exact H8.
  - destruct TG as [G1 G2]. rewrite E1, E2. split; [exact G1|]. intros k ti0 H0. destruct (G2 k ti0 H0) as [A1 A2]. rewrite KT in A1, A2.
    split; [|exact A2]. intros X1 X2. destruct (A1 X1 X2) as (q & Q1 & Q2). exists q. auto.
Qed.
Lemma fill_blocks_ok lo j : forall fuel bsz ht hb m queue p, (1 <= bsz <= S mt)%nat -> (p_bases p = [] /\ p_pos p = hi \/ bsz = S mt)%nat ->
  length queue = (bsz + mt * j)%nat -> p_pos p = (lo + bsz + S mt * j)%nat -> (j < fuel)%nat ->
  filling queue p (p_pos p) -> tagged queue p -> leveled ht hb 0 m m 0 0 queue p (p_pos p) ->
  exists p' cur ht', fill_blocks mt fuel bsz owner queue p = Some p' /\ p_pos p' = lo /\ (cur <= lo + S mt)%nat /\ filling [] p' cur /\ tagged [] p' /\
    (forall q s c, at_pos p' q = Some s -> s_source s = Some c -> (ht' q < ht' c)%nat) /\ (forall q s, at_pos p' q = Some s -> least (ht' q) <= total).
Proof.
  induction j as [|j IH]; intros fuel bsz ht hb m queue p Hb Hfirst Hq Hp Hf F T L; (destruct fuel as [|fuel]; [lia|]); cbn [fill_blocks].
  - destruct (fill_block_ok bsz _ _ _ _ _ _ _ queue p (p_pos p) ltac:(lia) ltac:(lia) F T L) as (w' & q' & p' & ht' & x' & m' & I1 & I2 & I3 & I4 & I5 & I6 & I7).
    rewrite I1. destruct q' as [|e q']; [|cbn [length] in I2; lia]. exists p', (p_pos p), ht'. split; [reflexivity|]. split; [lia|]. split; [lia|]. split; [assumption|]. split; [assumption|].
    split; [apply (l_chain _ _ _ _ _ _ _ _ _ _ I7)|apply (l_small _ _ _ _ _ _ _ _ _ _ I7)].
  - destruct (fill_block_ok bsz _ _ _ _ _ _ _ queue p (p_pos p) ltac:(lia) ltac:(lia) F T L) as (w' & q' & p' & ht' & x' & m' & I1 & I2 & I3 & I4 & I5 & I6 & I7).
    rewrite I1.
    assert (M : forall A (a b : A), match q' with [] => a | _ :: _ => b end = b) by (intros; destruct q'; [cbn [length] in I2; lia|reflexivity]). rewrite M. clear M.
    assert (CE : (p_pos p = hi \/ p_pos p = p_pos p' + S mt)%nat) by lia.
    pose proof (filling_block mt ltac:(lia) owner Q0 hi q' p' (p_pos p) w' I5 ltac:(lia) ltac:(lia) CE) as F2.
    pose proof (leveled_block _ _ _ _ _ _ _ q' p' (p_pos p) I7 I5 ltac:(lia) ltac:(lia) CE ltac:(lia)) as L2. rewrite I4 in L2.
    specialize (L2 ltac:(destruct Hfirst as [[Hfirst _]|Hfirst]; [left; exact Hfirst|right; lia])).
    rewrite <- I4 in L2.
    match type of F2 with TransposeFill.filling _ _ _ _ ?qq ?pp _ => set (q2 := qq) in *; set (p2 := pp) in * end.
    assert (T2 : tagged q2 p2).
    { apply (tagged_same q' q2 p' p2 I6); try reflexivity. intros x Nx. unfold q2.
      assert (KP : Permutation (keys (insert (DNoOp (length (p_bases p')), w') q')) (DNoOp (length (p_bases p')) :: keys q')) by (rewrite insert_perm; reflexivity).
      split; intros H.
      - apply (Permutation_in x (Permutation_sym KP)). right; exact H.
      - apply (Permutation_in x KP) in H. destruct H as [H|H]; [exfalso; eapply Nx; symmetry; exact H|exact H]. }
    assert (LQ : length q2 = S (length q')) by (unfold q2; rewrite (Permutation_length (insert_perm _ q')); reflexivity).
    eapply (IH fuel (S mt) ht' _ m' q2 p2); [lia|right; reflexivity|lia|cbn [p2 p_pos]; lia|lia|exact F2|exact T2|exact L2].
Qed.
End Levels.

(** ** Whole lists *)
(** The states from [lo] to [hi]: a state is in the first block, or in a block from which it is entered through a NoOp state *)
Record segment (mt : nat) (machine : list state_info) (lo hi : nat) (ht : nat -> nat) : Prop := {
  g_range : (lo < hi <= length machine)%nat;
  g_state : forall q s, (lo <= q < hi)%nat -> nth_error machine q = Some s ->
    match s_source s with
    | None => (q <= lo + mt)%nat
    | Some c => (ht q < ht c)%nat /\ exists b, (lo <= c < b)%nat /\ (b <= q <= b + mt)%nat /\
        (exists sc, nth_error machine c = Some sc /\ s_tag sc = None /\ s_base sc = Some b) /\
        forall q' s', (b <= q' <= b + mt)%nat -> (q' < hi)%nat -> nth_error machine q' = Some s' -> s_source s' = Some c
    end;
  g_low : forall q, (lo <= q < hi)%nat -> (ht q <= 21)%nat }.
(** The kinds of states in a list *)
Definition kinds (machine : list state_info) (lo hi : nat) (Q0 : list entry) (owner : option nat) (noops : list (nat * nat)) : Prop :=
  forall q s, (lo <= q < hi)%nat -> nth_error machine q = Some s ->
    match s_tag s with
    | Some k => In (DTag k) (keys Q0)
    | None => (exists b, s_base s = Some b /\ (lo <= b < hi)%nat) \/ (s_base s = None /\ exists t, owner = Some t /\ In (t, q) noops)
    end.
(** What later steps change in the states *)
Definition extends (machine machine' : list state_info) : Prop := forall q s, nth_error machine q = Some s ->
  exists s', nth_error machine' q = Some s' /\ s_tag s' = s_tag s /\ s_source s' = s_source s /\ (s_base s <> None -> s_base s' = s_base s).
Lemma extends_refl machine : extends machine machine.
Proof. intros q s H. exists s. auto. Qed.
Lemma extends_trans a b c : extends a b -> extends b c -> extends a c.
Proof.
  intros A B q s H. destruct (A q s H) as (s1 & A1 & A2 & A3 & A4). destruct (B q s1 A1) as (s2 & B1 & B2 & B3 & B4). exists s2.
  split; [assumption|]. split; [congruence|]. split; [congruence|]. intros N. rewrite B4; [auto|]. rewrite A4; assumption.
Qed.
Lemma extends_app machine l : extends machine (machine ++ l).
Proof. intros q s H. exists s. rewrite nth_error_app1; [auto|]. apply nth_error_Some. congruence. Qed.
Lemma extends_length a b : extends a b -> (length a <= length b)%nat.
Proof.
  intros E. destruct (Nat.le_gt_cases (length a) (length b)) as [H|H]; [assumption|]. destruct (nth_error a (length b)) as [s|] eqn:Q; [|apply nth_error_None in Q; lia].
  destruct (E _ _ Q) as (s' & S1 & _). assert (length b < length b)%nat; [|lia]. apply nth_error_Some. congruence.
Qed.
Lemma extends_back a b q s : extends a b -> nth_error b q = Some s -> (q < length a)%nat ->
  exists s0, nth_error a q = Some s0 /\ s_tag s = s_tag s0 /\ s_source s = s_source s0 /\ (s_base s0 <> None -> s_base s = s_base s0).
Proof.
  intros E H L. destruct (nth_error a q) as [s0|] eqn:Q; [|apply nth_error_None in Q; lia]. exists s0. destruct (E q s0 Q) as (s1 & S1 & S2).
  rewrite H in S1. injection S1 as <-. auto.
Qed.
Lemma segment_extends mt a b lo hi ht : segment mt a lo hi ht -> extends a b -> segment mt b lo hi ht.
Proof.
  intros [G1 G2 G3] E. pose proof (extends_length a b E). constructor; [lia| |assumption]. intros q s Hq Hs.
  destruct (extends_back a b q s E Hs ltac:(lia)) as (s0 & S1 & S2 & S3 & S4). specialize (G2 q s0 Hq S1). rewrite S3. destruct (s_source s0) as [c|]; [|assumption].
  destruct G2 as (G0 & bb & B1 & B2 & (sc & B4 & B5 & B6) & B7). split; [assumption|]. exists bb. split; [assumption|]. split; [assumption|]. split.
  - destruct (E c sc B4) as (sc' & E1 & E2 & E3 & E4). exists sc'. split; [assumption|]. split; [congruence|]. rewrite E4; congruence.
  - intros q' s' Hq' Hh Hs'. destruct (extends_back a b q' s' E Hs' ltac:(lia)) as (s1 & T1 & T2 & T3 & T4). rewrite T3. eapply B7; eassumption.
Qed.

Definition tag_in (machine : list state_info) (lo hi q k : nat) : Prop := (lo <= q < hi)%nat /\ exists s, nth_error machine q = Some s /\ s_tag s = Some k.
Definition bare_in (machine : list state_info) (lo hi q : nat) : Prop := (lo <= q < hi)%nat /\ exists s, nth_error machine q = Some s /\ s_tag s = None /\ s_base s = None.
(** What happens to the tags *)
Definition private_tags (Q0 : list entry) (t : nat) (machine : list state_info) (lo hi : nat) (T0 T' : list tag_info) (noops0 noops' : list (nat * nat)) : Prop :=
  length T' = length T0 /\ (forall k, k <> t -> nth_error T' k = nth_error T0 k) /\
  forall ti0, nth_error T0 t = Some ti0 -> exists ti, nth_error T' t = Some ti /\
    t_incoming ti = t_incoming ti0 /\ t_state ti = t_state ti0 /\ t_base ti = t_base ti0 /\ map fst (t_dests ti) = map fst (t_dests ti0) /\
    (forall k d0, find_dest k (t_dests ti0) = Some d0 ->
      (In (DTag k) (keys Q0) -> exists q, find_dest k (t_dests ti) = Some {| d_pos := Some q; d_count := d_count d0 |} /\ tag_in machine lo hi q k) /\
      (~ In (DTag k) (keys Q0) -> find_dest k (t_dests ti) = Some d0)) /\
    (In DPublic (keys Q0) -> exists q, t_noop ti = Some q /\ bare_in machine lo hi q /\ noops' = noops0 ++ [(t, q)]) /\
    (~ In DPublic (keys Q0) -> t_noop ti = t_noop ti0 /\ noops' = noops0).
Definition public_tags (Q0 : list entry) (machine : list state_info) (lo hi : nat) (T0 T' : list tag_info) : Prop :=
  length T' = length T0 /\ forall k ti0, nth_error T0 k = Some ti0 ->
      (In (DTag k) (keys Q0) -> exists q, nth_error T' k = Some (set_state q ti0) /\ tag_in machine lo hi q k) /\
      (~ In (DTag k) (keys Q0) -> nth_error T' k = Some ti0).

Lemma create_list_ok mt owner Q0 machine T0 noops0 : (63 <= mt)%nat -> Q0 <> [] -> NoDup (keys Q0) -> (forall i, ~ In (DNoOp i) (keys Q0)) ->
  match owner with
  | None => ~ In DPublic (keys Q0) /\ forall k, In (DTag k) (keys Q0) -> (k < length T0)%nat
  | Some t => exists ti0, nth_error T0 t = Some ti0 /\ forall k, In (DTag k) (keys Q0) -> In k (map fst (t_dests ti0))
  end ->
  Forall (fun e => 1 <= snd e) Q0 -> sorted Q0 -> sum Q0 < 2 ^ 63 ->
  exists new T' noops' ht, create_list mt owner Q0 machine T0 noops0 = Some (machine ++ new, T', noops') /\
    (length Q0 <= length new <= 2 * length Q0)%nat /\ (length Q0 = 1 -> length new = 1)%nat /\
    let lo := length machine in let hi := (length machine + length new)%nat in
    segment mt (machine ++ new) lo hi ht /\ kinds (machine ++ new) lo hi Q0 owner noops' /\
    match owner with
    | None => noops' = noops0 /\ public_tags Q0 (machine ++ new) lo hi T0 T'
    | Some t => private_tags Q0 t (machine ++ new) lo hi T0 T' noops0 noops'
    end.
Proof.
  intros MT NE ND QN QO POS SO TOT.
  set (N0 := length Q0). assert (HN : (1 <= N0)%nat) by (unfold N0; destruct Q0; [contradiction|cbn [length]; lia]).
  set (k := if Nat.leb N0 (S mt) then O else Nat.div (N0 - 2) mt). set (bsz := S ((N0 + k - 1) mod S mt)).
  assert (AR : N0 = (bsz + mt * k)%nat /\ (1 <= bsz <= S mt)%nat /\ (k <= N0)%nat /\ (N0 = 1 -> k = 0)%nat).
  { unfold bsz, k. destruct (Nat.leb_spec N0 (S mt)) as [Q|Q].
    - replace (N0 + 0 - 1)%nat with (N0 - 1)%nat by lia. rewrite Nat.mod_small by lia. lia.
    - pose proof (Nat.div_mod (N0 - 2) mt ltac:(lia)) as DM. pose proof (Nat.mod_upper_bound (N0 - 2) mt ltac:(lia)) as MU.
      set (d := ((N0 - 2) / mt)%nat) in *. set (r := ((N0 - 2) mod mt)%nat) in *. clearbody d r.
      replace (N0 + d - 1)%nat with (S r + d * S mt)%nat by nia. rewrite Nat.mod_add by lia. rewrite Nat.mod_small by lia. nia. }
  assert (CE : create_list mt owner Q0 machine T0 noops0 =
    match fill_blocks mt (S N0) bsz owner Q0 {| p_pos := (length machine + (N0 + k))%nat; p_tail := []; p_tags := T0; p_noops := noops0; p_bases := [] |} with
    | None => None
    | Some p => if Nat.eqb (p_pos p) (length machine) then Some (machine ++ p_tail p, p_tags p, p_noops p) else None
    end) by reflexivity.
  clearbody k bsz. rewrite CE. clear CE. destruct AR as (AR1 & AR2 & AR3 & AR4).
  set (lo := length machine) in *. set (hi := (lo + (N0 + k))%nat).
  set (p0 := {| p_pos := hi; p_tail := []; p_tags := T0; p_noops := noops0; p_bases := [] |}).
  assert (AT : forall q, at_pos p0 q = None).
  { intros q. unfold at_pos. cbn [p0 p_pos p_tail]. destruct (Nat.ltb q hi); [reflexivity|]. destruct (q - hi)%nat; reflexivity. }
  assert (F0 : filling mt owner Q0 hi Q0 p0 hi).
  { constructor; cbn [p0 p_pos p_tail p_bases length].
    - lia.
    - lia.
    - intros i b H. destruct i; discriminate.
    - intros i j b b' _ H. destruct i; discriminate.
    - intros i Hi. exfalso. exact (QN i Hi).
    - exact ND.
    - auto.
    - intros i b q s _ H. destruct i; discriminate.
    - intros q s H. fold p0 in H. rewrite AT in H. discriminate.
    - intros q s H. fold p0 in H. rewrite AT in H. discriminate. }
  assert (TG0 : tagged owner Q0 T0 noops0 Q0 p0).
  { split; [reflexivity|]. destruct owner as [t|]; cbn [p0 p_tags p_noops].
    - split; [reflexivity|]. intros ti0 H0. exists ti0. do 5 (split; [auto|]). split; [|split].
      + intros k0 d0 Hd. split; [intros X Y; contradiction|auto].
      + intros X Y; contradiction.
      + auto.
    - split; [reflexivity|]. intros k0 ti0 H0. split; [intros X Y; contradiction|auto]. }
  assert (L0 : leveled mt (sum Q0) (fun _ => O) (fun _ => O) 0 1 1 0 0 Q0 p0 hi).
  { constructor.
    - intros q s c H. rewrite AT in H. discriminate.
    - intros i b q s _ H. destruct i; discriminate.
    - intros q s H. rewrite AT in H. discriminate.
    - intros q s H. rewrite AT in H. discriminate.
    - intros e He. rewrite Forall_forall in POS. specialize (POS e He). cbv beta in POS. destruct (fst e); cbn; lia.
    - intros e He. rewrite Forall_forall in POS. exact (POS e He).
    - lia.
    - cbn [p0 p_bases length]. intros i Hi. lia.
    - cbn; lia.
    - left; reflexivity.
    - split; [cbn; lia|left; reflexivity].
    - lia.
    - exact SO. }
  destruct (fill_blocks_ok mt MT owner Q0 T0 noops0 hi (sum Q0) QN QO lo k (S N0) bsz (fun _ => O) (fun _ => O) 1 Q0 p0) as (p' & cur & ht & E1 & E2 & E3 & F & TG & CH & SM); try assumption; try lia.
  { left. split; reflexivity. }
  { cbn [p0 p_pos]. unfold hi. lia. }
  replace (lo + (N0 + k))%nat with hi by reflexivity. fold p0. rewrite E1. rewrite E2, Nat.eqb_refl.
  pose proof (f_len _ _ _ _ _ _ _ F) as FL. rewrite E2 in FL. pose proof (f_cur _ _ _ _ _ _ _ F) as FC.
  assert (LN : length (p_tail p') = (N0 + k)%nat) by (unfold hi in FL; lia).
  assert (NT : forall q, (lo <= q)%nat -> nth_error (machine ++ p_tail p') q = at_pos p' q).
  { intros q Hq. unfold at_pos. rewrite E2. destruct (Nat.ltb_spec q lo); [lia|]. rewrite nth_error_app2 by (unfold lo in *; lia). reflexivity. }
  assert (AR' : forall q s, at_pos p' q = Some s -> (lo <= q < hi)%nat).
  { intros q s H. rewrite <- E2. eapply (at_range mt ltac:(lia)) with (hi := hi); [exact H|]. rewrite E2. exact FL. }
  assert (NB : forall q s, nth_error (machine ++ p_tail p') q = Some s -> (lo <= q)%nat -> at_pos p' q = Some s) by (intros q s H Hq; rewrite <- NT; assumption).
  assert (AN : forall q s, at_pos p' q = Some s -> nth_error (machine ++ p_tail p') q = Some s).
  { intros q s H. rewrite NT; [assumption|]. apply AR' in H. lia. }
  exists (p_tail p'), (p_tags p'), (p_noops p'), ht. split; [reflexivity|]. rewrite LN. split; [lia|]. split; [intros X; rewrite AR4 by exact X; lia|].
  cbv zeta. fold hi.
  assert (TI : forall q k0, tag_at p' q k0 -> tag_in (machine ++ p_tail p') lo hi q k0).
  { intros q k0 (s & S1 & S2). split; [eapply AR'; exact S1|]. exists s. split; [apply AN; assumption|assumption]. }
  assert (BI : forall q, bare_at p' q -> bare_in (machine ++ p_tail p') lo hi q).
  { intros q (s & S1 & S2). split; [eapply AR'; exact S1|]. exists s. split; [apply AN; assumption|assumption]. }
  split; [|split].
  - constructor.
    + rewrite app_length, LN. fold lo. unfold hi. lia.
    + intros q s Hq Hs. apply NB in Hs; [|lia]. pose proof (f_state _ _ _ _ _ _ _ F q s Hs) as FS. destruct (s_source s) as [c|] eqn:Sc.
      * split; [eapply CH; eassumption|]. destruct FS as (b & B1 & B2 & B3 & (sc & B4 & B5) & B6). exists b. split; [lia|]. split; [lia|]. split.
        -- exists sc. split; [apply AN; assumption|assumption].
        -- intros q' s' Hq' Hh Hs'. apply NB in Hs'; [|lia]. eapply B6; eassumption.
      * destruct FS as [FS|(i & b & B1 & B2 & B3)]; [lia|destruct B2].
    + intros q Hq. destruct (nth_error (machine ++ p_tail p') q) as [s|] eqn:Q; [|apply nth_error_None in Q; rewrite app_length, LN in Q; fold lo in Q; unfold hi in Hq; lia].
      eapply least_height; [eapply SM; apply NB; [exact Q|lia]|assumption].
  - intros q s Hq Hs. apply NB in Hs; [|lia]. pose proof (f_kind _ _ _ _ _ _ _ F q s Hs) as FK. destruct (s_tag s); [exact FK|]. destruct FK as [(b & B1 & B2)|FK]; [|right; exact FK].
    left. exists b. split; [assumption|]. lia.
  - destruct TG as [TL TG]. destruct owner as [t|].
    + destruct TG as [G1 G2]. split; [assumption|]. split; [exact G1|]. intros ti0 H0. destruct (G2 ti0 H0) as (ti & H1 & H2 & H3 & H4 & H5 & H6 & H7 & H8).
      exists ti. repeat (split; [assumption|]). split; [|split].
      * intros k0 d0 Hd. destruct (H6 k0 d0 Hd) as [A1 A2]. split; [|intros X; apply A2; left; exact X]. intros X. destruct (A1 X ltac:(intros [])) as (q & Q1 & Q2). exists q. auto.
      * intros X. destruct (H7 X ltac:(intros [])) as (q & Q1 & Q2 & Q3). exists q. auto.
      * intros X. apply H8. left; exact X.
    + destruct TG as [G1 G2]. split; [assumption|]. split; [assumption|]. intros k0 ti0 H0. destruct (G2 k0 ti0 H0) as [A1 A2]. split; [|intros X; apply A2; left; exact X].
      intros X. destruct (A1 X ltac:(intros [])) as (q & Q1 & Q2). exists q. auto.
Qed.
