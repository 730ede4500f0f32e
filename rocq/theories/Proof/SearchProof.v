From Verif Require Import Base.Bytes Model.Block Model.Chunk Model.ChunkReader Model.ChunkDecoder Model.RecordReader Model.BinarySearch Model.RecordSearch Spec.FileSpec Spec.SeekSpec Spec.CursorSpec Spec.CursorLink Spec.BinarySearchSpec Proof.LocalProof Proof.SeekProof Proof.DecoderProof Proof.RecordReaderProof Proof.BinarySearchProof.

(** The first record which is not unordered. *)
Fixpoint judge (t : Z -> ordering) (n : nat) (i : Z) : option (ordering * Z) :=
  match n with
  | O => None
  | S n' => match t i with Unordered => judge t n' (i + 1) | o => Some (o, i) end
  end.
Definition verdict (j : option (ordering * Z)) : ordering := match j with Some (o, _) => o | None => Unordered end.
Lemma judge_spec t n : forall i, match judge t n i with
  | Some (o, k) => o <> Unordered /\ t k = o /\ i <= k < i + Z.of_nat n /\ forall j, i <= j < k -> t j = Unordered
  | None => forall j, i <= j < i + Z.of_nat n -> t j = Unordered
  end.
Proof.
  induction n as [|n IH]; intros i; cbn [judge]; [intros; lia|].
  assert (G : t i = Unordered -> match judge t n (i + 1) with
    | Some (o, k) => o <> Unordered /\ t k = o /\ i <= k < i + Z.of_nat (S n) /\ forall j, i <= j < k -> t j = Unordered
    | None => forall j, i <= j < i + Z.of_nat (S n) -> t j = Unordered end).
  { intros T. specialize (IH (i + 1)). destruct (judge t n (i + 1)) as [[o k]|].
    - destruct IH as (A & B & C & D). repeat split; try assumption; try lia. intros j J. destruct (Z.eq_dec j i) as [-> |]; [exact T|apply D; lia].
    - intros j J. destruct (Z.eq_dec j i) as [-> |]; [exact T|apply IH; lia]. }
  destruct (t i) eqn:T; try (repeat split; try congruence; try lia; intros; lia). apply G; reflexivity.
Qed.

Lemma split_cases {X} : forall (A : list X) x C A' x' C', A ++ x :: C = A' ++ x' :: C' ->
  (exists M, A' = A ++ x :: M) \/ (A = A' /\ x = x' /\ C = C') \/ (exists M, A = A' ++ x' :: M).
Proof.
  induction A as [|a A IH]; intros x C [|a' A'] x' C' E; cbn in E; inversion E; subst; auto.
  - left. eexists. reflexivity.
  - right. right. eexists. reflexivity.
  - destruct (IH _ _ _ _ _ H1) as [(M & ->) | [(-> & -> & ->) | (M & ->)]]; [left|right; left|right; right]; auto; eexists; reflexivity.
Qed.

Section Search.
  Variable hash : list Z -> Z.
  Hypothesis hash_range : forall l, 0 <= hash l < 2 ^ 64.
  Variable decompress : Z -> list Z -> option (list Z).
  Variable transpose_decode : list Z -> Z -> Z -> option (list Z * list Z).
  Variable F : list Z.
  Variable qr : list (placed * list (list Z)).
  Notation qs0 := (map fst qr).
  Hypothesis FC : chain hash F 0 qs0.
  Hypothesis FS : Forall (seek_ok hash F) qs0.
  Hypothesis flen : zlen F + 64 <= 2 ^ 64.
  Hypothesis DEC : Forall (decodes hash decompress transpose_decode) qr.
  Notation rel := (rel hash F qr).
  Notation beginning := (beginning F).
  Notation idle := (idle hash F qr).

  (** Inside chunk [x], before its record [j]. *)
  Record inside A x C j d : Prop := { n_split : qr = A ++ x :: C; n_base : base d; n_begin : rd_begin d = q_begin (fst x);
    n_dec : rd_dec d = holds (snd x) j; n_j : 0 <= j <= zlen (snd x); n_st : st hash F (beginning C) (map fst C) (rd_src d) }.
  Lemma inside_rel A x C j d : inside A x C j d -> rel (nrecs A + j) d.
  Proof. intros []. apply (rel_inside hash F qr A x C); assumption. Qed.

  Variable test : record_reader -> option (option ordering * record_reader).
  Variable t : Z -> ordering.
  Hypothesis TR : forall i d, rel i d -> 0 <= i < nrecs qr -> exists d', test d = Some (Some (t i), d') /\ rel (i + 1) d'.
  Hypothesis TI : forall A x C j d, inside A x C j d -> j < zlen (snd x) ->
    exists d', test d = Some (Some (t (nrecs A + j)), d') /\ inside A x C (j + 1) d'.

  Lemma chunk_lt A x C : qr = A ++ x :: C -> q_begin (fst x) < beginning C.
  Proof.
    intros E. assert (IX : In x (A ++ [x])) by (apply in_or_app; right; left; reflexivity).
    apply (before_place hash hash_range decompress transpose_decode F qr FC FS DEC (A ++ [x]) C x); [rewrite <- app_assoc; exact E|exact IX].
  Qed.
  Lemma chunk_unique A x C A' x' C' : qr = A ++ x :: C -> qr = A' ++ x' :: C' -> q_begin (fst x) = q_begin (fst x') -> A = A' /\ x = x' /\ C = C'.
  Proof. intros E E' EB. destruct (split_unique hash hash_range decompress transpose_decode F qr FC FS DEC A (x :: C) A' (x' :: C') E E' EB) as [-> X]. inversion X; auto. Qed.
  Lemma nrecs_total A x C : qr = A ++ x :: C -> nrecs qr = nrecs A + zlen (snd x) + nrecs C.
  Proof. intros ->. change (x :: C) with ([x] ++ C). rewrite !nrecs_app, nrecs_one. lia. Qed.
  (** Order of chunks. *)
  Lemma chunk_order A x C A' x' C' : qr = A ++ x :: C -> qr = A' ++ x' :: C' -> q_begin (fst x) < q_begin (fst x') -> nrecs A + zlen (snd x) <= nrecs A'.
  Proof.
    intros E E' L. rewrite E in E'. destruct (split_cases _ _ _ _ _ _ E') as [(M & ->) | [(-> & -> & ->) | (M & ->)]].
    - change (x :: M) with ([x] ++ M). rewrite !nrecs_app, nrecs_one. pose proof (nrecs_nonneg M). lia.
    - lia.
    - exfalso. destruct (before_place hash hash_range decompress transpose_decode F qr FC FS DEC (A' ++ x' :: M) (x :: C) x' E) as [_ LT]; [apply in_or_app; right; left; reflexivity|]. cbn [RecordReaderProof.beginning] in LT. lia.
  Qed.

  Lemma seek_inside A x C j k d : inside A x C j d -> 0 <= k <= zlen (snd x) ->
    exists d', RR_SeekTo hash decompress transpose_decode F (q_begin (fst x)) k d = Some (true, d') /\ inside A x C k d'.
  Proof.
    intros [E BA RB RD J S] K. unfold RR_SeekTo. rewrite (base_ok _ (base_put_last false d BA)). cbn [negb put_last rd_begin rd_src].
    rewrite RB, Z.eqb_refl. destruct (st_ok hash F _ _ _ S) as [_ SP]. rewrite SP. pose proof (chunk_lt A x C E) as LT.
    replace (q_begin (fst x) <? beginning C) with true by (symmetry; apply Z.ltb_lt; exact LT). rewrite orb_true_r.
    unfold set_index. cbn [put_last rd_dec]. rewrite RD, SetIndex_holds by lia. eexists. split; [reflexivity|].
    rewrite Z.min_l by lia. constructor; cbn [put_last put_dec rd_begin rd_dec rd_src]; try assumption; try reflexivity. destruct BA; constructor; assumption.
  Qed.

  Lemma search_records A x C : forall n k d, (exists j, inside A x C j d) ->
    0 <= k -> k + Z.of_nat n = zlen (snd x) ->
    exists d' j, SearchRecords hash decompress transpose_decode F test n (q_begin (fst x)) k d =
      Some (Some (match judge t n (nrecs A + k) with Some (o, i) => Some (o, i - nrecs A) | None => None end), d') /\ inside A x C j d'.
  Proof.
    induction n as [|n IH]; intros k d (j & IJ) K N; cbn [SearchRecords judge].
    - eauto.
    - destruct (seek_inside A x C j k d IJ ltac:(lia)) as (d1 & -> & I1). destruct (TI A x C k d1 I1 ltac:(lia)) as (d2 & -> & I2).
      rewrite (base_ok _ (n_base _ _ _ _ _ I2)). cbn [negb].
      assert (G : forall o, t (nrecs A + k) = o -> exists d' j, Some (Some (Some (o, k)), d2) = Some (Some (Some (o, nrecs A + k - nrecs A)), d') /\ inside A x C j d').
      { intros o _. exists d2, (k + 1). split; [do 5 f_equal; lia|exact I2]. }
      destruct (t (nrecs A + k)) eqn:T; try (apply G; reflexivity).
      destruct (IH (k + 1) d2) as (d3 & j3 & -> & I3); [eauto|lia|lia|]. rewrite Z.add_assoc. eauto.
  Qed.
  Definition P (b : Z) : Prop := exists A x C, qr = A ++ x :: C /\ q_begin (fst x) = b.
  Definition Bd (b : Z) : Prop := exists A B, qr = A ++ B /\ beginning B = b.
  Definition chunk_judge (A : list (placed * list (list Z))) (x : placed * list (list Z)) := judge t (length (snd x)) (nrecs A).
  Definition facts (log : list (Z * ordering)) (s : search_state) : Prop :=
    Forall (fun e => exists A x C, qr = A ++ x :: C /\ q_begin (fst x) = fst e /\ snd e = verdict (chunk_judge A x)) log /\
    match last_with Less log with
    | None => ss_less s = None
    | Some l => exists A x C k, qr = A ++ x :: C /\ q_begin (fst x) = l /\ chunk_judge A x = Some (Less, k) /\ ss_less s = Some (l, k - nrecs A + 1, zlen (snd x))
    end /\
    match last_found log with
    | None => ss_index s = 0
    | Some (o, p) => exists A x C k, qr = A ++ x :: C /\ q_begin (fst x) = p /\ chunk_judge A x = Some (o, k) /\ ss_index s = k - nrecs A
    end.
  Definition R log s := (exists i, rel i (ss_reader s)) /\ facts log s.
  Definition R' log s := base (ss_reader s) /\ idle (rd_src (ss_reader s)) /\ facts log s.

  Lemma chunk_middle log s low high : R log s -> 0 <= low -> high <= zlen F -> Bd low -> Bd high ->
    exists m s', ChunkMiddle hash F low high s = Some (m, s') /\
      match m with None => R log s' /\ forall p, P p -> ~ low <= p < high | Some m => R' log s' /\ low <= m < high /\ P m end.
  Proof.
    intros [(i & RL) FA] L0 H0 (A0 & B0 & E0 & BL) (A1 & B1 & E1 & BH). unfold ChunkMiddle. destruct (Z.leb_spec high low) as [LE|LT].
    { eexists None, s. split; [reflexivity|]. split; [split; [eauto|exact FA]|]. intros; lia. }
    remember (low + (high - low) / 2) as mid eqn:EM. assert (MR : low <= mid < high).
    { assert (0 <= (high - low) / 2 < high - low) by (split; [apply Z.div_pos; lia|apply Z.div_lt; lia]). lia. }
    destruct (seek_chunk hash hash_range F qr FC FS flen kBefore mid (rd_src (ss_reader s)) (rel_idle _ _ _ _ _ RL) ltac:(lia)) as (A & B & src' & E & -> & S & NA & NB).
    cbn [negb]. destruct (st_ok hash F _ _ _ S) as [_ SP].
    assert (LASTA : forall A2 y, A = A2 ++ [y] -> q_begin (fst y) < mid /\ beginning B <= mid).
    { intros A2 y EA. rewrite EA in E, NA. apply Forall_app in NA as [_ NA]. inversion NA as [|? ? N _]; subst. unfold stops in N. apply orb_false_iff in N as [N1 N2].
      rewrite <- app_assoc in E. cbn [app] in E. rewrite (split_end hash hash_range decompress transpose_decode F qr FC FS DEC A2 y B E) in N2. apply Z.leb_gt in N1. apply Z.ltb_ge in N2. lia. }
    assert (BM : beginning B <= mid).
    { destruct (rev A) as [|y l] eqn:RV.
      - assert (A = []) as -> by (rewrite <- (rev_involutive A), RV; reflexivity). cbn [app] in E. rewrite <- E. rewrite <- (chain_begin hash F 0 qr FC). lia.
      - apply (LASTA (rev l) y). rewrite <- (rev_involutive A), RV. reflexivity. }
    destruct B as [|x C]; [cbn [RecordReaderProof.beginning] in BM; lia|]. cbn [RecordReaderProof.beginning] in *.
    eexists (Some _), _. split; [reflexivity|]. cbn [put_reader ss_reader]. split; [|rewrite SP; split].
    - split; [|split].
      + pose proof (rel_base _ _ _ _ _ RL) as []. constructor; assumption.
      + exists A, (x :: C). split; [exact E|exact S].
      + exact FA.
    - split; [|lia]. destruct (Z_lt_ge_dec (q_begin (fst x)) low) as [LL|]; [exfalso|lia].
      assert (XI : In x qr) by (rewrite E; apply in_or_app; right; left; reflexivity). rewrite E0 in XI. apply in_app_or in XI as [XA|XB].
      + destruct (split_at hash hash_range F qr FC A0 B0 E0) as (_ & FA0 & _). rewrite Forall_forall in FA0. specialize (FA0 (fst x) (in_map fst _ _ XA)). cbv beta in FA0.
        unfold stops in NB. apply orb_true_iff in NB as [N|N]; [apply Z.leb_le in N|apply Z.ltb_lt in N]; lia.
      + pose proof (after_place hash hash_range F qr FC A0 B0 x E0 XB). lia.
    - exists A, x, C. auto.
  Qed.

  Lemma chunk_test log s p : R' log s -> (forall q, ~ In (q, Equivalent) log) -> P p -> 0 <= p < zlen F ->
    exists o n s', SearchChunk hash decompress transpose_decode F test p s = Some (Some (o, n), s') /\ R (log ++ [(p, o)]) s' /\
      match o with
      | Less | Unordered => p < n /\ Bd n /\ (n < zlen F -> P n) /\ (forall q, p < q < n -> ~ P q)
      | Equivalent | Greater => n = p
      end.
  Proof.
    intros (BA & ID & F1 & F2 & F3) _ (A & x & C & E & <-) PR. unfold SearchChunk.
    destruct (src_seek_ok hash hash_range decompress transpose_decode F qr FC FS DEC A (x :: C) _ E ID) as (src' & SK & S'). cbn [RecordReaderProof.beginning] in SK, S'. rewrite SK. cbn [negb].
    assert (BA' : base (put_src src' (ss_reader s))) by (destruct BA; constructor; assumption).
    destruct (read_chunk hash hash_range decompress transpose_decode F qr FC FS flen DEC A (x :: C) _ E BA' S') as (d & -> & B1 & B2 & B3 & _ & B5).
    assert (IN : inside A x C 0 d) by (constructor; try assumption; pose proof (zlen_nonneg (snd x)); lia).
    assert (NR : dc_num_records (rd_dec d) = zlen (snd x)) by (rewrite B3; unfold dc_num_records; cbn [dc_limits holds]; apply SimpleChunkProof.zlen_ends).
    rewrite NR, B2. replace (Z.to_nat (zlen (snd x))) with (length (snd x)) by (unfold zlen; lia).
    destruct (search_records A x C (length (snd x)) 0 d (ex_intro _ 0 IN) ltac:(lia) ltac:(unfold zlen; lia)) as (d' & j & -> & I'). rewrite Z.add_0_r.
    fold (chunk_judge A x). pose proof (inside_rel _ _ _ _ _ I') as RL. destruct (st_ok hash F _ _ _ (n_st _ _ _ _ _ I')) as [_ SP].
    pose proof (chunk_lt A x C E) as LT.
    assert (ENT : forall o, o = verdict (chunk_judge A x) -> Forall (fun e => exists A x C, qr = A ++ x :: C /\ q_begin (fst x) = fst e /\ snd e = verdict (chunk_judge A x)) (log ++ [(q_begin (fst x), o)])).
    { intros o EO. apply Forall_app. split; [exact F1|]. constructor; [|constructor]. exists A, x, C. auto. }
    assert (NEXT : q_begin (fst x) < beginning C /\ Bd (beginning C) /\ (beginning C < zlen F -> P (beginning C)) /\ (forall q, q_begin (fst x) < q < beginning C -> ~ P q)).
    { assert (E' : qr = (A ++ [x]) ++ C) by (rewrite <- app_assoc; exact E). split; [exact LT|]. split; [exists (A ++ [x]), C; auto|]. split.
      - intros L. destruct C as [|y C]; [cbn [RecordReaderProof.beginning] in L; lia|]. exists (A ++ [x]), y, C. auto.
      - intros q Q (A2 & x2 & C2 & E2 & <-). assert (XI : In x2 qr) by (rewrite E2; apply in_or_app; right; left; reflexivity). rewrite E in XI. apply in_app_or in XI as [XA | [<- | XC]].
        + destruct (before_place hash hash_range decompress transpose_decode F qr FC FS DEC A (x :: C) x2 E XA) as [_ X]. cbn [RecordReaderProof.beginning] in X. lia.
        + lia.
        + pose proof (after_place hash hash_range F qr FC _ _ x2 E' XC). lia. }
    pose proof (judge_spec t (length (snd x)) (nrecs A)) as JS. fold (chunk_judge A x) in JS.
    destruct (chunk_judge A x) as [[o k]|] eqn:CJ.
    - destruct JS as (NU & TK & KR & _). destruct o; [| | |congruence].
      + rewrite SP. eexists Less, _, _. split; [reflexivity|]. split; [|exact NEXT]. split; [eauto|]. split; [apply ENT; reflexivity|].
        rewrite last_with_snoc, last_found_snoc. cbn [ge0 ss_less ss_index]. split; [|exact F3]. exists A, x, C, k. auto.
      + eexists Equivalent, _, _. split; [reflexivity|]. split; [|reflexivity]. split; [eauto|]. split; [apply ENT; reflexivity|].
        rewrite last_with_snoc, last_found_snoc. cbn [ge0 ss_less ss_index]. split; [exact F2|]. exists A, x, C, k. auto.
      + eexists Greater, _, _. split; [reflexivity|]. split; [|reflexivity]. split; [eauto|]. split; [apply ENT; reflexivity|].
        rewrite last_with_snoc, last_found_snoc. cbn [ge0 ss_less ss_index]. split; [exact F2|]. exists A, x, C, k. auto.
    - rewrite SP. eexists Unordered, _, _. split; [reflexivity|]. split; [|exact NEXT]. split; [eauto|]. split; [apply ENT; reflexivity|].
      rewrite last_with_snoc, last_found_snoc. cbn [ge0 put_reader ss_less ss_index]. split; assumption.
  Qed.

  (** Searching in the suffix of a chunk. *)
  Lemma record_search A x C lo d i fuel : qr = A ++ x :: C -> rel i d -> 0 <= lo -> monotone t 0 (nrecs qr) -> 2 * Z.max 0 (zlen (snd x) - lo) + 1 <= Z.of_nat fuel ->
    exists o k d' i', BinarySearch_cancel DefaultMiddle DefaultEmpty (SearchRecordGuide hash decompress transpose_decode F test (q_begin (fst x))) fuel lo (zlen (snd x)) d = Some (Some (o, k), d') /\
      rel i' d' /\ found_ok (fun k => t (nrecs A + k)) lo (zlen (snd x)) (o, k).
  Proof.
    intros E RL L M FU. pose proof (nrecs_nonneg A) as NA. pose proof (nrecs_nonneg C) as NC. pose proof (nrecs_total A x C E) as NT.
    destruct (search_result_cancel DefaultMiddle (SearchRecordGuide hash decompress transpose_decode F test (q_begin (fst x))) (fun _ => True) (fun _ => True) lo (zlen (snd x))
      (fun log d => (exists i, rel i d) /\ Forall (fun e => snd e = t (nrecs A + fst e)) log) (fun log d => (exists i, rel i d) /\ Forall (fun e => snd e = t (nrecs A + fst e)) log))
      with (st := d) (fuel := fuel) as ([o k] & log & d' & -> & [(i' & RL') FT] & O); auto.
    - intros log s l h RS _ _ _ _. unfold DefaultMiddle. destruct (Z.leb_spec h l).
      + eexists None, s. split; [reflexivity|]. split; [exact RS|]. intros; lia.
      + eexists (Some _), s. split; [reflexivity|]. split; [exact RS|]. split; [|exact Logic.I]. assert (0 <= (h - l) / 2 < h - l) by (split; [apply Z.div_pos; lia|apply Z.div_lt; lia]). lia.
    - intros log s p [(i1 & R1) FT] _ _ PR. unfold SearchRecordGuide, SearchRecord.
      destruct (seek_to hash hash_range decompress transpose_decode F qr FC FS flen DEC A x C p i1 s E ltac:(lia) R1) as (d1 & -> & R2). rewrite Z.min_l in R2 by lia.
      destruct (TR _ _ R2 ltac:(lia)) as (d2 & -> & R3). rewrite (base_ok _ (rel_base _ _ _ _ _ R3)). cbn [negb].
      eexists (t (nrecs A + p)), _, _. split; [reflexivity|]. split.
      + split; [eauto|]. apply Forall_app. split; [exact FT|]. constructor; [reflexivity|constructor].
      + unfold DefaultNext. destruct (t (nrecs A + p)); cbn [ge0]; try reflexivity; repeat split; auto; intros; lia.
    - split; [eauto|constructor].
    - exists o, k, d', i'. split; [reflexivity|]. split; [exact RL'|]. apply (default_found (fun k => t (nrecs A + k)) lo (zlen (snd x)) (o, k) log O FT).
      intros p q PR QR. destruct (M (nrecs A + p) (nrecs A + q)) as (M1 & M2 & M3); try lia.
      split; [|split]; intros T1 T2; [specialize (M1 T1 T2)|specialize (M2 T1 T2)|specialize (M3 T1 T2)]; lia.
  Qed.

  (** Every record is in a chunk. *)
  Lemma record_chunk : forall B A i, qr = A ++ B -> nrecs A <= i < nrecs qr -> exists A' x C, qr = A' ++ x :: C /\ nrecs A' <= i < nrecs A' + zlen (snd x).
  Proof.
    induction B as [|x B IH]; intros A i E R0.
    - rewrite app_nil_r in E. rewrite E in R0. lia.
    - destruct (Z_lt_ge_dec i (nrecs A + zlen (snd x))) as [L|L]; [exists A, x, B; split; [exact E|lia]|].
      apply (IH (A ++ [x])); [rewrite <- app_assoc; exact E|]. rewrite nrecs_app, nrecs_one. lia.
  Qed.
  Lemma rel_put_last i b d : rel i d -> rel i (put_last b d).
  Proof. intros [A B d' E BA RB RD S|A x C j d' E BA RB RD J S]; [apply (rel_between hash F qr A B)|apply (rel_inside hash F qr A x C)]; cbn; try assumption; apply base_put_last; assumption. Qed.
  Lemma finish_at A x C k o i d : qr = A ++ x :: C -> 0 <= k <= zlen (snd x) -> rel i d ->
    exists d', SearchFinish hash decompress transpose_decode F o (q_begin (fst x)) k d = Some (Some o, d') /\ rel (nrecs A + k) d'.
  Proof.
    intros E K RL. unfold SearchFinish. destruct (seek_to hash hash_range decompress transpose_decode F qr FC FS flen DEC A x C k i d E ltac:(lia) RL) as (d' & -> & R2).
    rewrite Z.min_l in R2 by lia. eauto.
  Qed.
  Lemma finish_end o i d : rel i d -> exists d', SearchFinish hash decompress transpose_decode F o (zlen F) 0 d = Some (Some o, d') /\ rel (nrecs qr) d'.
  Proof. intros RL. unfold SearchFinish. destruct (seek_to_end hash hash_range decompress transpose_decode F qr FC FS DEC i d RL) as (d' & -> & R2). eauto. Qed.

  Lemma search_impl i d : rel i d -> monotone t 0 (nrecs qr) ->
    exists o i' d', RR_SearchImpl hash decompress transpose_decode F test d = Some (Some o, d') /\ rel i' d' /\ found_ok t 0 (nrecs qr) (o, i').
  Proof.
    intros RL M. unfold RR_SearchImpl. rewrite (base_ok _ (rel_base _ _ _ _ _ RL)). cbn [negb].
    destruct (rel_idle _ _ _ _ _ RL) as (Ai & Bi & Ei & Si). destruct (st_ok hash F _ _ _ Si) as [SO _]. cbn [put_last rd_src]. rewrite SO. cbn [negb].
    assert (RL0 : rel i (put_last false d)) by (apply rel_put_last; exact RL).
    change (MkRecordReader (rd_src d) (rd_begin d) (rd_dec d) false (rd_rec d) (rd_open d) (rd_failed d)) with (put_last false d).
    destruct (search_result_cancel (ChunkMiddle hash F) (SearchChunk hash decompress transpose_decode F test) P Bd 0 (zlen F) R R') with (st := MkSearch (put_last false d) None 0) (fuel := (2 * length F + 1)%nat)
      as ([o found] & log & s & E & [(is & RS) (F1 & F2 & F3)] & O).
    { intros log s [(i0 & R0) FA]. split; [apply (rel_base _ _ _ _ _ R0)|]. split; [apply (rel_idle _ _ _ _ _ R0)|exact FA]. }
    { intros. apply chunk_middle; assumption. }
    { intros. apply chunk_test; assumption. }
    { intros p (A & x & C & E & <-). exists A, (x :: C). auto. }
    { split; [eauto|]. split; [constructor|]. split; reflexivity. }
    { exists [], qr. split; [reflexivity|]. symmetry. apply (chain_begin hash F 0 qr FC). }
    { exists qr, []. split; [rewrite app_nil_r; reflexivity|reflexivity]. }
    { unfold zlen. lia. }
    change ChunkEmpty with DefaultEmpty. rewrite E. clear E.
    assert (IDX : forall A x C o k, qr = A ++ x :: C -> chunk_judge A x = Some (o, k) -> o <> Unordered /\ t k = o /\ nrecs A <= k < nrecs A + zlen (snd x) /\ (forall j, nrecs A <= j < k -> t j = Unordered) /\ 0 <= nrecs A /\ nrecs A + zlen (snd x) <= nrecs qr).
    { intros A x C o0 k EX CJ. pose proof (judge_spec t (length (snd x)) (nrecs A)) as JS. fold (chunk_judge A x) in JS. rewrite CJ in JS. fold (zlen (snd x)) in JS.
      pose proof (nrecs_nonneg A). pose proof (nrecs_nonneg C). pose proof (nrecs_total A x C EX). destruct JS as (J1 & J2 & J3 & J4). repeat split; try assumption; lia. }
    assert (SAME : forall A x C A' x' C', qr = A ++ x :: C -> qr = A' ++ x' :: C' -> q_begin (fst x) = q_begin (fst x') -> A = A' /\ x = x' /\ C = C') by exact chunk_unique.
    destruct O as (_ & _ & [(a & f & EL & EQ)|(NE & EQ & CV)]); [injection EQ as -> -> |].
    - (* an equivalent record *)
      rewrite EL, last_found_snoc in F3. cbn [ge0] in F3. destruct F3 as (A & x & C & k & EX & <- & CJ & ->). destruct (IDX _ _ _ _ _ EX CJ) as (_ & TK & KR & _ & N0 & N1).
      destruct (finish_at A x C (k - nrecs A) Equivalent is _ EX ltac:(lia) RS) as (d' & -> & RD). exists Equivalent, k, d'. split; [reflexivity|].
      replace (nrecs A + (k - nrecs A)) with k in RD by lia. split; [exact RD|]. unfold found_ok. cbn [fst snd]. split; [lia|exact TK].
    - rewrite last_found_greater in F3 by exact NE. rewrite Forall_forall in F1.
      (* what is known about each record *)
      assert (COV : forall j, 0 <= j < nrecs qr ->
        (exists l A x C k, last_with Less log = Some l /\ qr = A ++ x :: C /\ q_begin (fst x) = l /\ chunk_judge A x = Some (Less, k) /\ (j <= k \/ k < j < nrecs A + zlen (snd x))) \/
        (exists g A x C k, last_with Greater log = Some g /\ qr = A ++ x :: C /\ q_begin (fst x) = g /\ chunk_judge A x = Some (Greater, k) /\ k <= j) \/ t j = Unordered).
      { intros j J. destruct (record_chunk qr [] j eq_refl) as (Aj & xj & Cj & Ej & Jr); [change (nrecs []) with 0; lia|].
        assert (PX : P (q_begin (fst xj))) by (exists Aj, xj, Cj; auto).
        assert (PR : 0 <= q_begin (fst xj) < zlen F).
        { destruct (split_at hash hash_range F qr FC Aj (xj :: Cj) Ej) as (_ & _ & P0). cbn [RecordReaderProof.beginning] in P0. pose proof (chunk_lt Aj xj Cj Ej).
          assert (E' : qr = (Aj ++ [xj]) ++ Cj) by (rewrite <- app_assoc; exact Ej). pose proof (begin_le hash hash_range F qr FC _ _ E'). lia. }
        destruct (CV _ PX PR) as [(l & L & LE) | [(g & G & GE) | U]].
        - left. rewrite L in F2. destruct F2 as (A & x & C & k & EX & BX & CJ & _). destruct (IDX _ _ _ _ _ EX CJ) as (_ & TK & KR & _ & N0 & N1). exists l, A, x, C, k. repeat (split; [assumption|]).
          destruct (Z_lt_ge_dec (q_begin (fst xj)) l) as [LL|LL].
          + pose proof (chunk_order Aj xj Cj A x C Ej EX ltac:(lia)). lia.
          + destruct (SAME _ _ _ _ _ _ Ej EX ltac:(lia)) as (-> & -> & ->). lia.
        - rewrite G in F3. destruct F3 as (A & x & C & k & EX & BX & CJ & _). destruct (IDX _ _ _ _ _ EX CJ) as (_ & TK & KR & UN & N0 & N1).
          destruct (Z_lt_ge_dec g (q_begin (fst xj))) as [LL|LL].
          + right. left. exists g, A, x, C, k. repeat (split; [assumption|]). pose proof (chunk_order A x C Aj xj Cj EX Ej ltac:(lia)). lia.
          + destruct (SAME _ _ _ _ _ _ Ej EX ltac:(lia)) as (-> & -> & ->). destruct (Z_lt_ge_dec j k) as [JK|JK].
            * right. right. apply UN. lia.
            * right. left. exists g, A, x, C, k. repeat (split; [assumption|]). lia.
        - right. right. destruct (F1 _ U) as (A & x & C & EX & BX & VX). cbn [fst snd] in BX, VX. destruct (SAME _ _ _ _ _ _ Ej EX ltac:(lia)) as (-> & -> & ->).
          pose proof (judge_spec t (length (snd x)) (nrecs A)) as JS. fold (chunk_judge A x) in JS. destruct (chunk_judge A x) as [[oj kj]|].
          + cbn [verdict] in VX. destruct JS as (JU & _). congruence.
          + apply JS. unfold zlen in Jr. lia. }
      (* if the suffix of the last less chunk has nothing *)
      assert (FIN : forall d1 i1, rel i1 d1 ->
        (forall l A x C k j, last_with Less log = Some l -> qr = A ++ x :: C -> q_begin (fst x) = l -> chunk_judge A x = Some (Less, k) -> k < j < nrecs A + zlen (snd x) -> t j <> Equivalent /\ t j <> Greater) ->
        let '(o, found) := match last_with Greater log, last_with Less log with Some g, _ => (Greater, g) | None, Some _ => (Less, zlen F) | None, None => (Unordered, zlen F) end in
        exists i' d', SearchFinish hash decompress transpose_decode F o found (ss_index s) d1 = Some (Some o, d') /\ rel i' d' /\ found_ok t 0 (nrecs qr) (o, i')).
      { intros d1 i1 R1 SUF.
        assert (NOL : forall l A x C k j, last_with Less log = Some l -> qr = A ++ x :: C -> q_begin (fst x) = l -> chunk_judge A x = Some (Less, k) -> 0 <= j -> j <= k \/ k < j < nrecs A + zlen (snd x) -> t j <> Equivalent /\ t j <> Greater).
        { intros l A x C k j L EX BX CJ J0 [JK|JK]; [|apply (SUF l A x C k j); assumption]. destruct (IDX _ _ _ _ _ EX CJ) as (_ & TK & KR & _ & N0 & N1).
          destruct (M k j ltac:(lia) ltac:(lia)) as (M1 & _ & M3). split; intros T; [specialize (M1 TK T)|specialize (M3 TK T)]; lia. }
        destruct (last_with Greater log) as [g|] eqn:G.
        - destruct F3 as (A & x & C & k & EX & <- & CJ & ->). destruct (IDX _ _ _ _ _ EX CJ) as (_ & TK & KR & UN & N0 & N1).
          destruct (finish_at A x C (k - nrecs A) Greater i1 d1 EX ltac:(lia) R1) as (d' & -> & RD). exists k, d'. split; [reflexivity|]. replace (nrecs A + (k - nrecs A)) with k in RD by lia. split; [exact RD|].
          unfold found_ok. cbn [fst snd]. split; [lia|]. split; [exact TK|]. intros j J.
          destruct (COV j J) as [(l & A' & x' & C' & k' & L & EX' & BX' & CJ' & JK) | [(g & A' & x' & C' & k' & [= <-] & EX' & BX' & CJ' & JK) | U]].
          + destruct (NOL l A' x' C' k' j L EX' BX' CJ' ltac:(lia) JK). split; auto.
          + destruct (SAME _ _ _ _ _ _ EX EX' ltac:(lia)) as (<- & <- & <-). rewrite CJ in CJ'. injection CJ' as <-. split; [|lia]. intros T. destruct (M j k J ltac:(lia)) as (_ & M2 & _). specialize (M2 T TK). lia.
          + split; congruence.
        - rewrite F3. destruct (last_with Less log) as [l|] eqn:L.
          + destruct (finish_end Less i1 d1 R1) as (d' & -> & RD). exists (nrecs qr), d'. split; [reflexivity|]. split; [exact RD|]. unfold found_ok. cbn [fst snd]. split; [reflexivity|].
            destruct F2 as (A & x & C & k & EX & BX & CJ & _). destruct (IDX _ _ _ _ _ EX CJ) as (_ & TK & KR & UN & N0 & N1). split; [exists k; split; [lia|exact TK]|]. intros j J.
            destruct (COV j J) as [(l' & A' & x' & C' & k' & [= <-] & EX' & BX' & CJ' & JK) | [(g & A' & x' & C' & k' & X & _) | U]]; [|discriminate X|split; congruence].
            apply (NOL l A' x' C' k' j); auto. lia.
          + destruct (finish_end Unordered i1 d1 R1) as (d' & -> & RD). exists (nrecs qr), d'. split; [reflexivity|]. split; [exact RD|]. unfold found_ok. cbn [fst snd]. split; [reflexivity|].
            intros j J. destruct (COV j J) as [(l' & A' & x' & C' & k' & X & _) | [(g & A' & x' & C' & k' & X & _) | U]]; [discriminate X|discriminate X|exact U]. }
      destruct (last_with Less log) as [l|] eqn:L.
      + destruct F2 as (A & x & C & k & EX & BX & CJ & SL). rewrite SL. destruct (IDX _ _ _ _ _ EX CJ) as (_ & TK & KR & UN & N0 & N1).
        destruct (record_search A x C (k - nrecs A + 1) (ss_reader s) is (2 * Z.to_nat (zlen (snd x)) + 1) EX RS ltac:(lia) M ltac:(lia)) as (o2 & k2 & d2 & i2 & RC & R2 & FO).
        assert (NOE : o <> Equivalent) by (intros ->; destruct (last_with Greater log); discriminate EQ).
        assert (X : exists o' i' d', (if ge0 o2 then SearchFinish hash decompress transpose_decode F o2 (q_begin (fst x)) k2 d2 else SearchFinish hash decompress transpose_decode F o found (ss_index s) d2) = Some (Some o', d') /\ rel i' d' /\ found_ok t 0 (nrecs qr) (o', i')).
        2:{ rewrite <- BX. destruct o; try (destruct (NOE eq_refl)); cbv iota; rewrite RC; exact X. }
        assert (FINX : (forall j, k < j < nrecs A + zlen (snd x) -> t j <> Equivalent /\ t j <> Greater) -> exists o' i' d', SearchFinish hash decompress transpose_decode F o found (ss_index s) d2 = Some (Some o', d') /\ rel i' d' /\ found_ok t 0 (nrecs qr) (o', i')).
        { intros SUF. specialize (FIN d2 i2 R2). destruct (last_with Greater log) as [g|]; injection EQ as -> ->;
            (destruct FIN as (i' & d' & -> & RD & FO'); [intros l' A' x' C' k' j [= <-] EX' BX' CJ' J; destruct (SAME _ _ _ _ _ _ EX EX' ltac:(lia)) as (<- & <- & <-); rewrite CJ in CJ'; injection CJ' as <-; apply SUF; exact J|eauto 6]). }
        unfold found_ok in FO. cbn [fst snd] in FO. destruct o2; cbn [ge0].
        * apply FINX. destruct FO as (_ & _ & FO). intros j J. replace j with (nrecs A + (j - nrecs A)) by lia. apply FO. lia.
        * destruct FO as [FO1 FO2]. destruct (finish_at A x C k2 Equivalent i2 d2 EX ltac:(lia) R2) as (d' & -> & RD). exists Equivalent, (nrecs A + k2), d'. split; [reflexivity|]. split; [exact RD|].
          unfold found_ok. cbn [fst snd]. split; [lia|exact FO2].
        * destruct FO as (FO1 & FO2 & FO3). destruct (finish_at A x C k2 Greater i2 d2 EX ltac:(lia) R2) as (d' & -> & RD). exists Greater, (nrecs A + k2), d'. split; [reflexivity|]. split; [exact RD|].
          unfold found_ok. cbn [fst snd]. split; [lia|]. split; [exact FO2|]. intros j J.
          destruct (COV j J) as [(l' & A' & x' & C' & k' & [= <-] & EX' & BX' & CJ' & JK) | [(g & A' & x' & C' & k' & G & EX' & BX' & CJ' & JK) | U]]; [| |split; congruence].
          -- destruct (SAME _ _ _ _ _ _ EX EX' ltac:(lia)) as (<- & <- & <-). rewrite CJ in CJ'. injection CJ' as <-. destruct JK as [JK|JK].
             ++ destruct (M k j ltac:(lia) ltac:(lia)) as (M1 & _ & M3). split; intros T; [specialize (M1 TK T); lia|]. intros T'. specialize (M3 TK T'). lia.
             ++ destruct (FO3 (j - nrecs A) ltac:(lia)) as [X1 X2]. replace (nrecs A + (j - nrecs A)) with j in X1, X2 by lia. split; [exact X1|]. intros T. apply X2. lia.
          -- destruct (IDX _ _ _ _ _ EX' CJ') as (_ & TK' & KR' & _ & N0' & N1'). destruct (M k k' ltac:(lia) ltac:(lia)) as (_ & _ & M3). specialize (M3 TK TK').
             assert (GL : nrecs A + zlen (snd x) <= nrecs A').
             { destruct (Z.lt_trichotomy (q_begin (fst x)) (q_begin (fst x'))) as [LT | [EQB | GT]].
               - apply (chunk_order A x C A' x' C'); assumption.
               - destruct (SAME _ _ _ _ _ _ EX EX' EQB) as (<- & <- & <-). rewrite CJ in CJ'. discriminate CJ'.
               - pose proof (chunk_order A' x' C' A x C EX' EX GT). lia. }
             split; [|lia]. intros T. destruct (M j k' J ltac:(lia)) as (_ & M2 & _). specialize (M2 T TK'). lia.
        * apply FINX. destruct FO as (_ & FO). intros j J. replace j with (nrecs A + (j - nrecs A)) by lia. rewrite FO by lia. split; discriminate.
      + rewrite F2. specialize (FIN _ _ RS). assert (NOE : o <> Equivalent) by (intros ->; destruct (last_with Greater log); discriminate EQ).
        assert (X : exists i' d', SearchFinish hash decompress transpose_decode F o found (ss_index s) (ss_reader s) = Some (Some o, d') /\ rel i' d' /\ found_ok t 0 (nrecs qr) (o, i')).
        { destruct (last_with Greater log) as [g|]; injection EQ as -> ->; apply FIN; intros; discriminate. }
        destruct X as (i' & d' & X & RD & FO). exists o, i', d'. split; [|auto]. destruct o; exact X.
  Qed.

End Search.

Section ReadTest.
  Variable hash : list Z -> Z.
  Hypothesis hash_range : forall l, 0 <= hash l < 2 ^ 64.
  Variable decompress : Z -> list Z -> option (list Z).
  Variable transpose_decode : list Z -> Z -> Z -> option (list Z * list Z).
  Variable F : list Z.
  Variable qr : list (placed * list (list Z)).
  Hypothesis FC : chain hash F 0 (map fst qr).
  Hypothesis FS : Forall (seek_ok hash F) (map fst qr).
  Hypothesis flen : zlen F + 64 <= 2 ^ 64.
  Hypothesis DEC : Forall (decodes hash decompress transpose_decode) qr.
  Notation rel := (rel hash F qr).

  Lemma search_records_by f i d : rel i d -> monotone (classify f (records_of (vw qr))) 0 (zlen (records_of (vw qr))) ->
    exists o i' d', RR_Search hash decompress transpose_decode F (fun r => Some (f r)) d = Some (Some o, d') /\ rel i' d' /\
      found_ok (classify f (records_of (vw qr))) 0 (zlen (records_of (vw qr))) (o, i').
  Proof.
    intros RL M. assert (NR : zlen (records_of (vw qr)) = nrecs qr) by (rewrite records_vw; reflexivity). rewrite NR in *.
    apply (search_impl hash hash_range decompress transpose_decode F qr FC FS flen DEC _ (classify f (records_of (vw qr)))) with (i := i); try assumption.
    - intros j e R0 J. destruct (read_step hash hash_range decompress transpose_decode F qr FC FS flen DEC j e R0) as (o & e' & -> & RR & RM).
      assert (exists r, o = Some r) as (r & ->).
      { destruct o as [r|]; [eauto|]. symmetry in RR. apply nth_error_None in RR. rewrite <- NR in J. unfold zlen in J. lia. }
      eexists. split; [unfold classify; rewrite <- RR; reflexivity|]. tauto.
    - intros A x C j e [E BA RB RD J S] JL. unfold RR_ReadRecord. cbn [RR_ReadRecord_loop put_last rd_dec]. rewrite RD, ReadRecord_holds by lia.
      destruct (nth_pos hash hash_range F qr A x C j E ltac:(lia)) as [_ NX]. destruct (nth_error (snd x) (Z.to_nat j)) as [r|] eqn:N; [|apply nth_error_None in N; unfold zlen in JL; lia].
      eexists. split; [unfold classify; rewrite NX; reflexivity|].
      constructor; cbn [put_last put_dec rd_begin rd_dec rd_src]; try assumption; try reflexivity; try lia. destruct BA; constructor; assumption.
  Qed.
  Lemma run_rel cs : forall i d, Forall (call_ok (vw qr) (zlen F)) cs -> rel i d ->
    exists d' i', CursorLink.reader_run hash decompress transpose_decode F cs d = Some (cursor_run (vw qr) cs i, d') /\ rel i' d'.
  Proof.
    induction cs as [|c cs IH]; intros i d OK R; cbn [CursorLink.reader_run cursor_run].
    - exists d, i. auto.
    - destruct (step_refines hash hash_range decompress transpose_decode F qr FC FS flen DEC c i d (Forall_inv OK) R) as (d1 & -> & R1). destruct (cursor_step (vw qr) c i) as [o i1]. cbn [fst snd] in *.
      destruct (IH i1 d1 (Forall_inv_tail OK) R1) as (d' & i' & -> & O). eauto.
  Qed.
End ReadTest.
