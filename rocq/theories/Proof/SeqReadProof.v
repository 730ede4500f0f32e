(** Reading records one after another while the chunks last, whatever follows them. *)
From Verif Require Import Base.Bytes Model.Endian Model.Block Model.Chunk Model.ChunkReader Model.SimpleChunk Model.ChunkDecoder Model.RecordReader
  Spec.BlockSpec Spec.FileSpec Spec.ChunkLink Spec.RecordsSpec Spec.CursorSpec Spec.CursorLink
  Proof.BlockProof Proof.ChunkReaderProof Proof.FileProof Proof.DecoderProof Proof.RecordReaderProof.

Notation chunks := (list (placed * list (list Z))).
(** The rest of the chunk being read, then the chunks [B]. *)
Definition rest_of (b : Z) (rs : list (list Z)) (j : Z) : list (list Z * (Z * Z)) := combine (zdrop j rs) (map (fun i => (b, i)) (zdrop j (zseq 0 (zlen rs)))).
Definition all_of (B : chunks) : list (list Z * (Z * Z)) := combine (records_of (vw B)) (positions_of (vw B)).
Lemma combine_app {X Y} (a a' : list X) (b b' : list Y) : length a = length b -> combine (a ++ a') (b ++ b') = combine a b ++ combine a' b'.
Proof. revert b. induction a as [|x a IH]; intros [|y b] L; try discriminate L; [reflexivity|]. cbn. f_equal. apply IH. cbn in L. lia. Qed.
Lemma all_cons x B : all_of (x :: B) = rest_of (q_begin (fst x)) (snd x) 0 ++ all_of B.
Proof.
  unfold all_of, rest_of. change (vw (x :: B)) with ([(q_begin (fst x), snd x)] ++ vw B). rewrite records_app, positions_app.
  change (records_of [(q_begin (fst x), snd x)]) with (snd x ++ []). change (positions_of [(q_begin (fst x), snd x)]) with (map (fun i => (q_begin (fst x), i)) (zseq 0 (zlen (snd x))) ++ []).
  rewrite !app_nil_r. change (zdrop 0 (snd x)) with (snd x). change (zdrop 0 (zseq 0 (zlen (snd x)))) with (zseq 0 (zlen (snd x))).
  apply combine_app. rewrite map_length. pose proof (zseq_len 0 (zlen (snd x))) as L. pose proof (zlen_nonneg (snd x)). unfold zlen in *. lia.
Qed.
Lemma zdrop_nth {X} (l : list X) j x : 0 <= j -> nth_error l (Z.to_nat j) = Some x -> zdrop j l = x :: zdrop (j + 1) l.
Proof. intros J E. unfold zdrop. rewrite (skipn_nth l _ x E). replace (Z.to_nat (j + 1)) with (S (Z.to_nat j)) by lia. reflexivity. Qed.
Lemma rest_step b rs j r : 0 <= j -> nth_error rs (Z.to_nat j) = Some r -> rest_of b rs j = (r, (b, j)) :: rest_of b rs (j + 1).
Proof.
  intros J E. unfold rest_of. rewrite (zdrop_nth rs j r J E). assert (j < zlen rs) by (assert (Z.to_nat j < length rs)%nat by (apply nth_error_Some; congruence); unfold zlen; lia).
  rewrite (zdrop_nth (zseq 0 (zlen rs)) j j J) by (apply nth_zseq; lia). reflexivity.
Qed.
Lemma rest_end b rs : rest_of b rs (zlen rs) = [].
Proof. unfold rest_of. unfold zdrop, zlen. rewrite Nat2Z.id, skipn_all. reflexivity. Qed.


Section Seq.
  Variable hash : list Z -> Z.
  Variable decompress : Z -> list Z -> option (list Z).
  Variable transpose_decode : list Z -> Z -> Z -> option (list Z * list Z).
  Variable content : list Z.
  Notation decodes := (decodes hash decompress transpose_decode).
  Variable at_ : chunks -> reader -> Prop.
  Hypothesis step : forall x C src, decodes x -> at_ (x :: C) src ->
    exists src', ReadChunk hash content src = Some (Some (mk_chunk hash (q_chunk (fst x))), src') /\ r_pos src = q_begin (fst x) /\ at_ C src'.

  Record inside (x : placed * list (list Z)) (j : Z) (B : chunks) (d : record_reader) : Prop := {
    in_base : base d; in_begin : rd_begin d = q_begin (fst x); in_dec : rd_dec d = holds (snd x) j; in_j : 0 <= j <= zlen (snd x);
    in_at : at_ B (rd_src d) }.

  (** One record. *)
  Lemma seq_inside x j B d r fuel : inside x j B d -> nth_error (snd x) (Z.to_nat j) = Some r ->
    exists d', RR_ReadRecord_loop hash decompress transpose_decode (S fuel) content d = Some (Some r, d') /\ last_pos d' = Some (q_begin (fst x), j) /\ inside x (j + 1) B d'.
  Proof.
    intros [BA RB RD J AT] N. cbn [RR_ReadRecord_loop]. rewrite RD, ReadRecord_holds, N by lia. eexists. split; [reflexivity|].
    assert (j < zlen (snd x)) by (assert (Z.to_nat j < length (snd x))%nat by (apply nth_error_Some; congruence); unfold zlen; lia). split.
    - unfold last_pos. cbn. rewrite RB. do 2 f_equal. lia.
    - constructor; cbn [put_last put_dec rd_begin rd_dec rd_src]; try assumption; try reflexivity; try lia. destruct BA; constructor; assumption.
  Qed.
  Lemma seq_chunk x C d rs : decodes x -> base d -> rd_dec d = holds rs (zlen rs) -> at_ (x :: C) (rd_src d) ->
    exists d', (forall fuel, RR_ReadRecord_loop hash decompress transpose_decode (S fuel) content d = RR_ReadRecord_loop hash decompress transpose_decode fuel content d') /\ inside x 0 C d'.
  Proof.
    intros DX BA RD AT. destruct (step x C (rd_src d) DX AT) as (src' & RC & RP & AT').
    eexists. split.
    - intros fuel. cbn [RR_ReadRecord_loop]. rewrite RD, Read_end. cbn [put_dec]. rewrite <- RD. replace (put_dec (rd_dec d) d) with d by (destruct d; reflexivity). rewrite (base_ok _ BA). cbn [negb].
      rewrite RD. cbn [dc_ok holds negb]. unfold RR_ReadChunk. cbn [rd_src put_begin]. rewrite RC. destruct DX as [-> _]. cbn [negb]. reflexivity.
    - constructor; cbn [put_last put_dec put_src put_begin rd_begin rd_dec rd_src]; try assumption; try reflexivity; [destruct BA; constructor; assumption|]. pose proof (zlen_nonneg (snd x)). lia.
  Qed.
  Lemma seq_next : forall B d rs fuel r p l, Forall decodes B -> base d -> rd_dec d = holds rs (zlen rs) -> at_ B (rd_src d) ->
    all_of B = (r, p) :: l -> (S (length B) < fuel)%nat ->
    exists d' x j C, RR_ReadRecord_loop hash decompress transpose_decode fuel content d = Some (Some r, d') /\ last_pos d' = Some p /\ inside x j C d' /\
      l = rest_of (q_begin (fst x)) (snd x) j ++ all_of C /\ Forall decodes C /\ (length C <= length B)%nat.
  Proof.
    induction B as [|x B IH]; intros d rs fuel r p l DB BA RD AT AL LF; [discriminate AL|]. destruct fuel as [|fuel]; [lia|].
    destruct (seq_chunk x B d rs (Forall_inv DB) BA RD AT) as (d1 & E & I1). rewrite E. rewrite all_cons in AL. cbn [length] in LF.
    destruct (snd x) as [|r0 rs0] eqn:SX.
    - change (rest_of (q_begin (fst x)) [] 0) with (@nil (list Z * (Z * Z))) in AL. destruct I1 as [J1 J2 J3 J4 J5]. rewrite SX in J3.
      destruct (IH d1 [] fuel r p l (Forall_inv_tail DB) J1 J3 J5 AL ltac:(lia)) as (d' & y & j & C & H1 & H2 & H3 & H4 & H5 & H6). exists d', y, j, C. repeat (split; [assumption|]). cbn. lia.
    - rewrite (rest_step _ _ 0 r0) in AL by (try lia; reflexivity). cbn [app] in AL. injection AL as <- <- <-. destruct fuel as [|fuel]; [lia|].
      destruct (seq_inside x 0 B d1 r0 fuel I1) as (d' & H1 & H2 & H3); [rewrite SX; reflexivity|]. exists d', x, 1, B. split; [exact H1|]. split; [exact H2|]. split; [exact H3|].
      rewrite SX. split; [reflexivity|]. split; [apply (Forall_inv_tail DB)|cbn; lia].
  Qed.

  Inductive seqst : list (list Z * (Z * Z)) -> record_reader -> Prop :=
  | seq_between B d rs : Forall decodes B -> base d -> rd_dec d = holds rs (zlen rs) -> at_ B (rd_src d) -> (length B <= length content)%nat -> seqst (all_of B) d
  | seq_in x j B d : Forall decodes B -> inside x j B d -> (length B <= length content)%nat -> seqst (rest_of (q_begin (fst x)) (snd x) j ++ all_of B) d.

  Lemma inside_put x j B d b : inside x j B d -> inside x j B (put_last b d).
  Proof. intros [[] ? ? ? ?]. constructor; try assumption. constructor; assumption. Qed.
  Lemma base_put d b : base d -> base (put_last b d).
  Proof. intros []. constructor; assumption. Qed.
  Lemma seq_step r p l d : seqst ((r, p) :: l) d -> exists d', RR_ReadRecord hash decompress transpose_decode content d = Some (Some r, d') /\ last_pos d' = Some p /\ seqst l d'.
  Proof.
    intros S. unfold RR_ReadRecord. 
    assert (G : forall B d rs, Forall decodes B -> base d -> rd_dec d = holds rs (zlen rs) -> at_ B (rd_src d) -> (length B <= length content)%nat -> all_of B = (r, p) :: l ->
       exists d', RR_ReadRecord_loop hash decompress transpose_decode (Datatypes.S (Datatypes.S (length content))) content d = Some (Some r, d') /\ last_pos d' = Some p /\ seqst l d').
    { intros B d0 rs DB BA RD AT LB AL. destruct (seq_next B d0 rs _ r p l DB BA RD AT AL ltac:(apply -> Nat.succ_lt_mono; apply Nat.lt_succ_r; exact LB)) as (d' & x & j & C & H1 & H2 & H3 & -> & H5 & H6).
      exists d'. split; [exact H1|]. split; [exact H2|]. apply seq_in; try assumption. lia. }
    inversion S as [B d0 rs DB BA RD AT LB AL|x j B d0 DB IN LB AL]; subst d0.
    - apply (G B _ rs); try assumption. apply base_put; assumption.
    - destruct (nth_error (snd x) (Z.to_nat j)) as [r0|] eqn:N.
      + rewrite (rest_step _ _ j r0) in AL by (try apply IN; assumption). cbn [app] in AL. injection AL as -> <- <-.
        destruct (seq_inside x j B (put_last false d) r (Datatypes.S (length content)) (inside_put x j B d false IN) N) as (d' & H1 & H2 & H3). exists d'. split; [exact H1|]. split; [exact H2|]. apply seq_in; assumption.
      + assert (j = zlen (snd x)). { apply nth_error_None in N. destruct IN. unfold zlen in *. lia. } subst j. rewrite rest_end in AL. cbn [app] in AL.
        apply (G B _ (snd x)); try assumption; try apply IN. apply base_put, IN.
  Qed.
  Lemma seq_run l : forall d, seqst l d ->
    exists d', reader_run hash decompress transpose_decode content (repeat ReadNext (length l)) d = Some (map (fun x => Rec (Some (fst x)) (Some (snd x))) l, d') /\ seqst [] d'.
  Proof.
    induction l as [|[r p] l IH]; intros d S; cbn [length repeat reader_run map].
    - eauto.
    - destruct (seq_step r p l d S) as (d1 & R1 & L1 & S1). cbn [reader_step]. rewrite R1, L1. destruct (IH d1 S1) as (d' & R & S'). rewrite R. eauto.
  Qed.

  (** The end. *)
  Hypothesis stop : forall src, at_ [] src -> exists src', ReadChunk hash content src = Some (None, src') /\ r_ok src' = true.
  Lemma seq_end_loop : forall B d rs fuel, Forall decodes B -> base d -> rd_dec d = holds rs (zlen rs) -> at_ B (rd_src d) -> all_of B = [] -> (length B < fuel)%nat ->
    exists d', RR_ReadRecord_loop hash decompress transpose_decode fuel content d = Some (None, d') /\ base d' /\ rd_dec d' = ClearDecoder /\ exists src, at_ [] src /\ ReadChunk hash content src = Some (None, rd_src d').
  Proof.
    induction B as [|x B IH]; intros d rs fuel DB BA RD AT AL LF; (destruct fuel as [|fuel]; [lia|]).
    - destruct (stop (rd_src d) AT) as (src' & RC & OK). cbn [RR_ReadRecord_loop]. rewrite RD, Read_end. cbn [put_dec]. rewrite <- RD. replace (put_dec (rd_dec d) d) with d by (destruct d; reflexivity). rewrite (base_ok _ BA). cbn [negb].
      rewrite RD. cbn [dc_ok holds negb]. unfold RR_ReadChunk. cbn [rd_src put_begin]. rewrite RC, OK. cbn [negb]. eexists. split; [reflexivity|]. split; [destruct BA; constructor; assumption|]. split; [reflexivity|]. exists (rd_src d). auto.
    - destruct (seq_chunk x B d rs (Forall_inv DB) BA RD AT) as (d1 & E & I1). rewrite E. rewrite all_cons in AL. cbn [length] in LF.
      destruct (snd x) as [|r0 rs0] eqn:SX.
      + destruct I1 as [J1 J2 J3 J4 J5]. rewrite SX in J3. apply (IH d1 [] fuel (Forall_inv_tail DB) J1 J3 J5); [exact AL|lia].
      + rewrite (rest_step _ _ 0 r0) in AL by (try lia; reflexivity). discriminate AL.
  Qed.
  Lemma seq_end d : seqst [] d -> exists d', RR_ReadRecord hash decompress transpose_decode content d = Some (None, d') /\ base d' /\ rd_dec d' = ClearDecoder /\ exists src, at_ [] src /\ ReadChunk hash content src = Some (None, rd_src d').
  Proof.
    intros S. unfold RR_ReadRecord. inversion S as [B d0 rs DB BA RD AT LB AL|x j B d0 DB IN LB AL]; subst d0.
    - apply (seq_end_loop B _ rs); try assumption; [apply base_put; assumption|lia].
    - apply app_eq_nil in AL as [A1 A2]. assert (j = zlen (snd x)).
      { destruct (nth_error (snd x) (Z.to_nat j)) as [r0|] eqn:N; [rewrite (rest_step _ _ j r0) in A1 by (try apply IN; assumption); discriminate A1|].
        apply nth_error_None in N. destruct IN. unfold zlen in *. lia. }
      subst j. apply (seq_end_loop B _ (snd x)); try assumption; try apply IN; [apply base_put, IN|lia].
  Qed.
  Lemma seq_all l : forall d fuel, seqst l d -> (length l < fuel)%nat ->
    exists d', RR_ReadAll hash decompress transpose_decode fuel content d = Some (map fst l, d') /\ base d' /\ rd_dec d' = ClearDecoder /\ exists src, at_ [] src /\ ReadChunk hash content src = Some (None, rd_src d').
  Proof.
    induction l as [|[r p] l IH]; intros d fuel S L; (destruct fuel as [|fuel]; [cbn in L; lia|]); cbn [RR_ReadAll].
    - destruct (seq_end d S) as (d' & -> & B & R). eauto.
    - destruct (seq_step r p l d S) as (d1 & -> & L1 & S1). destruct (IH d1 fuel S1 ltac:(cbn in L; lia)) as (d' & -> & B & R). exists d'. auto.
  Qed.
End Seq.
