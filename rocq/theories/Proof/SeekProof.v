(** SeekToChunk on valid files. *)
From Verif Require Import Base.Bytes Model.Endian Model.Block Model.Chunk Model.ChunkWriter Model.ChunkReader
  Spec.BlockSpec Spec.FileSpec Spec.ChunkLink Spec.SeekSpec Proof.EndianProof Proof.BlockProof Proof.ChunkWriterProof
  Proof.ChunkReaderProof Proof.FileProof Proof.RecoverProof Proof.LocalProof.

Section Seek.
  Variable hash : list Z -> Z.
  Hypothesis hash_range : forall l, 0 <= hash l < 2 ^ 64.
  Notation ck q := (mk_chunk hash (q_chunk q)).

  Lemma Pull_at_end content r p : fresh r p -> 0 <= p -> p < 2 ^ 64 -> p = zlen content ->
    exists r', PullChunkHeader hash content r = Some (false, r') /\ fresh r' p /\ r_trunc r' = false.
  Proof.
    intros [F_open F_failed F_rec F_pos F_spos F_hl F_bl F_data] Hp Hp64 Hl. unfold PullChunkHeader, r_ok. rewrite F_open, F_failed. cbn [andb negb set_trunc r_spos r_pos].
    rewrite F_pos, F_spos. rewrite Z.ltb_irrefl. rewrite DistanceWithoutOverhead_eq, Z.sub_diag by lia. cbn [Z.ltb Z.compare ChunkHeaderSize].
    unfold ReadChunkHeader. change 42%nat with (S 41). generalize 41%nat as fu. intros fu. cbn [ReadChunkHeader_loop r_spos r_pos set_trunc].
    rewrite ?F_pos, ?F_spos.
    assert (ZD : zdrop p content = []) by (apply zdrop_all; lia).
    destruct (Z_lt_ge_dec (p mod 65536) 24) as [Hm|Hm].
    - rewrite RemHeader by assumption. destruct (Z.ltb_spec 0 (24 - p mod 65536)); [|lia].
      unfold ReadInnerBlockHeader, ReadBlockHeader. cbn [r_spos r_pos set_trunc]. rewrite F_spos, RemHeader by assumption. unfold src_read.
      destruct (Z.leb_spec (p + (24 - p mod 65536)) (zlen content)); [lia|]. rewrite Z.max_r by lia. rewrite ZD.
      cbn [negb]. unfold FailReading. cbn [r_pos r_spos set_spos set_block set_trunc]. rewrite F_pos, <- Hl, Z.ltb_irrefl. cbn [negb].
      eexists; split; [reflexivity|]. pose proof (Z.mod_pos_bound p 65536 ltac:(lia)).
      split; [|reflexivity]. constructor; cbn [r_spos r_pos r_header r_data r_block r_open r_failed r_trunc r_rec r_recpos set_spos set_block set_header set_trunc]; try assumption; try reflexivity. rewrite blit_nil by (blk; lia). assumption.
    - rewrite RemHeader0 by lia. cbn [Z.ltb Z.compare negb set_trunc r_pos r_spos]. rewrite F_pos, F_spos.
      rewrite DistanceWithoutOverhead_eq, Z.sub_diag by lia. unfold src_read.
      change (u64 (ChunkHeaderSize - 0)) with 40.
      destruct (Z.leb_spec (p + Z.min 40 (RemainingInBlock p)) (zlen content)).
      { exfalso. rewrite RemainingInBlock_eq in *. assert (0 < (- p) mod 65536) by (clear - Hm; dml). lia. }
      rewrite Z.max_r by lia. rewrite ZD. cbn [negb]. unfold FailReading. cbn [r_pos r_spos set_spos set_header set_trunc].
      rewrite F_pos, <- Hl, Z.ltb_irrefl.
      eexists; split; [reflexivity|]. split; [|reflexivity]. constructor; cbn [r_spos r_pos r_header r_data r_block r_open r_failed r_trunc r_rec r_recpos set_spos set_block set_header set_trunc]; try assumption; try reflexivity.
  Qed.

  Record seek_ok (F : list Z) (q : placed) : Prop := {
    so_p : 0 <= q_begin q; so_b : chunk_boundary (q_begin q); so_w : wf_size (ck q); so_h : wf_hash hash (ck q);
    so_f : cfits (ck q) (q_begin q); so_s : sig_ok (ck q) (q_begin q); so_a : agree hash (ck q) (q_begin q) F;
    so_e : q_end q = cend (ck q) (q_begin q);
    so_n : ch_num_records (c_header (ck q)) = k_nrec (q_chunk q) /\ 0 <= k_nrec (q_chunk q) < 2 ^ 56 }.

  Lemma layout_seek : forall qs p pre out E, file_layout hash p qs out E -> zlen pre = p -> E + 64 <= 2 ^ 64 ->
    0 <= p -> chunk_boundary p -> Forall (fun q => chunk_ok (q_chunk q)) qs -> sig_at p qs -> E = zlen (pre ++ out) ->
    Forall (seek_ok (pre ++ out)) qs.
  Proof.
    induction qs as [|q qs IH]; intros p pre out E L ZP HE Hp Hb OK SG EE; inversion L as [p0|p0 e k qs0 out1 out2 E0 CL FL]; subst.
    - constructor.
    - pose proof (Forall_inv OK) as K. cbn in K. pose proof (Forall_inv_tail OK) as OK'.
      assert (ZO : zlen out1 = e - zlen pre) by apply CL.
      assert (FE : chunk_boundary e).
      { destruct CL as (_ & ((C & _) & _) & _). exact C. }
      pose proof (zlen_nonneg out1) as ZO1. pose proof (zlen_nonneg out2) as ZO2. rewrite !zlen_app in HE.
      destruct (layout_image hash hash_range (zlen pre) e k out1 CL Hp Hb K ltac:(lia)) as (I1 & I2 & I3).
      destruct (mk_chunk_wf hash hash_range k K) as (W1 & W2 & W3 & W4 & W5 & W6).
      destruct (cend_spec (mk_chunk hash k) (zlen pre) Hp Hb W1 I2) as (_ & _ & CE & _).
      constructor.
      + constructor; cbn [q_begin q_end q_chunk]; try assumption.
        * apply sig_at_ok; assumption.
        * pose proof (agree_of hash hash_range (mk_chunk hash k) pre out2 (zlen (pre ++ out1 ++ out2))) as AG. rewrite <- I1, <- I3 in AG.
          rewrite ztake_all in AG by lia. apply AG; [unfold zlen; lia|lia].
        * destruct K as (_ & K & _). auto.
      + rewrite app_assoc. eapply IH; try eassumption; rewrite ?zlen_app; try lia.
        apply sig_at_later. pose proof (add_ov_spec). lia.
  Qed.

  Section File.
    Variable F : list Z.
    Variable qs0 : list placed.
    Hypothesis FC : chain hash F 0 qs0.
    Hypothesis FS : Forall (seek_ok F) qs0.
    Hypothesis flen : zlen F + 64 <= 2 ^ 64.

    Lemma chain_app : forall p qs1 qs2, chain hash F p (qs1 ++ qs2) -> exists p', chain hash F p' qs2 /\ Forall (fun q => q_end q <= p') qs1 /\ p <= p'.
    Proof.
      intros p qs1 qs2 C. remember (qs1 ++ qs2) as qs eqn:E. revert qs1 qs2 E.
      induction C as [|q qs O C IH]; intros qs1 qs2 E.
      - symmetry in E. apply app_eq_nil in E as [-> ->]. exists (zlen F). split; [constructor|]. split; [constructor|lia].
      - destruct qs1 as [|q1 qs1]; cbn [app] in E.
        + subst qs2. exists (q_begin q). split; [constructor; assumption|]. split; [constructor|lia].
        + inversion E; subst. destruct (IH _ _ eq_refl) as (p' & A & B & D). exists p'. split; [assumption|].
          pose proof (po_d _ _ _ O). pose proof (po_lt _ _ _ O). split; [constructor; [lia|assumption]|lia].
    Qed.

    Definition st (p : Z) (qs : list placed) (r : reader) : Prop := at_file hash p qs F r.

    Lemma st_ok p qs r : st p qs r -> r_ok r = true /\ r_pos r = p.
    Proof. unfold st, r_ok. destruct qs as [|q qs]; cbn [at_file]; intros []; [rewrite f_open, f_failed|rewrite i_open, i_failed]; auto. Qed.
    Lemma st_trunc p qs r b : st p qs r -> st p qs (set_trunc b r).
    Proof. unfold st. destruct qs as [|q qs]; cbn [at_file]; intros []; constructor; assumption. Qed.

    Lemma fresh_st p qs r : chain hash F p qs -> incl qs qs0 -> 0 <= p -> fresh r p -> st p qs r.
    Proof.
      intros C IN Hp FR. destruct C as [|q qs O C]; unfold st; cbn [at_file]; [assumption|].
      assert (SO : seek_ok F q) by (rewrite Forall_forall in FS; apply FS, IN; left; reflexivity). destruct SO.
      pose proof (po_le _ _ _ O). pose proof (po_d _ _ _ O). pose proof (po_lt _ _ _ O).
      apply fresh_inv; try assumption. lia.
    Qed.

    (** Reading the header of the current chunk. *)
    Lemma header_facts q r : seek_ok F q -> inv hash (ck q) (q_begin q) F r -> 40 <= off (q_begin q) (r_spos r) ->
      ChunkEnd (ch_data_size (r_header r)) (ch_num_records (r_header r)) (r_pos r) = q_end q /\
      ch_num_records (r_header r) = k_nrec (q_chunk q) /\ r_pos r = q_begin q.
    Proof.
      intros [] I O. rewrite (header_full hash hash_range (ck q) (q_begin q) so_w0 F r I O).
      destruct (ce_facts (ck q) (q_begin q) so_p0 so_b0 so_w0 so_f0) as (C1 & _). rewrite (i_pos _ _ _ _ _ I), C1. destruct so_n0. auto.
    Qed.

    Lemma Pull_is_Read content r p : fresh r p -> r_trunc r = false -> 0 <= p < 2 ^ 64 ->
      PullChunkHeader hash content r = ReadChunkHeader hash content r.
    Proof.
      intros [] T Hp. unfold PullChunkHeader, r_ok. rewrite f_open, f_failed. cbn [andb negb].
      replace (set_trunc false r) with r by (destruct r; cbn in T; subst; reflexivity).
      rewrite f_pos, f_spos, Z.ltb_irrefl. rewrite DistanceWithoutOverhead_eq, Z.sub_diag by lia. reflexivity.
    Qed.

    Lemma clean_inv q r : inv hash (ck q) (q_begin q) F r -> off (q_begin q) (r_spos r) <= 40 -> clean r.
    Proof. intros [] O. constructor; try assumption. rewrite i_data. apply ztake_nonpos. lia. Qed.
    Lemma clean_fresh r p : clean r -> fresh (set_spos p (set_pos p r)) p.
    Proof. intros []. constructor; cbn; try assumption; reflexivity. Qed.

    Definition found (w : which_chunk) (pos : Z) (qs : list placed) (b : bool) (r' : reader) : Prop :=
      exists qs1 qs2, qs = qs1 ++ qs2 /\ Forall (fun q => stops w pos q = false) qs1 /\
      match qs2 with
      | q :: _ => stops w pos q = true /\ b = true /\ st (q_begin q) qs2 r'
      | [] => b = (pos <=? zlen F) /\ (b = true -> st (zlen F) [] r')
      end.

    Lemma found_cons w pos q qs b r : stops w pos q = false -> found w pos qs b r -> found w pos (q :: qs) b r.
    Proof. intros H (qs1 & qs2 & E & A & B). exists (q :: qs1), qs2. split; [cbn; congruence|]. split; [constructor; assumption|assumption]. Qed.
    Lemma found_app w pos qsA qs b r : Forall (fun q => stops w pos q = false) qsA -> found w pos qs b r -> found w pos (qsA ++ qs) b r.
    Proof. induction 1; cbn [app]; [auto|]. intros. apply found_cons; auto. Qed.
    Lemma nrec_end q : seek_ok F q -> q_begin q + k_nrec (q_chunk q) <= q_end q /\ q_begin q + 40 <= q_end q < 2 ^ 64 /\ chunk_boundary (q_end q).
    Proof. intros []. destruct (ce_facts (ck q) (q_begin q) so_p0 so_b0 so_w0 so_f0) as (_ & C2 & C3 & _ & _ & C6). rewrite so_e0. destruct so_n0 as [<- _]. auto. Qed.
    Lemma not_stop w pos q : seek_ok F q -> q_end q <= pos -> stops w pos q = false.
    Proof.
      intros SO H. destruct (nrec_end q SO) as (N1 & N2 & _). unfold stops. destruct (Z.leb_spec pos (q_begin q)); [lia|]. cbn [orb].
      destruct w; [destruct (Z.ltb_spec pos (q_begin q + k_nrec (q_chunk q)))|destruct (Z.ltb_spec pos (q_end q))|]; try reflexivity; lia.
    Qed.
    Lemma in_ok q : In q qs0 -> seek_ok F q.
    Proof. rewrite Forall_forall in FS. auto. Qed.

    Lemma seek_loop w pos : 0 <= pos < 2 ^ 64 -> forall fuel p qs r (skip : bool), chain hash F p qs -> incl qs qs0 -> 0 <= p -> r_trunc r = false ->
      (if skip then st p qs r /\ off p (r_spos r) < 40 else clean r) -> zlen F - p + 1 < Z.of_nat fuel ->
      exists b r', SeekToChunk_loop hash fuel F w pos p skip r = Some (b, r') /\ found w pos qs b r'.
    Proof.
      intros HP. induction fuel as [|fuel IH]; intros p qs r skip C IN Hp T S HF.
      { destruct (chain_le hash F p qs C Hp) as [CL _]. lia. }
      destruct (chain_le hash F p qs C Hp) as [CL _]. cbn [SeekToChunk_loop].
      assert (STEP : exists r1, (if skip then (true, r) else
          let '(oks, spos') := src_seek F p in (oks, set_spos spos' (set_pos p r))) = (true, r1) /\
          st p qs r1 /\ off p (r_spos r1) < 40 /\ r_trunc r1 = false).
      { destruct skip; [exists r; destruct S; auto|]. unfold src_seek. destruct (Z.leb_spec p (zlen F)); [|lia].
        eexists. split; [reflexivity|]. split; [apply fresh_st; try assumption; apply clean_fresh; assumption|]. cbn. unfold off. rewrite Z.sub_diag. split; [lia|assumption]. }
      destruct STEP as (r1 & -> & S1 & O1 & T1). clear S. cbn [negb]. destruct (st_ok _ _ _ S1) as [OK1 P1]. rewrite P1.
      destruct (Z.leb_spec pos p) as [LP|LP].
      { exists true, r1. split; [reflexivity|]. exists [], qs. split; [reflexivity|]. split; [constructor|].
        destruct C as [|q qs O C]; [split; [symmetry; apply Z.leb_le; lia|auto]|]. split; [|auto]. unfold stops. destruct (Z.leb_spec pos (q_begin q)); [reflexivity|lia]. }
      destruct C as [|q qs O C].
      { destruct (Pull_at_end F r1 (zlen F) S1 Hp ltac:(lia) eq_refl) as (r2 & E2 & F2 & T2). rewrite <- (Pull_is_Read F r1 (zlen F) S1 T1) by lia. rewrite E2.
        assert (r_ok r2 = true) as -> by (apply (st_ok (zlen F) []); exact F2). cbn [negb].
        eexists _, _. split; [reflexivity|]. exists [], []. split; [reflexivity|]. split; [constructor|]. split; [symmetry; apply Z.leb_gt; lia|discriminate]. }
      assert (SO : seek_ok F q) by (apply in_ok, IN; left; reflexivity).
      destruct (nrec_end q SO) as (N1 & N2 & N3). pose proof (po_le _ _ _ O) as LE. pose proof SO as SO'. destruct SO'.
      destruct (hend_facts (ck q) (q_begin q) so_p0 so_b0 so_w0 so_f0) as (H1 & H2 & H3).
      destruct (ReadChunkHeader_loop_spec hash hash_range (ck q) (q_begin q) so_p0 so_b0 so_w0 so_h0 so_f0 so_s0 F so_a0 42 r1 S1 T1 O1) as [X _].
      { pose proof (off_nonneg (q_begin q) so_p0 (r_spos r1)). unfold st in S1; cbn [at_file] in S1. pose proof (i_lo _ _ _ _ _ S1). lia. }
      destruct (X ltac:(lia)) as (r2 & E2 & I2 & T2 & P2). unfold ReadChunkHeader. rewrite E2.
      destruct (header_facts q r2 SO I2) as (F1 & F2 & F3); [rewrite P2; lia|]. rewrite F1, F2, F3.
      rewrite u64_small by (destruct so_n0; lia).
      assert (CL2 : clean r2) by (apply (clean_inv q); [assumption|rewrite P2; lia]).
      assert (IN' : incl qs qs0) by (intros z Hz; apply IN; right; assumption).
      assert (NEXT : exists b r', SeekToChunk_loop hash fuel F w pos (q_end q) false r2 = Some (b, r') /\ found w pos qs b r').
      { apply (IH (q_end q) qs r2 false); try assumption; lia. }
      assert (STOP : stops w pos q = true -> exists b r', Some (true, r2) = Some (b, r') /\ found w pos (q :: qs) b r').
      { intros SS. exists true, r2. split; [reflexivity|]. exists [], (q :: qs). split; [reflexivity|]. split; [constructor|]. split; [assumption|]. split; [reflexivity|exact I2]. }
      assert (ST : stops w pos q = match w with kContaining => pos <? q_begin q + k_nrec (q_chunk q) | kBefore => pos <? q_end q | kAfter => false end).
      { unfold stops. destruct (Z.leb_spec pos (q_begin q)); [lia|reflexivity]. }
      destruct w; cbv beta iota in *.
      - destruct (pos <? q_begin q + k_nrec (q_chunk q)); [auto|]. destruct NEXT as (b & r' & -> & FF). exists b, r'. split; [reflexivity|]. apply found_cons; assumption.
      - destruct (pos <? q_end q); [auto|]. destruct NEXT as (b & r' & -> & FF). exists b, r'. split; [reflexivity|]. apply found_cons; assumption.
      - destruct NEXT as (b & r' & -> & FF). exists b, r'. split; [reflexivity|]. apply found_cons; assumption.
    Qed.

    Record ready (r : reader) : Prop := {
      d_open : r_open r = true; d_failed : r_failed r = false; d_rec : r_rec r = kNo; d_hl : zlen (r_header r) = 40; d_bl : zlen (r_block r) = 24 }.
    Lemma st_ready p qs r : st p qs r -> ready r.
    Proof. unfold st. destruct qs as [|q qs]; cbn [at_file]; intros []; constructor; assumption. Qed.

    Lemma seek_block w pos r : 0 <= pos < 2 ^ 64 -> ready r -> r_trunc r = false ->
      exists b r', SeekToChunk_block hash (S (S (length F))) F w pos (RoundDownToBlockBoundary pos) r = Some (b, r') /\ found w pos qs0 b r'.
    Proof.
      intros HP RD T. unfold SeekToChunk_block. unfold RoundDownToBlockBoundary. blk.
      pose proof (Z.mod_pos_bound pos 65536 ltac:(lia)) as M. remember (pos - pos mod 65536) as B.
      assert (BM : B mod 65536 = 0) by (subst B; clear; dml). assert (B0 : 0 <= B) by (subst B; clear - HP; dml).
      remember (set_data [] (set_pos B r)) as r1.
      assert (CL1 : clean r1 /\ r_pos r1 = B /\ r_trunc r1 = false) by (subst r1; destruct RD; repeat split; cbn; try assumption; reflexivity).
      destruct CL1 as (CL1 & P1 & T1). clear Heqr1.
      assert (ALL : zlen F <= pos -> Forall (fun q => stops w pos q = false) qs0).
      { intros HL. destruct (chain_le hash F 0 qs0 FC ltac:(lia)) as [_ CB]. rewrite Forall_forall in *. intros q Hq. apply not_stop; [auto|]. specialize (CB q Hq). cbv beta in CB. lia. }
      unfold src_seek. destruct (Z.leb_spec B (zlen F)) as [LB|LB]; cbn [negb].
      2:{ eexists _, _. split; [reflexivity|]. exists qs0, []. split; [symmetry; apply app_nil_r|]. split; [apply ALL; lia|]. split; [symmetry; apply Z.leb_gt; lia|discriminate]. }
      unfold ReadBlockHeader. cbn [r_spos set_spos]. rewrite RemHeader by lia. rewrite BM. change (24 - 0) with 24. change (BlockHeaderSize - 24) with 0.
      unfold src_read. destruct (Z.leb_spec (B + 24) (zlen F)) as [LB2|LB2]; cbn [negb].
      2:{ assert (EB : B = zlen F).
          { destruct (Z_lt_ge_dec B (zlen F)) as [X|X]; [|lia].
            destruct (locate hash F B 0 qs0 FC ltac:(lia)) as (_ & q & _ & _ & A & _ & _ & O). destruct (po_blk _ _ _ O B A BM). pose proof (po_le _ _ _ O). lia. }
          rewrite Z.max_r by lia. unfold FailReading. cbn [r_pos r_spos set_spos set_block]. rewrite P1.
          assert ((B <? zlen F) = false) as -> by (apply Z.ltb_ge; lia). cbn [negb].
          assert (ZD : zdrop B F = []) by (apply zdrop_all; lia). rewrite ZD. rewrite blit_nil by lia.
          remember (set_spos (zlen F) (set_block (r_block (set_spos B r1)) (set_spos B r1))) as r2.
          assert (FR : fresh r2 (zlen F) /\ r_trunc r2 = false).
          { subst r2. destruct CL1. split; [constructor|]; cbn; try assumption; lia. }
          destruct FR as [FR T2]. destruct (st_ok (zlen F) [] r2 FR) as [OK2 P2].
          rewrite OK2, T2, P2. cbn [negb andb].
          destruct (Z.leb_spec pos (zlen F)) as [LP|LP].
          - exists true, r2. split; [reflexivity|]. exists qs0, []. split; [symmetry; apply app_nil_r|]. split; [apply ALL; lia|]. split; [symmetry; apply Z.leb_le; lia|auto].
          - eexists _, _. split; [reflexivity|]. exists qs0, []. split; [symmetry; apply app_nil_r|]. split; [apply ALL; lia|]. split; [symmetry; apply Z.leb_gt; lia|discriminate]. }
      destruct (locate hash F B 0 qs0 FC ltac:(lia)) as (qs1 & q & qs2 & EQ & A & A2 & C2 & O).
      destruct (po_blk _ _ _ O B A BM) as [BL1 BL2]. pose proof (po_le _ _ _ O) as LE. pose proof (po_p _ _ _ O) as LP0. rewrite BL2.
      destruct (BlockHeader_codec hash hash_range (B - q_begin q) (q_end q - B) ltac:(lia) ltac:(lia)) as (BC1 & BC2 & BC3 & BC4 & BC5).
      rewrite blit_full0 by (rewrite BC1; symmetry; apply CL1).
      cbn [r_block r_spos set_spos set_block]. rewrite BC5, Z.eqb_refl. cbn [negb r_block set_spos set_block]. rewrite BC3, BC4.
      remember (set_spos (B + 24) (set_block (BlockHeader hash (B - q_begin q) (q_end q - B)) (set_spos B r1))) as r2.
      assert (CL2 : clean r2 /\ r_trunc r2 = false /\ r_pos r2 = B /\ r_spos r2 = B + 24 /\ r_block r2 = BlockHeader hash (B - q_begin q) (q_end q - B)).
      { subst r2. destruct CL1. repeat split; cbn; try assumption. }
      destruct CL2 as (CL2 & T2 & P2 & S2 & K2). clear Heqr2.
      assert (IQ : In q qs0) by (rewrite EQ; apply in_or_app; right; left; reflexivity).
      assert (IN2 : incl qs2 qs0) by (intros z Hz; rewrite EQ; apply in_or_app; right; right; assumption).
      assert (SO : seek_ok F q) by (apply in_ok; assumption).
      destruct (nrec_end q SO) as (N1 & N2 & N3).
      assert (NS1 : Forall (fun q => stops w pos q = false) qs1).
      { destruct (chain_app 0 qs1 (q :: qs2)) as (p' & CA & CB & _); [rewrite <- EQ; exact FC|].
        assert (p' = q_begin q) by (inversion CA; reflexivity). subst p'. rewrite Forall_forall in *. intros z Hz.
        apply not_stop; [apply FS; rewrite EQ; apply in_or_app; auto|]. specialize (CB z Hz). cbv beta in CB. lia. }
      assert (ZN : zlen F = Z.of_nat (length F)) by reflexivity.
      assert (GOAL : forall p qs' (skip : bool) b0, qs0 = b0 ++ qs' -> Forall (fun q => stops w pos q = false) b0 -> chain hash F p qs' -> 0 <= p ->
        (if skip then st p qs' r2 /\ off p (r_spos r2) < 40 else clean r2) ->
        exists b r', SeekToChunk_loop hash (S (S (length F))) F w pos p skip r2 = Some (b, r') /\ found w pos qs0 b r').
      { intros p qs' skip b0 E1 E2 E3 E4 E5. assert (IN3 : incl qs' qs0) by (intros z Hz; rewrite E1; apply in_or_app; auto).
        destruct (chain_le hash F p qs' E3 E4) as [CLE _].
        destruct (seek_loop w pos HP (S (S (length F))) p qs' r2 skip E3 IN3 E4 T2 E5 ltac:(lia)) as (b & r' & -> & FF). exists b, r'. split; [reflexivity|].
        rewrite E1. apply found_app; assumption. }
      destruct (Z.eqb_spec (B - q_begin q) 0) as [E0|E0].
      - assert (EB : q_begin q = B) by lia.
        assert (G0 := GOAL B (q :: qs2) true qs1 EQ NS1). cbv beta iota in G0.
        assert (LS : SeekToChunk_loop hash (S (S (length F))) F w pos 0 true r2 = SeekToChunk_loop hash (S (S (length F))) F w pos B true r2) by reflexivity.
        rewrite LS. apply G0; [rewrite <- EB; exact C2|assumption|]. split.
        + unfold st. cbn [at_file]. destruct CL2. pose proof SO as SO'. destruct SO'.
          assert (OF : off B (r_spos r2) = 0) by (unfold off; rewrite S2; unfold pos_payload; clear - BM; dml).
          assert (DN : ChunkReaderProof.down (r_spos r2) = B) by (unfold ChunkReaderProof.down; rewrite S2; clear - BM; dml).
          constructor; try assumption; rewrite ?OF, ?DN, ?S2; try lia.
          * assert (CEq : cend (ck q) B = q_end q) by (rewrite <- EB; symmetry; assumption). lia.
          * rewrite !ztake_nonpos by lia. reflexivity.
          * rewrite ztake_nonpos by lia. assumption.
          * intros _ _. assert (CEq : cend (ck q) B = q_end q) by (rewrite <- EB; symmetry; assumption). rewrite K2, CEq, EB. reflexivity.
        + unfold off. rewrite S2. unfold pos_payload. clear - BM. dml.
      - rewrite (u64_small (B + (q_end q - B))) by lia. replace (B + (q_end q - B)) with (q_end q) by lia. replace (B - (B - q_begin q)) with (q_begin q) by lia.
        destruct (match w with kAfter => false | _ => pos <? q_end q end) eqn:IS; cbn [andb].
        + destruct (Z.ltb_spec B (B - q_begin q)); [lia|].
          assert (IsPossibleChunkBoundary (q_begin q) = true) as -> by (apply IsPossibleChunkBoundary_iff; apply O). cbn [negb].
          apply (GOAL (q_begin q) (q :: qs2) false qs1); assumption.
        + assert (IsPossibleChunkBoundary (q_end q) = true) as -> by (apply IsPossibleChunkBoundary_iff; assumption). cbn [negb].
          apply (GOAL (q_end q) qs2 false (qs1 ++ [q])); try assumption; try lia.
          * rewrite <- app_assoc. exact EQ.
          * apply Forall_app. split; [assumption|]. constructor; [|constructor].
            assert (PB : B <= pos) by lia. unfold stops. destruct (Z.leb_spec pos (q_begin q)); [lia|]. cbn [orb].
            destruct w; [|exact IS|reflexivity]. apply Z.ltb_ge in IS. apply Z.ltb_ge. lia.
          * inversion C2; subst; assumption.
    Qed.

    Lemma seek_spec w pos p qs qsA r : 0 <= pos < 2 ^ 64 -> qs0 = qsA ++ qs -> chain hash F p qs -> Forall (fun q => q_end q <= p) qsA -> 0 <= p -> st p qs r ->
      exists b r', SeekToChunk hash F w pos r = Some (b, r') /\ found w pos qs0 b r'.
    Proof.
      intros HP EQ C CA Hp S0. destruct (st_ok _ _ _ S0) as [OK P]. unfold SeekToChunk. rewrite OK. cbn [negb]. rewrite P.
      destruct (chain_le hash F p qs C Hp) as [CL _].
      assert (OKA : forall z, In z qsA -> seek_ok F z) by (intros z Hz; apply in_ok; rewrite EQ; apply in_or_app; auto).
      assert (IN : incl qs qs0) by (intros z Hz; rewrite EQ; apply in_or_app; auto).
      assert (NSA : p <= pos -> Forall (fun q => stops w pos q = false) qsA).
      { intros HL. rewrite Forall_forall in *. intros z Hz. apply not_stop; [auto|]. specialize (CA z Hz). cbv beta in CA. lia. }
      destruct (Z.eqb_spec p pos) as [E|E].
      { exists true, r. split; [reflexivity|]. exists qsA, qs. split; [assumption|]. split; [apply NSA; lia|].
        destruct C as [|q qs O C]; [split; [symmetry; apply Z.leb_le; lia|auto]|]. split; [|auto]. unfold stops. destruct (Z.leb_spec pos (q_begin q)); [reflexivity|lia]. }
      remember (set_trunc false r) as r1.
      assert (S1 : st p qs r1) by (subst r1; apply st_trunc; assumption). assert (T1 : r_trunc r1 = false) by (subst r1; reflexivity). clear Heqr1.
      destruct (st_ok _ _ _ S1) as [OK1 P1]. rewrite P1.
      destruct (Z.ltb_spec p pos) as [LP|LP].
      2:{ apply seek_block; try assumption. eapply st_ready; eassumption. }
      destruct C as [|q qs O C].
      { destruct (Pull_at_end F r1 (zlen F) S1 Hp ltac:(lia) eq_refl) as (r2 & E2 & F2 & T2). rewrite E2.
        assert (r_ok r2 = true) as -> by (apply (st_ok (zlen F) []); exact F2). cbn [negb].
        eexists _, _. split; [reflexivity|]. exists qsA, []. split; [assumption|]. split; [apply NSA; lia|]. split; [symmetry; apply Z.leb_gt; lia|discriminate]. }
      assert (SO : seek_ok F q) by (apply in_ok, IN; left; reflexivity).
      destruct (nrec_end q SO) as (N1 & N2 & N3). pose proof (po_le _ _ _ O) as LE. pose proof SO as SO'. destruct SO'.
      destruct (hend_facts (ck q) (q_begin q) so_p0 so_b0 so_w0 so_f0) as (H1 & H2 & H3).
      destruct (PullChunkHeader_spec hash hash_range (ck q) (q_begin q) so_p0 so_b0 so_w0 so_h0 so_f0 so_s0 F r1 so_a0 S1) as [X _].
      destruct (X ltac:(lia)) as (r2 & E2 & I2 & T2 & P2 & O2). rewrite E2.
      destruct (header_facts q r2 SO I2 O2) as (F1 & F2 & F3). rewrite F1, F2, F3.
      rewrite u64_small by (destruct so_n0; lia).
      assert (ST : stops w pos q = match w with kContaining => pos <? q_begin q + k_nrec (q_chunk q) | kBefore => pos <? q_end q | kAfter => false end).
      { unfold stops. destruct (Z.leb_spec pos (q_begin q)); [lia|reflexivity]. }
      rewrite <- ST. destruct (stops w pos q) eqn:SS.
      { exists true, r2. split; [reflexivity|]. exists qsA, (q :: qs). split; [assumption|]. split; [apply NSA; lia|]. split; [assumption|]. split; [reflexivity|exact I2]. }
      assert (CR : st (q_begin q) (q :: qs) r2) by exact I2.
      destruct (q_end q <? RoundDownToBlockBoundary pos) eqn:EB.
      { apply seek_block; try assumption. eapply st_ready; eassumption. }
      assert (CD : clean (set_data [] r2)) by (destruct I2; constructor; cbn; try assumption; reflexivity).
      assert (IN' : incl qs qs0) by (intros z Hz; apply IN; right; assumption).
      assert (ZN : zlen F = Z.of_nat (length F)) by reflexivity.
      destruct (seek_loop w pos HP (S (S (length F))) (q_end q) qs (set_data [] r2) false C IN' ltac:(lia) T2 CD ltac:(lia)) as (b & r' & -> & FF).
      exists b, r'. split; [reflexivity|]. rewrite EQ. apply found_app; [apply NSA; lia|]. apply found_cons; assumption.
    Qed.

    (** The reader is at a chunk boundary of the file. *)
    Definition positioned (r : reader) : Prop :=
      exists qsA qs p, qs0 = qsA ++ qs /\ chain hash F p qs /\ Forall (fun q => q_end q <= p) qsA /\ 0 <= p /\ st p qs r.

    Lemma found_positioned w pos r : found w pos qs0 true r -> positioned r.
    Proof.
      intros (qs1 & qs2 & EQ & NS & X). pose proof FC as C0. rewrite EQ in C0. destruct (chain_app 0 qs1 qs2 C0) as (p & C & CA & Hp).
      exists qs1, qs2, p. split; [assumption|]. split; [assumption|]. split; [assumption|]. split; [lia|].
      destruct C as [|q qs O C]; [destruct X as [_ X]; auto|]. apply X.
    Qed.

    Lemma found_target w pos r b : found w pos qs0 b r ->
      b = match seek_target w pos qs0 with Some _ => true | None => pos <=? zlen F end /\
      (b = true -> r_pos r = match seek_target w pos qs0 with Some q => q_begin q | None => zlen F end) /\
      exists qs1 qs2, qs0 = qs1 ++ qs2 /\ seek_target w pos qs0 = match qs2 with [] => None | q :: _ => Some q end /\
        (b = true -> match qs2 with [] => st (zlen F) [] r | q :: _ => st (q_begin q) qs2 r end).
    Proof.
      intros (qs1 & qs2 & EQ & NS & X).
      assert (SK : seek_target w pos qs0 = match qs2 with [] => None | q :: _ => Some q end).
      { rewrite EQ. unfold seek_target. clear - NS X. induction qs1 as [|q1 qs1 IH]; cbn [app find].
        - destruct qs2 as [|q qs2]; [reflexivity|]. cbn [find]. destruct X as [-> _]. reflexivity.
        - rewrite (Forall_inv NS). apply IH. apply (Forall_inv_tail NS). }
      rewrite SK. destruct qs2 as [|q qs2].
      - destruct X as [X1 X2]. split; [assumption|]. split; [intros Y; apply (st_ok _ _ _ (X2 Y))|]. exists qs1, []. auto.
      - destruct X as (X1 & X2 & X3). split; [assumption|]. split; [intros Y; apply (st_ok _ _ _ X3)|]. exists qs1, (q :: qs2). auto.
    Qed.

    Lemma read_positioned p qs r : chain hash F p qs -> incl qs qs0 -> 0 <= p -> st p qs r ->
      exists r', ReadChunk hash F r = Some (match qs with [] => None | q :: _ => Some (ck q) end, r') /\
        match qs with [] => st p [] r' | q :: qs' => st (q_end q) qs' r' end.
    Proof.
      intros C IN Hp S. destruct C as [|q qs O C].
      - destruct (ReadChunk_at_end hash hash_range F r (zlen F) S Hp ltac:(lia) eq_refl) as (r' & -> & FR & _). exists r'. auto.
      - assert (SO : seek_ok F q) by (apply in_ok, IN; left; reflexivity). pose proof (po_le _ _ _ O) as LE. destruct (nrec_end q SO) as (N1 & N2 & N3). pose proof SO as SO'. destruct SO'.
        destruct (ReadChunk_step hash hash_range (ck q) (q_begin q) so_p0 so_b0 so_w0 so_h0 so_f0 so_s0 F r so_a0 S) as [X _].
        rewrite <- so_e0 in X. destruct (X LE) as (r' & -> & FR & _). exists r'. split; [reflexivity|].
        apply fresh_st; try assumption; [intros z Hz; apply IN; right; assumption|lia].
    Qed.
    Lemma pull_positioned p qs r : chain hash F p qs -> incl qs qs0 -> 0 <= p -> st p qs r ->
      exists b r', PullChunkHeader hash F r = Some (b, r') /\ st p qs r'.
    Proof.
      intros C IN Hp S. destruct C as [|q qs O C].
      - destruct (Pull_at_end F r (zlen F) S Hp ltac:(lia) eq_refl) as (r' & -> & FR & _). eauto.
      - assert (SO : seek_ok F q) by (apply in_ok, IN; left; reflexivity). pose proof (po_le _ _ _ O) as LE. pose proof SO as SO'. destruct SO'.
        destruct (hend_facts (ck q) (q_begin q) so_p0 so_b0 so_w0 so_f0) as (H1 & H2 & H3).
        destruct (PullChunkHeader_spec hash hash_range (ck q) (q_begin q) so_p0 so_b0 so_w0 so_h0 so_f0 so_s0 F r so_a0 S) as [X _].
        destruct (X ltac:(lia)) as (r' & -> & I & _). eauto.
    Qed.

    Lemma op_positioned o r : navigation (zlen F) o -> positioned r -> exists oc r', RunOp hash o F r = Some (oc, r') /\ positioned r'.
    Proof.
      intros N PO. pose proof PO as (qsA & qs & p & EQ & C & CA & Hp & S).
      assert (IN : incl qs qs0) by (intros z Hz; rewrite EQ; apply in_or_app; auto).
      destruct o as [| | |p'|w pos|]; cbn [navigation RunOp] in *; try contradiction.
      - destruct (read_positioned p qs r C IN Hp S) as (r' & -> & S'). eexists _, _. split; [reflexivity|].
        destruct C as [|q qs O C]; [exists qsA, [], (zlen F); split; [assumption|split; [apply chain_nil|auto]]|].
        pose proof (po_d _ _ _ O). pose proof (po_lt _ _ _ O).
        exists (qsA ++ [q]), qs, (q_end q). split; [rewrite <- app_assoc; assumption|]. split; [assumption|]. split; [|split; [lia|assumption]].
        apply Forall_app. split; [eapply Forall_impl; [|exact CA]; cbv beta; intros; lia|]. constructor; [lia|constructor].
      - destruct (pull_positioned p qs r C IN Hp S) as (b & r' & -> & S'). eexists _, _. split; [reflexivity|]. exists qsA, qs, p. auto 10.
      - destruct (seek_spec w pos p qs qsA r ltac:(lia) EQ C CA Hp S) as (b & r' & -> & FF). eexists _, _. split; [reflexivity|].
        destruct (found_target w pos r' b FF) as (B1 & _ & _). assert (b = true) as -> by (rewrite B1; destruct (seek_target w pos qs0); [reflexivity|apply Z.leb_le; lia]).
        eapply found_positioned; eassumption.
    Qed.
    Lemma ops_positioned ops : forall r, Forall (navigation (zlen F)) ops -> positioned r ->
      exists cs r', RunOps hash (map (fun o => (o, F)) ops) r = Some (cs, r') /\ positioned r'.
    Proof.
      induction ops as [|o ops IH]; intros r N PO; cbn [map RunOps]; [eauto|].
      destruct (op_positioned o r (Forall_inv N) PO) as (oc & r1 & -> & PO1).
      destruct (IH r1 (Forall_inv_tail N) PO1) as (cs & r' & -> & PO'). eauto.
    Qed.
  End File.

  Theorem seek_to_chunk qs F ops w pos : valid_file hash 0 qs F -> Forall (navigation (zlen F)) ops -> 0 <= pos < 2 ^ 64 ->
    exists cs r b r', RunOps hash (map (fun o => (o, F)) ops) (InitializeReader 0) = Some (cs, r) /\
      SeekToChunk hash F w pos r = Some (b, r') /\
      b = match seek_target w pos qs with Some _ => true | None => pos <=? zlen F end /\
      (b = true ->
        r_pos r' = match seek_target w pos qs with Some q => q_begin q | None => zlen F end /\
        exists r'', ReadChunk hash F r' = Some (option_map (fun q => mk_chunk hash (q_chunk q)) (seek_target w pos qs), r'')).
  Proof.
    intros V N HP. pose proof (valid_chain hash hash_range _ _ V) as C.
    destruct V as [VS OK SG (pre & out & E & ZP & L) SZ]. assert (pre = []) as -> by (apply zlen_0_nil; assumption). cbn [app] in E. subst out.
    assert (FS : Forall (seek_ok F) qs).
    { apply (layout_seek qs 0 [] F (zlen F)); try assumption; try reflexivity; apply VS. }
    assert (PO : positioned F qs (InitializeReader 0)).
    { exists [], qs, 0. split; [reflexivity|]. split; [assumption|]. split; [constructor|]. split; [lia|].
      apply (fresh_st F qs FS); try assumption; [apply incl_refl|lia|]. constructor; reflexivity. }
    destruct (ops_positioned F qs C FS SZ ops _ N PO) as (cs & r & E & PO1). pose proof PO1 as (qsA & qs' & p & EQ & C' & CA & Hp & S).
    destruct (seek_spec F qs C FS SZ w pos p qs' qsA r HP EQ C' CA Hp S) as (b & r' & E2 & FF).
    exists cs, r, b, r'. split; [assumption|]. split; [assumption|].
    destruct (found_target F qs w pos r' b FF) as (B1 & B2 & (qs1 & qs2 & E3 & E4 & E5)). split; [assumption|].
    intros BT. split; [auto|]. specialize (E5 BT).
    pose proof C as C0. rewrite E3 in C0. destruct (chain_app F 0 qs1 qs2 C0) as (p2 & C2 & _ & Hp2).
    assert (IN : incl qs2 qs) by (intros z Hz; rewrite E3; apply in_or_app; auto).
    assert (S2 : st F p2 qs2 r') by (destruct C2; exact E5).
    destruct (read_positioned F qs FS SZ p2 qs2 r' C2 IN ltac:(lia) S2) as (r'' & E6 & _). exists r''. rewrite E6, E4. destruct qs2; reflexivity.
  Qed.
End Seek.
