(** Recover and reading with recovery, on an arbitrary content. *)
From Verif Require Import Base.Bytes Model.Endian Model.Block Model.Chunk Model.ChunkWriter Model.ChunkReader
  Spec.BlockSpec Spec.FileSpec Spec.ChunkLink Spec.RecoverSpec Proof.EndianProof Proof.BlockProof Proof.ChunkWriterProof
  Proof.ChunkReaderProof Proof.FileProof Proof.StaticRead.

Lemma rup_spec q : 0 <= q -> q <= rup q < q + 65536 /\ rup q mod 65536 = 0.
Proof. intros. unfold rup. split; [|dml]. pose proof (Z.mod_pos_bound (- q) 65536 ltac:(lia)). lia. Qed.
Lemma rup_least q B : 0 <= q -> q <= B -> B mod 65536 = 0 -> rup q <= B.
Proof. intros. unfold rup. dml. Qed.

Lemma blit_full0 (got dst : list Z) : zlen got = zlen dst -> blit 0 got dst = got.
Proof. intros H. unfold blit. rewrite ztake_nonpos, Z.add_0_l, zdrop_all by lia. rewrite app_nil_r. reflexivity. Qed.

Section Recover.
  Variable hash : list Z -> Z.
  Variable content : list Z.
  Hypothesis cbytes : bytes content.
  Hypothesis clen : zlen content < 2 ^ 62.
  Notation blk_at := (blk_at content).
  Notation blk_valid := (blk_valid hash content).

  Hypothesis honest : forall K, 0 <= K -> K mod 65536 = 0 -> K + 24 <= zlen content -> blk_valid K ->
    (bh_previous_chunk (blk_at K) = 0 \/ 0 < bh_next_chunk (blk_at K)) /\ K + bh_next_chunk (blk_at K) + 65536 <= 2 ^ 64.

  (** Where the search for a chunk from the block boundary [B] ends. *)
  Inductive landing := At (e : Z) | Tail (e : Z) | Over.
  Inductive lands : Z -> landing -> Prop :=
  | L_over B : zlen content < B -> lands B Over
  | L_tail B : B <= zlen content < B + 24 -> lands B (Tail B)
  | L_bad B o : B + 24 <= zlen content -> ~ blk_valid B -> lands (B + 65536) o -> lands B o
  | L_begin B : B + 24 <= zlen content -> blk_valid B -> bh_previous_chunk (blk_at B) = 0 -> lands B (At B)
  | L_jump B : B + 24 <= zlen content -> blk_valid B -> bh_previous_chunk (blk_at B) <> 0 ->
      chunk_boundary (B + bh_next_chunk (blk_at B)) -> B + bh_next_chunk (blk_at B) <= zlen content ->
      lands B (At (B + bh_next_chunk (blk_at B)))
  | L_jump_over B : B + 24 <= zlen content -> blk_valid B -> bh_previous_chunk (blk_at B) <> 0 ->
      chunk_boundary (B + bh_next_chunk (blk_at B)) -> zlen content < B + bh_next_chunk (blk_at B) -> lands B Over
  | L_jump_again B o : B + 24 <= zlen content -> blk_valid B -> bh_previous_chunk (blk_at B) <> 0 ->
      ~ chunk_boundary (B + bh_next_chunk (blk_at B)) -> lands (rup (B + bh_next_chunk (blk_at B))) o -> lands B o.

  Record tail_pos (e : Z) (r : reader) : Prop := {
    t_open : r_open r = true; t_failed : r_failed r = false; t_rec : r_rec r = kNo; t_pos : r_pos r = e;
    t_spos : r_spos r = zlen content; t_e : 0 <= e /\ e mod 65536 = 0 /\ e <= zlen content < e + 24 }.
  Record over_pos (r : reader) : Prop := {
    o_open : r_open r = true; o_failed : r_failed r = false; o_rec : r_rec r = kNo; o_pos : zlen content < r_pos r < 2 ^ 64;
    o_spos : r_spos r = zlen content }.
  Definition landed (o : landing) (r : reader) (e : Z) : Prop :=
    match o with
    | At p => e = p /\ start hash content p r
    | Tail p => e = p /\ tail_pos p r
    | Over => e = zlen content /\ over_pos r
    end.

  (** Not failed, at some position, with no data. *)
  Record clean (r : reader) : Prop := {
    c_open : r_open r = true; c_failed : r_failed r = false; c_rec : r_rec r = kNo; c_data0 : r_data r = [];
    c_hl : zlen (r_header r) = 40; c_bl : zlen (r_block r) = 24 }.

  Lemma boundary_false p : IsPossibleChunkBoundary p = false <-> ~ chunk_boundary p.
  Proof. rewrite <- IsPossibleChunkBoundary_iff. destruct (IsPossibleChunkBoundary p); split; congruence. Qed.

  Lemma clean_start p r : clean r -> chunk_boundary p -> 0 <= p <= zlen content -> start hash content p (set_spos p (set_pos p r)).
  Proof. intros [] B P. constructor; cbn; try assumption; try reflexivity. left. reflexivity. Qed.

  Lemma find_spec rb : forall m q r fuel, clean r -> r_pos r = q -> 0 <= q -> q + 65536 <= 2 ^ 64 ->
    (Z.to_nat (zlen content - rup q) <= m)%nat -> (2 * m + 3 <= fuel)%nat ->
    exists o e r', Recover_loop hash fuel content rb find_chunk r = Some (Some (rb, e), r') /\ lands (rup q) o /\ landed o r' e.
  Proof.
    induction m as [m IH] using lt_wf_ind. intros q r fuel C Q Q0 Q1 HM HF.
    destruct fuel as [|fuel]; [lia|]. cbn [Recover_loop]. rewrite Q.
    destruct (rup_spec q Q0) as [RU1 RU2].
    assert (EU : u64 (q + RemainingInBlock q) = rup q).
    { rewrite RemainingInBlock_eq. fold (rup q). apply u64_small. assert (rup q mod 65536 = 0 /\ rup q < 2 ^ 64 + 0); [|lia]. lia. }
    rewrite EU. clear EU. remember (rup q) as B. cbn [r_pos set_pos].
    unfold src_seek. destruct (Z.leb_spec B (zlen content)) as [LB|LB]; cbn [negb].
    2:{ exists Over, (zlen content). eexists. split; [reflexivity|]. split; [apply L_over; assumption|]. split; [reflexivity|].
        destruct C; constructor; cbn; try assumption; try reflexivity; lia. }
    remember (set_spos B (set_pos B r)) as r1.
    assert (C1 : clean r1) by (subst r1; destruct C; constructor; assumption).
    assert (P1 : r_pos r1 = B /\ r_spos r1 = B) by (subst r1; auto). destruct P1 as [P1 P2].
    unfold ReadBlockHeader. rewrite P2. rewrite RemHeader by lia. rewrite RU2. change (24 - 0) with 24. change (BlockHeaderSize - 24) with 0.
    unfold src_read. destruct (Z.leb_spec (B + 24) (zlen content)) as [LB2|LB2]; cbn [negb].
    2:{ unfold FailReading. cbn [negb]. 
        match goal with |- context [match r_rec ?x with _ => _ end] => remember x as r2 end.
        assert (T : tail_pos B r2 /\ r_rec r2 = kNo).
        { subst r2. destruct C1. cbn [r_pos r_spos set_spos set_block]. rewrite P1.
          destruct (_ <? _); (split; [constructor; cbn; try assumption; lia|assumption]). }
        destruct T as [T1 T2]. rewrite T2. exists (Tail B), (r_pos r2), r2. split; [reflexivity|]. split; [apply L_tail; lia|]. split; [apply T1|exact T1]. }
    assert (ZB : zlen (blk_at B) = 24) by (apply zlen_zslice; lia). fold (blk_at B). rewrite (blit_full0 (blk_at B) (r_block r1)) by (rewrite ZB; symmetry; apply C1). fold (blk_at B).
    remember (set_spos (B + 24) (set_block (blk_at B) r1)) as r2.
    assert (C2 : clean r2) by (subst r2; destruct C1; constructor; assumption).
    assert (P3 : r_pos r2 = B /\ r_spos r2 = B + 24 /\ r_block r2 = blk_at B) by (subst r2; auto). destruct P3 as (P3 & P4 & P5).
    rewrite P5. assert (BY : bytes (blk_at B)) by (apply bytes_ztake, bytes_zdrop; assumption). destruct (bh_ranges _ BY) as [BR1 BR2].
    destruct (Z.eqb_spec (bh_computed_header_hash hash (blk_at B)) (bh_stored_header_hash (blk_at B))) as [V|V]; cbn [negb].
    2:{ unfold fail_rec. cbn [negb r_rec set_failed set_rec]. rewrite P4.
        destruct fuel as [|fuel]; [lia|]. cbn [Recover_loop r_rec r_recpos set_failed set_rec].
        remember (set_pos (B + 24) (set_data [] (set_failed false (set_rec kNo 0 (set_failed true (set_rec kFindChunk (B + 24) r2)))))) as r3.
        assert (C3 : clean r3) by (subst r3; destruct C2; constructor; cbn; try assumption; reflexivity).
        assert (RB : rup (B + 24) = B + 65536) by (unfold rup; clear - RU2; dml).
        destruct m as [|m]; [lia|].
        edestruct (IH m ltac:(lia) (B + 24) r3 fuel C3) as (o & e & r' & E1 & E2 & E3); [subst r3; reflexivity|lia|lia|rewrite RB; lia|lia|].
        exists o, e, r'. split; [exact E1|]. split; [|exact E3]. rewrite RB in E2. apply L_bad; try assumption. }
    assert (VB : blk_valid B) by exact V. rewrite P5.
    destruct (Z.eqb_spec (bh_previous_chunk (blk_at B)) 0) as [V0|V0].
    { exists (At B), (r_pos r2), r2. split; [reflexivity|]. split; [apply L_begin; assumption|]. split; [assumption|].
      destruct C2. constructor; try assumption; try lia; [left; assumption|]. right. repeat split; try assumption; try lia. }
    destruct (honest B ltac:(lia) RU2 LB2 VB) as [[HN|HN] HO]; [lia|].
    rewrite P3. rewrite (u64_small (B + bh_next_chunk (blk_at B))) by lia. cbn [r_pos set_pos].
    destruct (IsPossibleChunkBoundary (B + bh_next_chunk (blk_at B))) eqn:IB; cbn [negb].
    - apply IsPossibleChunkBoundary_iff in IB.
      destruct (Z.leb_spec (B + bh_next_chunk (blk_at B)) (zlen content)) as [LN|LN]; cbn [negb].
      + eexists (At _), _, _. split; [reflexivity|]. split; [apply L_jump; assumption|]. split; [reflexivity|].
        apply clean_start; try assumption. lia.
      + eexists Over, _, _. split; [reflexivity|]. split; [eapply L_jump_over; eassumption|]. split; [reflexivity|].
        destruct C2; constructor; cbn [r_open r_failed r_rec r_pos r_spos set_spos set_pos]; try assumption; try reflexivity. lia.
    - apply boundary_false in IB. destruct (rup_spec (B + bh_next_chunk (blk_at B)) ltac:(lia)) as [RV1 RV2].
      destruct m as [|m]; [lia|].
      edestruct (IH m ltac:(lia) (B + bh_next_chunk (blk_at B)) (set_pos (B + bh_next_chunk (blk_at B)) r2) fuel) as (o & e & r' & E1 & E2 & E3).
      + destruct C2; constructor; assumption.
      + reflexivity.
      + lia.
      + lia.
      + lia.
      + lia.
      + exists o, e, r'. split; [exact E1|]. split; [|exact E3]. eapply L_jump_again; eassumption.
  Qed.

  (** A failure which can be recovered from. *)
  Record recov (p : Z) (r : reader) : Prop := {
    v_open : r_open r = true; v_pos : r_pos r = p; v_p : 0 <= p < zlen content; v_rec : r_rec r <> kNo;
    v_lim : 0 <= r_recpos r /\ r_recpos r + 65536 <= 2 ^ 64;
    v_have : r_rec r = kHaveChunk -> p < r_recpos r; v_find : r_rec r = kFindChunk -> p < rup (r_recpos r);
    v_hl : zlen (r_header r) = 40; v_bl : zlen (r_block r) = 24 }.

  Definition target (r : reader) (o : landing) : Prop :=
    (r_rec r = kHaveChunk /\ chunk_boundary (r_recpos r) /\
     ((r_recpos r <= zlen content /\ o = At (r_recpos r)) \/ (zlen content < r_recpos r /\ o = Over))) \/
    ((r_rec r = kFindChunk \/ (r_rec r = kHaveChunk /\ ~ chunk_boundary (r_recpos r) /\ r_recpos r <= zlen content)) /\ lands (rup (r_recpos r)) o) \/
    (r_rec r = kHaveChunk /\ zlen content < r_recpos r /\ o = Over).

  Lemma Recover_static p r : recov p r ->
    exists o e r', Recover hash content r = Some (Some (p, e), r') /\ target r o /\ landed o r' e.
  Proof.
    intros [].
    assert (F0 : forall q, 0 <= q -> (Z.to_nat (zlen content - rup q) <= length content)%nat).
    { intros q Hq. destruct (rup_spec q Hq). unfold zlen. lia. }
    assert (F1 : forall q, p < rup q -> 0 <= q -> (Z.to_nat (zlen content - rup q) <= length content - 1)%nat).
    { intros q Hq Hq0. destruct (rup_spec q Hq0). unfold zlen in *. lia. }
    unfold Recover. rewrite v_pos0. remember (r_rec r) as k. destruct k; [congruence| |].
    - replace (2 * length content + 4)%nat with (S (2 * length content + 3)) by lia. cbn [Recover_loop]. rewrite <- Heqk.
      remember (set_data [] (set_failed false (set_rec kNo 0 r))) as r1.
      assert (C1 : clean r1) by (subst r1; constructor; cbn; try assumption; reflexivity).
      assert (OK : r_ok (set_pos (r_recpos r) r1) = true) by (unfold r_ok; cbn; destruct C1 as [-> -> _ _ _ _]; reflexivity).
      rewrite OK. cbn [r_pos set_pos]. unfold src_seek. specialize (v_have0 eq_refl).
      destruct (Z.leb_spec (r_recpos r) (zlen content)) as [L|L]; cbn [negb].
      2:{ eexists Over, _, _. split; [reflexivity|]. split; [right; right; auto|]. split; [reflexivity|].
          destruct C1; constructor; cbn; try assumption; try reflexivity. lia. }
      cbn [r_pos set_spos set_pos]. destruct (IsPossibleChunkBoundary (r_recpos r)) eqn:IB; cbn [negb].
      + apply IsPossibleChunkBoundary_iff in IB. eexists (At _), _, _. split; [reflexivity|]. split; [left; auto|]. split; [reflexivity|].
        apply clean_start; try assumption. lia.
      + apply boundary_false in IB. 
        replace (2 * length content + 3)%nat with (S (2 * length content + 2)) by lia. cbn [Recover_loop r_rec r_recpos set_rec].
        remember (set_pos (r_recpos r) (set_data [] (set_failed false (set_rec kNo 0 (set_rec kFindChunk (r_recpos r) (set_spos (r_recpos r) (set_pos (r_recpos r) r1))))))) as r2.
        assert (C2 : clean r2) by (subst r2; destruct C1; constructor; cbn; try assumption; reflexivity).
        assert (PR : p < rup (r_recpos r)) by (destruct (rup_spec (r_recpos r)); lia).
        assert (ZN : zlen content = Z.of_nat (length content)) by reflexivity.
        destruct (find_spec p (length content - 1) (r_recpos r) r2 (2 * length content + 2) C2) as (o & e & r' & E1 & E2 & E3); [subst r2; reflexivity|lia|lia|apply F1; lia|lia|].
        exists o, e, r'. split; [exact E1|]. split; [|exact E3]. right. left. rewrite <- Heqk. auto.
    - replace (2 * length content + 4)%nat with (S (2 * length content + 3)) by lia. cbn [Recover_loop]. rewrite <- Heqk.
      remember (set_pos (r_recpos r) (set_data [] (set_failed false (set_rec kNo 0 r)))) as r1.
      assert (C1 : clean r1) by (subst r1; constructor; cbn; try assumption; reflexivity).
      destruct (find_spec p (length content) (r_recpos r) r1 (2 * length content + 3) C1) as (o & e & r' & E1 & E2 & E3); [subst r1; reflexivity|lia|lia|apply F0; lia|lia|].
      exists o, e, r'. split; [exact E1|]. split; [|exact E3]. right. left. rewrite <- Heqk. auto.
  Qed.

  Definition lpos (o : landing) : Z := match o with At e => e | Tail e => e | Over => zlen content end.
  Lemma lands_after B o : lands B o -> B mod 65536 = 0 -> 0 <= B -> (B <= zlen content -> B <= lpos o) /\ lpos o <= zlen content /\ (zlen content < B -> lpos o = zlen content).
  Proof.
    induction 1 as [B H|B H|B o H V L IH|B H V P|B H V P N L|B H V P N L|B o H V P N L IH]; intros HB H0; cbn [lpos].
    - lia.
    - lia.
    - assert ((B + 65536) mod 65536 = 0) by (clear - HB; dml). specialize (IH ltac:(assumption) ltac:(lia)).
      destruct (Z_le_gt_dec (B + 65536) (zlen content)); lia.
    - lia.
    - destruct (honest B H0 HB H V) as [[X|X] _]; [congruence|]. lia.
    - lia.
    - destruct (honest B H0 HB H V) as [[X|X] _]; [congruence|]. destruct (rup_spec (B + bh_next_chunk (blk_at B)) ltac:(lia)) as [R1 R2].
      specialize (IH R2 ltac:(lia)). destruct (Z_le_gt_dec (rup (B + bh_next_chunk (blk_at B))) (zlen content)); lia.
  Qed.

  Lemma target_after p r o : recov p r -> target r o -> p < lpos o <= zlen content.
  Proof.
    intros [] T. destruct T as [(T1 & T2 & [[T3 ->]|[T3 ->]])|[[[T1|(T1 & T2 & T4)] T3]|(T1 & T2 & ->)]]; cbn [lpos]; try lia.
    - specialize (v_find0 T1). destruct (rup_spec (r_recpos r)) as [R1 R2]; [lia|]. destruct (lands_after _ _ T3 R2 ltac:(lia)) as (A & B & C).
      destruct (Z_le_gt_dec (rup (r_recpos r)) (zlen content)); lia.
    - specialize (v_have0 T1). destruct (rup_spec (r_recpos r)) as [R1 R2]; [lia|]. destruct (lands_after _ _ T3 R2 ltac:(lia)) as (A & B & C).
      destruct (Z_le_gt_dec (rup (r_recpos r)) (zlen content)); lia.
  Qed.

  Lemma landed_pos o r e : landed o r e -> e = lpos o.
  Proof. destruct o; cbn; intros [-> _]; reflexivity. Qed.

  (** *** The end *)
  Lemma read_tail e r : tail_pos e r -> exists r', ReadChunk hash content r = Some (None, r') /\ r_rec r' = kNo /\ r_ok r' = true /\ r_pos r' = e.
  Proof.
    intros [A B C D E (F1 & F2 & F3)]. unfold ReadChunk, PullChunkHeader. assert (OK : r_ok r = true) by (unfold r_ok; rewrite A, B; reflexivity).
    rewrite OK. cbn [negb set_trunc r_spos r_pos]. rewrite E, D. destruct (Z.ltb_spec (zlen content) e); [lia|].
    rewrite DistanceWithoutOverhead_eq by lia.
    assert (PP : pos_payload (zlen content) - pos_payload e = 0) by (unfold pos_payload; clear - F2 F3; dml). rewrite PP. change (0 <? ChunkHeaderSize) with true. cbv iota.
    unfold ReadChunkHeader. cbn [ReadChunkHeader_loop set_trunc r_spos]. rewrite E.
    assert (M : zlen content mod 65536 = zlen content - e) by (clear - F2 F3; dml).
    rewrite RemHeader by lia. destruct (Z.ltb_spec 0 (24 - zlen content mod 65536)); [|lia].
    unfold ReadInnerBlockHeader, ReadBlockHeader. cbn [set_trunc r_spos]. rewrite E. rewrite RemHeader by lia. unfold src_read.
    destruct (Z.leb_spec (zlen content + (24 - zlen content mod 65536)) (zlen content)); [lia|]. cbn [negb].
    unfold FailReading. cbn [negb]. eexists. split; [reflexivity|]. destruct (_ <? _); cbn; auto.
  Qed.
  Lemma read_over r : over_pos r -> exists r', ReadChunk hash content r = Some (None, r') /\ r_rec r' = kNo /\ r_ok r' = true /\ r_pos r' = r_pos r.
  Proof.
    intros [A B C D E]. unfold ReadChunk, PullChunkHeader. assert (OK : r_ok r = true) by (unfold r_ok; rewrite A, B; reflexivity).
    rewrite OK. cbn [negb set_trunc r_spos r_pos]. rewrite E. destruct (Z.ltb_spec (zlen content) (r_pos r)); [|lia].
    destruct (Z.leb_spec (zlen content) (zlen content)); [|lia]. eexists. split; [reflexivity|]. cbn. auto.
  Qed.
  Lemma recover_none r : r_rec r = kNo -> Recover hash content r = Some (None, r).
  Proof. intros H. unfold Recover. rewrite H. reflexivity. Qed.

  Lemma failed_recov p r : start hash content p r -> forall r', failed_at hash content p r' -> recov p r'.
  Proof.
    intros S r' []. destruct S. 
    assert (NX : forall K, blk_bounds content p K -> 0 <= bh_next_chunk (blk_at K)).
    { intros K [K1 K2]. apply bh_ranges. apply bytes_ztake, bytes_zdrop. assumption. }
    destruct (hend_spec hash content p ltac:(lia) s_b) as (H1 & H2 & H3 & H4 & H5).
    assert (RB : forall q, 0 <= q -> q <= rup q) by (intros q Hq; destruct (rup_spec q Hq); lia).
    assert (RK : forall K, blk_bounds content p K -> rup (K + 24) = K + 65536) by (intros K (_ & K2 & _); unfold rup; clear - K2; dml).
    assert (G : forall k q, reason hash content p k q -> 
       k <> kNo /\ (0 <= q /\ q + 65536 <= 2 ^ 64) /\ (k = kHaveChunk -> p < q) /\ (k = kFindChunk -> p < rup q)).
    { intros k q R. destruct R as [K B I V|K B I V P N|K B I V P|H V|K H B L V N|H E S|K H B L V N|H L D].
      - pose proof (RK K B) as RR. destruct B as (B1 & B2 & B3). split; [discriminate|]. split; [lia|]. split; [discriminate|]. intros _. lia.
      - pose proof (NX K B) as NN. destruct B as (B1 & B2 & B3). split; [discriminate|]. split; [lia|]. split; [|discriminate]. intros _.
        destruct (honest K ltac:(lia) B2 B3 V) as [HN _]. destruct (Z.eq_dec K p) as [->|NE]; [|lia]. destruct HN; lia.
      - pose proof (RK K B) as RR. destruct B as (B1 & B2 & B3). split; [discriminate|]. split; [lia|]. split; [discriminate|]. intros _. lia.
      - split; [discriminate|]. split; [lia|]. split; [discriminate|]. intros _. pose proof (RB (hend p)). lia.
      - destruct H as [H _]. split; [discriminate|]. split; [lia|]. split; [discriminate|]. intros _. pose proof (RB (hend p)). lia.
      - destruct H as [H _]. split; [discriminate|]. split; [lia|]. split; [discriminate|]. intros _. pose proof (RB (hend p)). lia.
      - pose proof (RK K B) as RR. destruct B as (B1 & B2 & B3). split; [discriminate|]. split; [lia|]. split; [discriminate|]. intros _. lia.
      - destruct (dend_spec hash content cbytes p ltac:(lia) s_b) as (D1 & D2 & D3 & D4).
        split; [discriminate|]. split; [lia|]. split; [|discriminate]. intros _. lia. }
    destruct (G _ _ x_reason) as (G1 & G2 & G3 & G4). constructor; try assumption; lia.
  Qed.

  Lemma recovering_static : forall fuel p r, start hash content p r -> (Z.to_nat (zlen content - p) + 2 <= fuel)%nat ->
    exists es r' q, ReadAllRecovering hash fuel content r = Some (es, r') /\ tiles p es q /\ q <= zlen content /\ r_ok r' = true.
  Proof.
    induction fuel as [|fuel IH]; intros p r S HF; [lia|]. cbn [ReadAllRecovering].
    destruct (ReadChunk_static hash content cbytes clen p r S) as (o & r1 & -> & X). pose proof S as S0. destruct S0.
    destruct o as [c|].
    - destruct X as [GC FR]. destruct GC as (G1 & G2 & G3 & G4 & G5 & G6 & G7 & G8).
      destruct (end_at_spec hash content cbytes clen p ltac:(lia) s_b ltac:(lia)) as (E1 & E2 & E3 & E4).
      assert (S1 : start hash content (end_at content p) r1).
      { destruct FR. constructor; try assumption; [lia|]. left. assumption. }
      destruct (IH _ _ S1 ltac:(lia)) as (es & r' & q & -> & T1 & T2 & T3).
      eexists _, _, q. split; [reflexivity|]. split; [|auto]. rewrite s_pos, (f_pos _ _ FR). apply tiles_got; [lia|assumption].
    - destruct X as [X|X].
      + rewrite recover_none by apply X. eexists _, _, p. split; [reflexivity|]. split; [constructor|]. split; [lia|]. unfold r_ok. destruct X as [-> -> _ _ _]. reflexivity.
      + pose proof (failed_recov p r S r1 X) as RV. destruct (Recover_static p r1 RV) as (o & e & r2 & -> & T & L).
        pose proof (target_after p r1 o RV T) as TA. rewrite (landed_pos _ _ _ L) in *. 
        destruct fuel as [|fuel]; [lia|].
        destruct o as [e'|e'|].
        * destruct L as [_ L]. cbn [lpos] in *. destruct (IH _ _ L ltac:(lia)) as (es & r' & q & -> & T1 & T2 & T3).
          eexists _, _, q. split; [reflexivity|]. split; [|auto]. apply tiles_skip; [lia|assumption].
        * destruct L as [_ L]. cbn [lpos] in *. destruct (read_tail _ _ L) as (r3 & E3 & E4 & E5 & E6). cbn [ReadAllRecovering]. rewrite E3, recover_none by assumption.
          eexists _, _, e'. split; [reflexivity|]. split; [|split; [lia|assumption]]. apply tiles_skip; [lia|constructor].
        * destruct L as [_ L]. cbn [lpos] in *. destruct (read_over _ L) as (r3 & E3 & E4 & E5 & E6). cbn [ReadAllRecovering]. rewrite E3, recover_none by assumption.
          eexists _, _, (zlen content). split; [reflexivity|]. split; [|split; [lia|assumption]]. apply tiles_skip; [lia|constructor].
  Qed.

  Theorem recovering_init p fuel : 0 <= p <= zlen content -> chunk_boundary p \/ p < zlen content -> (length content + 3 <= fuel)%nat ->
    exists es r' q, ReadAllRecovering hash fuel content (InitializeReader p) = Some (es, r') /\ tiles p es q /\ q <= zlen content /\ r_ok r' = true.
  Proof.
    intros P B HF. unfold InitializeReader. destruct (IsPossibleChunkBoundary p) eqn:IB.
    - apply IsPossibleChunkBoundary_iff in IB. apply recovering_static; [|unfold zlen in *; lia].
      constructor; cbn; try reflexivity; try assumption. left. reflexivity.
    - apply boundary_false in IB. destruct B as [B|B]; [contradiction|].
      remember (snd (fail_rec kFindChunk p (MkReader p p (zeros 40) [] (zeros 24) true false false kNo 0))) as r.
      assert (RV : recov p r).
      { subst r. constructor; cbn; try reflexivity; try discriminate; try lia. intros _. destruct (rup_spec p ltac:(lia)) as [R1 R2].
        assert (rup p <> p); [|lia]. intros E. rewrite E in R2. apply IB. left. assumption. }
      destruct fuel as [|fuel]; [lia|]. cbn [ReadAllRecovering].
      assert (RC : ReadChunk hash content r = Some (None, r)) by (subst r; reflexivity). rewrite RC. clear RC.
      destruct (Recover_static p r RV) as (o & e & r2 & -> & T & L). pose proof (target_after p r o RV T) as TA. rewrite (landed_pos _ _ _ L) in *. 
      assert (ZN : zlen content = Z.of_nat (length content)) by reflexivity.
      destruct o as [e'|e'|].
      + destruct L as [_ L]. cbn [lpos] in *. destruct (recovering_static fuel e' r2 L ltac:(lia)) as (es & r' & q & -> & T1 & T2 & T3).
        eexists _, _, q. split; [reflexivity|]. split; [|auto]. apply tiles_skip; [lia|assumption].
      + destruct fuel as [|fuel]; [lia|]. destruct L as [_ L]. cbn [lpos] in *. destruct (read_tail _ _ L) as (r3 & E3 & E4 & E5 & E6). cbn [ReadAllRecovering]. rewrite E3, recover_none by assumption.
        eexists _, _, e'. split; [reflexivity|]. split; [|split; [lia|assumption]]. apply tiles_skip; [lia|constructor].
      + destruct fuel as [|fuel]; [lia|]. destruct L as [_ L]. cbn [lpos] in *. destruct (read_over _ L) as (r3 & E3 & E4 & E5 & E6). cbn [ReadAllRecovering]. rewrite E3, recover_none by assumption.
        eexists _, _, (zlen content). split; [reflexivity|]. split; [|split; [lia|assumption]]. apply tiles_skip; [lia|constructor].
  Qed.
End Recover.
