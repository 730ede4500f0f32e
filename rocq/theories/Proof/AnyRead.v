(** Whatever the content and the calls, a chunk returned has matching hashes and sizes. *)
From Verif Require Import Base.Bytes Model.Endian Model.Block Model.Chunk Model.ChunkWriter Model.ChunkReader
  Spec.BlockSpec Spec.FileSpec Spec.ChunkLink Spec.RecoverSpec Proof.EndianProof Proof.BlockProof Proof.ChunkWriterProof
  Proof.ChunkReaderProof Proof.FileProof Proof.CodecLemmas.

Section Any.
  Variable hash : list Z -> Z.
  Hypothesis hash_range : forall l, 0 <= hash l < 2 ^ 64.

  Definition hvalid (h : list Z) : Prop := ch_computed_header_hash hash h = ch_stored_header_hash h.
  Definition dist (r : reader) : Z := pos_payload (r_spos r) - pos_payload (r_pos r).

  Record good (n : Z) (r : reader) : Prop := {
    g_hl : zlen (r_header r) = 40; g_hb : bytes (r_header r); g_bl : zlen (r_block r) = 24; g_bb : bytes (r_block r);
    g_spos : 0 <= r_spos r <= n; g_pos : 0 <= r_pos r < 2 ^ 64; g_rec : 0 <= r_recpos r < 2 ^ 64 }.
  Record J (r : reader) : Prop := {
    j_lo : r_pos r <= r_spos r -> dist r < 40 -> r_data r = [];
    j_hi : r_pos r <= r_spos r -> 40 <= dist r -> hvalid (r_header r) /\ zlen (r_data r) <= ch_data_size (r_header r) }.
  Definition Inv (n : Z) (r : reader) : Prop := good n r /\ (r_ok r = true -> J r).

  Lemma good_mono n m r : n <= m -> good n r -> good m r.
  Proof. intros H []. constructor; try assumption; lia. Qed.
  Lemma Inv_mono n m r : n <= m -> Inv n r -> Inv m r.
  Proof. intros H [A B]. split; [eapply good_mono; eassumption|exact B]. Qed.
  Lemma J_nil r : r_data r = [] -> (r_pos r <= r_spos r -> dist r < 40) -> J r.
  Proof. intros A B. constructor; [auto|]. intros C D. specialize (B C). lia. Qed.
  Lemma Inv_bad n r : good n r -> r_ok r = false -> Inv n r.
  Proof. intros A B. split; [assumption|congruence]. Qed.
  Lemma ok_split r : r_ok r = true <-> r_open r = true /\ r_failed r = false.
  Proof. unfold r_ok. destruct (r_open r), (r_failed r); cbn; intuition congruence. Qed.

  Section Content.
  Variable content : list Z.
  Hypothesis cb : bytes content.
  Hypothesis cl : zlen content < 2 ^ 62.
  Notation n := (zlen content).

  Lemma zlen_blit o got dst : 0 <= o -> o + zlen got <= zlen dst -> zlen (blit o got dst) = zlen dst.
  Proof. intros. pose proof (zlen_nonneg got). unfold blit. rewrite !zlen_app, zlen_ztake, zlen_zdrop. lia. Qed.
  Lemma bytes_blit o got dst : bytes got -> bytes dst -> bytes (blit o got dst).
  Proof. intros. unfold blit. rewrite !bytes_app. auto using bytes_ztake, bytes_zdrop. Qed.
  Lemma bytes_zslice p k : bytes (zslice p k content).
  Proof. apply bytes_ztake, bytes_zdrop, cb. Qed.

  (** What src_read does. *)
  Lemma src_read_spec spos len : 0 <= spos <= n -> 0 <= len ->
    exists b got spos', src_read content spos len = (b, got, spos') /\ bytes got /\ spos' = spos + zlen got /\ spos' <= n /\
      zlen got <= len /\ (if b then zlen got = len else zlen got < len).
  Proof.
    intros H1 H2. unfold src_read. destruct (Z.leb_spec (spos + len) n) as [L|L].
    - eexists _, _, _. split; [reflexivity|]. rewrite zlen_zslice by lia. cbv iota. repeat split; try lia. apply bytes_zslice.
    - eexists _, _, _. split; [reflexivity|]. rewrite zlen_zdrop. cbv iota. repeat split; try lia. apply bytes_zdrop, cb.
  Qed.

  Definition same (r r' : reader) : Prop :=
    r_pos r' = r_pos r /\ r_header r' = r_header r /\ r_data r' = r_data r /\ r_open r' = r_open r.

  Lemma RBH_spec r : good n r -> r_spos r mod 65536 < 24 ->
    exists b r', ReadBlockHeader hash content r = (b, r') /\ good n r' /\ same r r' /\ r_spos r <= r_spos r' /\
      pos_payload (r_spos r') = pos_payload (r_spos r) /\
      (if b then 24 <= r_spos r' mod 65536 /\ r_failed r' = r_failed r else r_failed r' = r_failed r \/ r_failed r' = true).
  Proof.
    intros G M. pose proof G as G0. destruct G. pose proof (Z.mod_pos_bound (r_spos r) 65536 ltac:(lia)) as MB.
    unfold ReadBlockHeader. rewrite RemHeader by assumption.
    destruct (src_read_spec (r_spos r) (24 - r_spos r mod 65536) ltac:(lia) ltac:(lia)) as (b & got & spos' & -> & B1 & B2 & B3 & B4 & B5).
    replace (BlockHeaderSize - (24 - r_spos r mod 65536)) with (r_spos r mod 65536) by (blk; lia).
    pose proof (zlen_nonneg got) as Z0.
    remember (set_spos spos' (set_block (blit (r_spos r mod 65536) got (r_block r)) r)) as r1.
    assert (G1 : good n r1).
    { subst r1. constructor; cbn [r_header r_block r_spos r_pos r_recpos set_spos set_block]; try assumption; try lia.
      - rewrite zlen_blit; lia.
      - apply bytes_blit; assumption. }
    assert (S1 : same r r1) by (subst r1; repeat split).
    assert (P1 : r_spos r1 = r_spos r + zlen got) by (subst r1; exact B2).
    assert (F1 : r_failed r1 = r_failed r) by (subst r1; reflexivity).
    assert (PP : pos_payload (r_spos r1) = pos_payload (r_spos r)).
    { rewrite P1. assert (r_spos r mod 65536 + zlen got <= 24) by lia. unfold pos_payload. clear - H MB Z0. dml. }
    destruct b; cbn [negb].
    - assert (M1 : 24 <= r_spos r1 mod 65536) by (rewrite P1, B5; clear - MB M; dml).
      destruct (_ =? _); cbn [negb].
      + eexists _, _. split; [reflexivity|]. cbv iota. split; [assumption|]. split; [assumption|]. split; [lia|]. split; [assumption|]. split; assumption.
      + unfold fail_rec. eexists _, _. split; [reflexivity|]. cbv iota. cbn [r_spos r_failed set_failed set_rec].
        split; [destruct G1; constructor; cbn; try assumption; try lia|]. split; [exact S1|]. split; [lia|]. split; [lia|]. auto.
    - unfold FailReading. eexists _, _. split; [reflexivity|]. cbv iota.
      destruct (_ <? _); cbn [r_spos r_failed set_trunc]; (split; [destruct G1; constructor; cbn; try assumption; try lia|]; split; [exact S1|]; split; [lia|]; split; [lia|]); auto.
  Qed.

  Lemma RIBH_spec r : good n r -> r_spos r mod 65536 < 24 ->
    exists b r', ReadInnerBlockHeader hash content r = (b, r') /\ good n r' /\ same r r' /\ r_spos r <= r_spos r' /\
      pos_payload (r_spos r') = pos_payload (r_spos r) /\
      (if b then 24 <= r_spos r' mod 65536 /\ r_failed r' = r_failed r else r_failed r' = r_failed r \/ r_failed r' = true).
  Proof.
    intros G M. unfold ReadInnerBlockHeader. destruct (RBH_spec r G M) as (b & r1 & -> & G1 & S1 & L1 & P1 & X).
    destruct b; cbn [negb]; [|eexists _, _; split; [reflexivity|]; auto 10].
    destruct (_ =? _); cbn [negb]; [eexists _, _; split; [reflexivity|]; auto 10|].
    pose proof (g_spos _ _ G1).
    destruct (_ <=? _); unfold fail_rec; (eexists _, _; split; [reflexivity|]; cbv iota; cbn [r_spos r_failed set_failed set_rec];
      split; [destruct G1; constructor; try assumption; cbn [r_recpos set_failed set_rec]; try apply u64_range; try lia|]; split; [exact S1|]; split; [lia|]; split; [lia|]; auto).
  Qed.

  Lemma Rem_range p : 0 <= RemainingInBlock p < 65536.
  Proof. rewrite RemainingInBlock_eq. apply Z.mod_pos_bound. lia. Qed.

  Lemma run_payload q k : 0 <= q -> 24 <= q mod 65536 -> 0 <= k <= RemainingInBlock q -> pos_payload (q + k) = pos_payload q + k.
  Proof. intros A B C. rewrite RemainingInBlock_eq in C. apply payload_run; try lia. Qed.

  Lemma DWO r : r_pos r <= r_spos r -> good n r -> DistanceWithoutOverhead (r_pos r) (r_spos r) = dist r.
  Proof. intros A []. rewrite DistanceWithoutOverhead_eq by lia. reflexivity. Qed.
  Lemma dist_nonneg r : r_pos r <= r_spos r -> good n r -> 0 <= dist r.
  Proof. intros A []. unfold dist. pose proof (pos_payload_mono (r_pos r) (r_spos r)). lia. Qed.

  Lemma Check_spec r : good n r ->
    exists b r', CheckChunkHeader hash r = (b, r') /\ (if b then r' = r /\ hvalid (r_header r) 
      else exists k p, r' = set_failed true (set_rec k p r) /\ 0 <= p < 2 ^ 64).
  Proof.
    intros G. pose proof (g_spos _ _ G).
    unfold CheckChunkHeader, fail_rec.
    destruct (Z.eqb_spec (ch_computed_header_hash hash (r_header r)) (ch_stored_header_hash (r_header r))) as [E|E]; cbn [negb].
    2:{ eexists _, _. split; [reflexivity|]. cbv iota. eexists _, _. split; [reflexivity|lia]. }
    destruct (_ && _). { eexists _, _. split; [reflexivity|]. cbv iota. eexists _, _. split; [reflexivity|lia]. }
    destruct (_ && _). { eexists _, _. split; [reflexivity|]. cbv iota. eexists _, _. split; [reflexivity|lia]. }
    eexists _, _. split; [reflexivity|]. cbv iota. auto.
  Qed.

  Lemma header_loop_any : forall fuel r b r', ReadChunkHeader_loop hash fuel content r = Some (b, r') ->
    good n r -> r_pos r <= r_spos r -> dist r < 40 -> r_data r = [] -> r_ok r = true ->
    good n r' /\ r_pos r' = r_pos r /\ r_data r' = [] /\ r_pos r' <= r_spos r' /\ r_open r' = true /\
    (if b then r_ok r' = true /\ dist r' = 40 /\ hvalid (r_header r') else r_ok r' = true -> dist r' < 40).
  Proof.
    induction fuel as [|fuel IH]; intros r b r' E G L D DT OK; [discriminate|]. cbn [ReadChunkHeader_loop] in E.
    assert (STEP : exists b1 r1, (if 0 <? RemainingInBlockHeader (r_spos r) then ReadInnerBlockHeader hash content r else (true, r)) = (b1, r1) /\
       good n r1 /\ same r r1 /\ r_spos r <= r_spos r1 /\ pos_payload (r_spos r1) = pos_payload (r_spos r) /\
       (if b1 then 24 <= r_spos r1 mod 65536 /\ r_failed r1 = r_failed r else r_failed r1 = r_failed r \/ r_failed r1 = true)).
    { destruct (Z_lt_ge_dec (r_spos r mod 65536) 24) as [M|M].
      - rewrite RemHeader by lia. destruct (Z.ltb_spec 0 (24 - r_spos r mod 65536)); [|lia]. apply RIBH_spec; assumption.
      - rewrite RemHeader0 by lia. change (0 <? 0) with false. cbv iota. eexists _, _. split; [reflexivity|].
        split; [assumption|]. split; [repeat split|]. split; [lia|]. split; [reflexivity|]. split; [lia|reflexivity]. }
    destruct STEP as (b1 & r1 & EQ & G1 & (S1 & S2 & S3 & S4) & L1 & P1 & X). rewrite EQ in E. clear EQ.
    apply ok_split in OK as [OK1 OK2].
    assert (D1 : dist r1 = dist r) by (unfold dist; rewrite S1, P1; reflexivity).
    destruct b1; cbn [negb] in E.
    2:{ inversion E; subst b r'. split; [assumption|]. split; [assumption|]. split; [congruence|]. split; [lia|]. split; [congruence|]. intros _. lia. }
    destruct X as [M1 F1]. 
    assert (L2 : r_pos r1 <= r_spos r1) by lia.
    pose proof (dist_nonneg r1 L2 G1) as D0. rewrite DWO in E by assumption.
    unfold ChunkHeaderSize in E. rewrite (u64_small (40 - dist r1)) in E by lia.
    pose proof (Rem_range (r_spos r1)) as RB.
    remember (Z.min (40 - dist r1) (RemainingInBlock (r_spos r1))) as k.
    pose proof (g_spos _ _ G1) as SP.
    destruct (src_read_spec (r_spos r1) k SP ltac:(lia)) as (b2 & got & spos' & EQ & B1 & B2 & B3 & B4 & B5). rewrite EQ in E. clear EQ.
    pose proof (zlen_nonneg got) as Z0.
    remember (set_spos spos' (set_header (blit (dist r1) got (r_header r1)) r1)) as r2.
    assert (G2 : good n r2).
    { subst r2. destruct G1. constructor; cbn [r_header r_block r_spos r_pos r_recpos set_spos set_header]; try assumption; try lia.
      - rewrite zlen_blit; lia.
      - apply bytes_blit; assumption. }
    assert (P2 : r_pos r2 = r_pos r /\ r_data r2 = [] /\ r_open r2 = true /\ r_failed r2 = false /\ r_spos r2 = spos') by (subst r2; cbn; repeat split; congruence).
    destruct P2 as (P2 & P3 & P4 & P5 & P6).
    assert (D2 : dist r2 = dist r1 + zlen got).
    { unfold dist. rewrite P2, P6, B2, S1. rewrite run_payload by lia. lia. }
    destruct b2; cbn [negb] in E.
    2:{ unfold FailReading in E. inversion E; subst b r'. clear E.
        assert (GG : forall r3, r3 = (if r_pos r2 <? r_spos r2 then set_trunc true r2 else r2) -> good n r3 /\ r_pos r3 = r_pos r /\ r_data r3 = [] /\ r_spos r3 = spos' /\ r_open r3 = true).
        { intros r3 ->. destruct (_ <? _); [|auto]. split; [destruct G2; constructor; cbn; try assumption; try lia|]. cbn. auto. }
        destruct (GG _ eq_refl) as (X1 & X2 & X3 & X4 & X5). split; [assumption|]. split; [assumption|]. split; [assumption|].
        split; [lia|]. split; [assumption|]. intros _. unfold dist. rewrite X2, X4. unfold dist in *. rewrite P2, P6 in D2. lia. }
    destruct (Z.ltb_spec k (40 - dist r1)) as [KL|KL].
    - apply IH in E; [|assumption|lia|lia|assumption|apply ok_split; auto]. rewrite P2 in E. exact E.
    - destruct (Check_spec r2 G2) as (b3 & r3 & EQ & X). rewrite EQ in E. injection E as <- <-. destruct b3.
      + destruct X as [-> X]. split; [assumption|]. split; [assumption|]. split; [assumption|]. split; [lia|]. split; [assumption|].
        split; [apply ok_split; auto|]. split; [lia|exact X].
      + destruct X as (kk & pp & -> & PPR). split; [destruct G2; constructor; cbn; try assumption; try lia|]. split; [exact P2|]. split; [exact P3|]. split; [cbn; lia|].
        split; [exact P4|]. intros C. apply ok_split in C. cbn in C. destruct C; discriminate.
  Qed.

  Lemma pull_any r b r' : PullChunkHeader hash content r = Some (b, r') -> Inv n r ->
    Inv n r' /\ (b = true -> r_ok r' = true /\ r_pos r' <= r_spos r' /\ 40 <= dist r').
  Proof.
    intros E [G HJ]. unfold PullChunkHeader in E. destruct (r_ok r) eqn:OK; cbn [negb] in E.
    2:{ inversion E; subst b r'. split; [split; [assumption|congruence]|discriminate]. }
    specialize (HJ eq_refl). cbn [set_trunc r_spos r_pos] in E.
    assert (G1 : good n (set_trunc false r)) by (destruct G; constructor; assumption).
    assert (J1 : J (set_trunc false r)) by (destruct HJ; constructor; assumption).
    assert (OK1 : r_ok (set_trunc false r) = true) by exact OK.
    destruct (Z.ltb_spec (r_spos r) (r_pos r)) as [LT|GE].
    - destruct (_ <=? _); unfold fail_rec in E; inversion E; subst b r'.
      + split; [split; auto|discriminate].
      + split; [|discriminate]. apply Inv_bad; [|unfold r_ok; cbn; apply andb_false_r].
        destruct G; constructor; cbn; try assumption; lia.
    - pose proof (DWO (set_trunc false r) GE G1) as DW. cbn [set_trunc r_spos r_pos] in DW. rewrite DW in E. clear DW.
      change ChunkHeaderSize with 40 in E. destruct (Z.ltb_spec (dist (set_trunc false r)) 40) as [D|D].
      + unfold ReadChunkHeader in E. eapply header_loop_any in E; try assumption; [|apply (j_lo _ J1); assumption].
        destruct E as (E1 & E2 & E3 & E4 & E5 & E6). destruct b.
        * destruct E6 as (E6 & E7 & E8). split; [|intros _; split; [assumption|lia]].
          split; [assumption|intros _]. constructor; [intros; lia|]. intros _ _. split; [assumption|]. rewrite E3.
          change (zlen (@nil Z)) with 0. apply ch_ranges. apply E1.
        * split; [|discriminate]. split; [assumption|]. intros OK2. apply J_nil; [assumption|]. auto.
      + inversion E; subst b r'. split; [split; auto|]. intros _. split; [assumption|]. split; [exact GE|lia].
  Qed.

  Lemma data_loop_any ce : forall fuel r b r', ReadData_loop hash fuel content ce r = Some (b, r') ->
    good n r -> r_pos r <= r_spos r -> 40 <= dist r -> r_ok r = true -> zlen (r_data r) <= ch_data_size (r_header r) ->
    good n r' /\ r_pos r' = r_pos r /\ r_header r' = r_header r /\ r_spos r <= r_spos r' /\ zlen (r_data r') <= ch_data_size (r_header r) /\
    (b = true -> r_ok r' = true /\ zlen (r_data r') = ch_data_size (r_header r)).
  Proof.
    induction fuel as [|fuel IH]; intros r b r' E G L D OK DT; cbn [ReadData_loop] in E.
    { destruct (Z.ltb_spec (zlen (r_data r)) (ch_data_size (r_header r))); [discriminate|]. inversion E; subst b r'.
      split; [assumption|]. split; [reflexivity|]. split; [reflexivity|]. split; [lia|]. split; [assumption|]. intros _. split; [assumption|lia]. }
    destruct (Z.ltb_spec (zlen (r_data r)) (ch_data_size (r_header r))) as [LT|GE].
    2:{ inversion E; subst b r'.
      split; [assumption|]. split; [reflexivity|]. split; [reflexivity|]. split; [lia|]. split; [assumption|]. intros _. split; [assumption|lia]. }
    match type of E with (let '(ok, r) := ?e in _) = _ => assert (STEP : exists b1 r1, e = (b1, r1) /\
       good n r1 /\ same r r1 /\ r_spos r <= r_spos r1 /\ pos_payload (r_spos r1) = pos_payload (r_spos r) /\
       (if b1 then 24 <= r_spos r1 mod 65536 /\ r_failed r1 = r_failed r else r_failed r1 = r_failed r \/ r_failed r1 = true)) end.
    { destruct (Z_lt_ge_dec (r_spos r mod 65536) 24) as [M|M].
      - rewrite RemHeader by lia. destruct (Z.ltb_spec 0 (24 - r_spos r mod 65536)); [|lia].
        destruct (RIBH_spec r G M) as (b1 & r1 & -> & G1 & S1 & L1 & P1 & X). 
        destruct b1; cbn [negb]; [|eexists _, _; split; [reflexivity|]; auto 10].
        destruct (_ =? _); cbn [negb]; [eexists _, _; split; [reflexivity|]; auto 10|].
        unfold fail_rec; (eexists _, _; split; [reflexivity|]; cbv iota; cbn [r_spos r_failed set_failed set_rec];
          split; [destruct G1; constructor; cbn; try assumption; try lia|]; split; [exact S1|]; split; [lia|]; split; [lia|]; auto).
      - rewrite RemHeader0 by lia. change (0 <? 0) with false. cbv iota. eexists _, _. split; [reflexivity|].
        split; [assumption|]. split; [repeat split|]. split; [lia|]. split; [reflexivity|]. split; [lia|reflexivity]. }
    destruct STEP as (b1 & r1 & EQ & G1 & (S1 & S2 & S3 & S4) & L1 & P1 & X). rewrite EQ in E. clear EQ.
    apply ok_split in OK as [OK1 OK2].
    destruct b1; cbn [negb] in E.
    2:{ inversion E; subst b r'. split; [assumption|]. split; [assumption|]. split; [assumption|]. split; [assumption|]. split; [rewrite S3; assumption|]. discriminate. }
    destruct X as [M1 F1]. pose proof (Rem_range (r_spos r1)) as RB.
    rewrite S3 in E.
    remember (Z.min (ch_data_size (r_header r) - zlen (r_data r)) (RemainingInBlock (r_spos r1))) as k.
    pose proof (g_spos _ _ G1) as SP.
    destruct (src_read_spec (r_spos r1) k SP ltac:(lia)) as (b2 & got & spos' & EQ & B1 & B2 & B3 & B4 & B5). rewrite EQ in E. clear EQ.
    pose proof (zlen_nonneg got) as Z0.
    remember (set_spos spos' (set_data (r_data r ++ got) r1)) as r2.
    assert (G2 : good n r2).
    { subst r2. destruct G1. constructor; cbn [r_header r_block r_spos r_pos r_recpos set_spos set_data]; try assumption; lia. }
    assert (P2 : r_pos r2 = r_pos r /\ r_header r2 = r_header r /\ r_data r2 = r_data r ++ got /\ r_open r2 = true /\ r_failed r2 = false /\ r_spos r2 = spos') by (subst r2; cbn; repeat split; congruence).
    destruct P2 as (P2 & PH & P3 & P4 & P5 & P6).
    assert (ZD : zlen (r_data r2) <= ch_data_size (r_header r)) by (rewrite P3, zlen_app; lia).
    destruct b2; cbn [negb] in E.
    2:{ unfold FailReading in E. inversion E; subst b r'. clear E.
        destruct (_ <? _); [|split; [assumption|]; split; [assumption|]; split; [assumption|]; split; [lia|]; split; [assumption|discriminate]].
        split; [destruct G2; constructor; cbn; try assumption; try lia|]. cbn [set_trunc r_pos r_header r_spos r_data].
        split; [assumption|]; split; [assumption|]; split; [lia|]; split; [assumption|discriminate]. }
    apply IH in E; [|assumption|lia| |apply ok_split; auto|rewrite PH; assumption].
    - rewrite P2, PH in E. destruct E as (E1 & E2 & E3 & E4 & E5). split; [assumption|]. split; [assumption|]. split; [assumption|]. split; [lia|exact E5].
    - unfold dist in *. rewrite P2, P6. pose proof (g_pos _ _ G). pose proof (pos_payload_mono (r_spos r1) spos' ltac:(lia)). lia.
  Qed.

  Definition chunk_valid (c : chunk) : Prop :=
    zlen (c_header c) = 40 /\ bytes (c_header c) /\ hvalid (c_header c) /\
    zlen (c_data c) = ch_data_size (c_header c) /\ hash (c_data c) = ch_data_hash (c_header c).

  Lemma ChunkEnd_range ds nr p : 0 <= ChunkEnd ds nr p < 2 ^ 64.
  Proof.
    unfold ChunkEnd, AddWithOverhead, RoundUpToPossibleChunkBoundary. 
    match goal with |- 0 <= Z.max (u64 ?a) (u64 ?b) < _ => pose proof (u64_range a); pose proof (u64_range b) end. lia.
  Qed.
  Lemma seek_spec p : 0 <= p -> exists b s, src_seek content p = (b, s) /\ 0 <= s <= n /\ (if b then s = p else s = n /\ n < p).
  Proof.
    intros. unfold src_seek. pose proof (zlen_nonneg content). destruct (Z.leb_spec p n); eexists _, _; (split; [reflexivity|]); cbv iota; lia.
  Qed.

  Lemma read_any r o r' : ReadChunk hash content r = Some (o, r') -> Inv n r ->
    Inv n r' /\ forall c, o = Some c -> chunk_valid c.
  Proof.
    intros E I. unfold ReadChunk in E. destruct (PullChunkHeader hash content r) as [[[|] r1]|] eqn:EP; [| |discriminate].
    2:{ inversion E; subst o r'. split; [|discriminate]. eapply pull_any in EP; [|eassumption]. apply EP. }
    eapply pull_any in EP; [|eassumption]. destruct EP as ((G1 & J1) & X). destruct (X eq_refl) as (OK & L & D). specialize (J1 OK).
    remember (ChunkEnd (ch_data_size (r_header r1)) (ch_num_records (r_header r1)) (r_pos r1)) as ce.
    assert (CE : 0 <= ce < 2 ^ 64) by (subst ce; apply ChunkEnd_range).
    destruct (j_hi _ J1 L D) as [HV HD].
    destruct (ReadData_loop hash (S (length content)) content ce r1) as [[[|] r2]|] eqn:ED; [| |discriminate].
    2:{ eapply data_loop_any in ED; try eassumption. destruct ED as (E1 & E2 & E3 & E4 & E5 & _). inversion E; subst o r'. split; [|discriminate].
        split; [assumption|]. intros _. assert (40 <= dist r2).
        { unfold dist in *. rewrite E2. pose proof (g_pos _ _ G1). pose proof (pos_payload_mono (r_spos r1) (r_spos r2) ltac:(lia)). lia. }
        constructor; [intros; lia|]. intros _ _. rewrite E3. auto. }
    eapply data_loop_any in ED; try eassumption. destruct ED as (E1 & E2 & E3 & E4 & E5 & E6). destruct (E6 eq_refl) as [OK2 ZD].
    destruct (seek_spec ce ltac:(lia)) as (b & s & EQ & S1 & S2). rewrite EQ in E. clear EQ. destruct b; cbn [negb] in E.
    2:{ inversion E; subst o r'. split; [|discriminate].
        assert (I2 : Inv n (set_spos s r2)).
        { split; [destruct E1; constructor; cbn; try assumption; lia|]. intros _.
          assert (40 <= dist (set_spos s r2)).
          { unfold dist in *. cbn [r_spos r_pos set_spos]. rewrite E2. pose proof (g_pos _ _ G1). pose proof (g_spos _ _ E1). pose proof (pos_payload_mono (r_spos r1) s ltac:(lia)). lia. }
          constructor; [intros; lia|]. intros _ _. cbn [r_header r_data set_spos]. rewrite E3. auto. }
        unfold FailReading. cbn [snd]. destruct (_ <? _); [|exact I2]. destruct I2 as [[] JJ]. split; [constructor; assumption|].
        intros O. destruct (JJ O). constructor; assumption. }
    cbn [r_data r_header set_spos] in E. destruct (Z.eqb_spec (hash (r_data r2)) (ch_data_hash (r_header r2))) as [HH|HH]; cbn [negb] in E; inversion E; subst o r'.
    - split.
      + split; [destruct E1; constructor; cbn; try assumption; lia|]. intros _. apply J_nil; [reflexivity|]. intros _.
        unfold dist. cbn [r_spos r_pos set_data set_pos set_spos]. rewrite S2. lia.
      + intros c [= <-]. split; [apply E1|]. split; [apply E1|]. cbn [c_header c_data]. rewrite E3 in *. auto.
    - split; [|discriminate]. apply Inv_bad; [|unfold r_ok, fail_rec; cbn; apply andb_false_r].
      unfold fail_rec. cbn [snd]. destruct E1; constructor; cbn; try assumption; lia.
  Qed.

  Lemma recover_any rb : forall fuel m r o r', Recover_loop hash fuel content rb m r = Some (o, r') -> good n r ->
    (m = find_chunk -> r_data r = []) -> Inv n r'.
  Proof.
    induction fuel as [|fuel IH]; intros m r o r' E G DT; pose proof (g_rec _ _ G) as RP; [discriminate|]. cbn [Recover_loop] in E. destruct m.
    - remember (set_data [] (set_failed false (set_rec kNo 0 r))) as r1.
      assert (G1 : good n (set_pos (r_recpos r) r1)) by (subst r1; destruct G; constructor; cbn; try assumption; lia).
      assert (D1 : r_data (set_pos (r_recpos r) r1) = []) by (subst r1; reflexivity).
      assert (CONT : Recover_loop hash fuel content rb find_chunk (set_pos (r_recpos r) r1) = Some (o, r') -> Inv n r').
      { intros E'. apply IH in E'; auto. }
      destruct (r_rec r); [apply CONT; exact E| |apply CONT; exact E]. 
      destruct (r_ok (set_pos (r_recpos r) r1)) eqn:OK.
      2:{ inversion E; subst o r'. apply Inv_bad; assumption. }
      cbn [r_pos set_pos] in E. destruct (seek_spec (r_recpos r) ltac:(lia)) as (b & s & EQ & S1 & S2). rewrite EQ in E. clear EQ.
      assert (G2 : good n (set_spos s (set_pos (r_recpos r) r1))) by (destruct G1; constructor; cbn; try assumption; lia).
      assert (I2 : Inv n (set_spos s (set_pos (r_recpos r) r1))).
      { split; [assumption|]. intros _. apply J_nil; [assumption|]. unfold dist. cbn [r_spos r_pos set_pos set_spos]. destruct b; [subst s; lia|lia]. }
      destruct b; cbn [negb] in E; [|inversion E; subst o r'; assumption].
      destruct (negb _); [|inversion E; subst o r'; assumption].
      apply IH in E; [assumption| |discriminate]. destruct G2; constructor; cbn; assumption.
    - specialize (DT eq_refl). remember (u64 (r_pos r + RemainingInBlock (r_pos r))) as p1.
      assert (P1 : 0 <= p1 < 2 ^ 64) by (subst p1; apply u64_range).
      cbn [r_pos set_pos] in E. destruct (seek_spec p1 ltac:(lia)) as (b & s & EQ & S1 & S2). rewrite EQ in E. clear EQ.
      remember (set_spos s (set_pos p1 r)) as r1.
      assert (G1 : good n r1) by (subst r1; destruct G; constructor; cbn; try assumption; lia).
      assert (D1 : r_data r1 = []) by (subst r1; exact DT).
      assert (PP : r_pos r1 = p1 /\ r_spos r1 = s /\ r_recpos r1 = r_recpos r) by (subst r1; auto). destruct PP as (PP1 & PP2 & PP3).
      destruct b; cbn [negb] in E.
      2:{ inversion E; subst o r'. split; [assumption|]. intros _. apply J_nil; [assumption|]. lia. }
      assert (MOD : r_spos r1 mod 65536 = 0).
      { rewrite PP2, S2, Heqp1, RemainingInBlock_eq. unfold u64. clear. dml. }
      destruct (ReadBlockHeader hash content r1) as [bb r2] eqn:ER.
      destruct (RBH_spec r1 G1 ltac:(lia)) as (b & r2' & EQ & G2 & (Q1 & Q2 & Q3 & Q4) & L2 & P2 & X). rewrite ER in EQ. injection EQ as <- <-.
      assert (I2 : Inv n r2).
      { split; [assumption|]. intros _. apply J_nil; [congruence|]. intros _. unfold dist. rewrite P2, Q1, PP1, PP2, S2. lia. }
      destruct bb; cbn [negb] in E.
      2:{ destruct (r_rec r2); [inversion E; subst o r'; assumption| |]; (apply IH in E; [assumption|assumption|discriminate]). }
      destruct (_ =? 0); [inversion E; subst o r'; assumption|].
      remember (u64 (r_pos r2 + bh_next_chunk (r_block r2))) as p2.
      assert (P2r : 0 <= p2 < 2 ^ 64) by (subst p2; apply u64_range). cbn [r_pos set_pos] in E.
      destruct (negb _).
      { apply IH in E; [assumption| |cbn; congruence]. destruct G2; constructor; cbn; try assumption; lia. }
      destruct (seek_spec p2 ltac:(lia)) as (b & s' & EQ & S1' & S2'). rewrite EQ in E. clear EQ.
      assert (I3 : Inv n (set_spos s' (set_pos p2 r2))).
      { split; [destruct G2; constructor; cbn; try assumption; lia|]. intros _. apply J_nil; [cbn; congruence|]. unfold dist. cbn [r_spos r_pos set_pos set_spos].
        destruct b; [subst s'; lia|lia]. }
      destruct b; cbn [negb] in E; inversion E; subst o r'; assumption.
  Qed.

  Lemma bad_fail k p r : good n r -> 0 <= p < 2 ^ 64 -> Inv n (snd (fail_rec k p r)).
  Proof.
    intros G P. apply Inv_bad; [|unfold r_ok, fail_rec; cbn; apply andb_false_r]. unfold fail_rec. cbn [snd].
    destruct G; constructor; cbn; assumption.
  Qed.
  Lemma FailSeeking_any r : good n r -> Inv n (snd (FailSeeking r)).
  Proof. intros G. apply bad_fail; [assumption|]. pose proof (g_spos _ _ G). lia. Qed.
  Lemma good_trunc b r : good n r -> good n (set_trunc b r).
  Proof. intros []. constructor; assumption. Qed.
  Lemma good_data d r : good n r -> good n (set_data d r).
  Proof. intros []. constructor; assumption. Qed.
  Lemma good_at p s r : good n r -> 0 <= p < 2 ^ 64 -> 0 <= s <= n -> good n (set_spos s (set_pos p r)).
  Proof. intros []. constructor; cbn; try assumption. Qed.

  Lemma Seek_any p r : 0 <= p < 2 ^ 64 -> Inv n r -> Inv n (snd (Seek content p r)).
  Proof.
    intros P I. unfold Seek. destruct (negb (r_ok r)); [exact I|]. destruct (_ =? _); [exact I|].
    destruct (seek_spec p ltac:(lia)) as (b & s & -> & S1 & S2).
    assert (G1 : good n (set_spos s (set_data [] (set_pos p (set_trunc false r))))).
    { destruct I as [[] _]. constructor; cbn; try assumption; lia. }
    destruct b; cbn [negb]; [|apply FailSeeking_any; assumption].
    destruct (negb _); [apply bad_fail; assumption|]. cbn [snd]. split; [assumption|]. intros _. apply J_nil; [reflexivity|].
    intros _. unfold dist. cbn. rewrite S2. lia.
  Qed.

  Lemma to_loop_any w q : forall fuel p sk r b r', SeekToChunk_loop hash fuel content w q p sk r = Some (b, r') ->
    0 <= p < 2 ^ 64 -> good n r -> r_data r = [] -> r_ok r = true ->
    (sk = true -> r_pos r <= r_spos r /\ dist r < 40) -> Inv n r'.
  Proof.
    induction fuel as [|fuel IH]; intros p sk r b r' E P G DT OK SK; [discriminate|]. cbn [SeekToChunk_loop] in E.
    assert (STEP : exists b1 r1, (if sk then (true, r) else let '(oks, spos') := src_seek content p in (oks, set_spos spos' (set_pos p r))) = (b1, r1) /\
       good n r1 /\ r_data r1 = [] /\ r_ok r1 = true /\ (b1 = true -> r_pos r1 <= r_spos r1 /\ dist r1 < 40)).
    { destruct sk.
      - eexists _, _. split; [reflexivity|]. auto.
      - cbv zeta. destruct (seek_spec p ltac:(lia)) as (b1 & s & -> & S1 & S2). eexists _, _. split; [reflexivity|].
        split; [apply good_at; assumption|]. split; [assumption|]. split; [assumption|]. intros ->. subst s. unfold dist. cbn. lia. }
    destruct STEP as (b1 & r1 & EQ & G1 & D1 & OK1 & X). rewrite EQ in E. clear EQ.
    destruct b1; cbn [negb] in E; [|inversion E; subst b r'; apply FailSeeking_any; assumption].
    destruct (X eq_refl) as [L D].
    destruct (_ <=? _). { inversion E; subst b r'. split; [assumption|]. intros _. apply J_nil; auto. }
    destruct (ReadChunkHeader hash content r1) as [[[|] r2]|] eqn:ER; [| |discriminate];
      (eapply header_loop_any in ER; try eassumption; destruct ER as (E1 & E2 & E3 & E4 & E5 & E6)).
    - destruct E6 as (E6 & E7 & E8).
      assert (I2 : Inv n r2).
      { split; [assumption|]. intros _. constructor; [intros; lia|]. intros _ _. split; [assumption|]. rewrite E3. change (zlen (@nil Z)) with 0.
        apply ch_ranges. apply E1. }
      assert (CE := ChunkEnd_range (ch_data_size (r_header r2)) (ch_num_records (r_header r2)) (r_pos r2)).
      destruct w; [destruct (_ <? _)|destruct (_ <? _)|]; try (inversion E; subst b r'; assumption); (apply IH in E; auto; discriminate).
    - destruct (negb (r_ok r2)) eqn:OK2; inversion E; subst b r'.
      + apply negb_true_iff in OK2. apply Inv_bad; assumption.
      + refine (FailSeeking_any _ (good_trunc false _ _)). assumption.
  Qed.

  Lemma to_block_any w q bb fuel r b r' : SeekToChunk_block hash fuel content w q bb r = Some (b, r') ->
    0 <= bb < 2 ^ 64 -> bb mod 65536 = 0 -> good n r -> r_ok r = true -> Inv n r'.
  Proof.
    intros E B BM G OK. unfold SeekToChunk_block in E.
    destruct (seek_spec bb ltac:(lia)) as (b1 & s & EQ & S1 & S2). rewrite EQ in E. clear EQ.
    remember (set_spos s (set_data [] (set_pos bb r))) as r1.
    assert (G1 : good n r1) by (subst r1; destruct G; constructor; cbn; try assumption).
    assert (PP : r_pos r1 = bb /\ r_spos r1 = s /\ r_data r1 = [] /\ r_ok r1 = true) by (subst r1; auto). destruct PP as (PP1 & PP2 & PP3 & PP4).
    destruct b1; cbn [negb] in E; [|inversion E; subst b r'; apply FailSeeking_any; assumption].
    destruct (RBH_spec r1 G1) as (b1 & r2 & EQ & G2 & (Q1 & Q2 & Q3 & Q4) & L2 & P2 & X); [rewrite PP2, S2; lia|]. rewrite EQ in E. clear EQ.
    assert (D2 : dist r2 = 0) by (unfold dist; rewrite P2, Q1, PP1, PP2, S2; lia).
    destruct b1; cbn [negb] in E.
    2:{ destruct (negb (r_ok r2)) eqn:OK2.
        - inversion E; subst b r'. apply negb_true_iff in OK2. apply Inv_bad; assumption.
        - destruct (_ && _); inversion E; subst b r'; [|refine (FailSeeking_any _ (good_trunc false _ _)); assumption].
          split; [assumption|]. intros _. apply J_nil; [congruence|lia]. }
    assert (OK2 : r_ok r2 = true). { apply ok_split in PP4. apply ok_split. destruct X as [_ X]. rewrite Q4, X. exact PP4. }
    destruct (_ =? 0).
    { apply to_loop_any in E; try assumption; try lia; try congruence; lia. }
    cbv zeta in E. match type of E with (if ?i && _ then _ else _) = _ => remember i as ins end.
    pose proof (g_spos _ _ G2) as SP2. pose proof (g_bb _ _ G2) as BB2. destruct (bh_ranges _ BB2) as (BR & _).
    destruct (ins && _) eqn:EI; [inversion E; subst b r'; apply bad_fail; [assumption|lia]|].
    destruct (negb _); [inversion E; subst b r'; apply bad_fail; [assumption|lia]|].
    apply to_loop_any in E; try assumption; [|congruence|discriminate].
    destruct ins; [|apply u64_range]. cbn [andb] in EI. apply Z.ltb_ge in EI. lia.
  Qed.

  Lemma to_any w q r b r' : SeekToChunk hash content w q r = Some (b, r') -> 0 <= q < 2 ^ 64 -> Inv n r -> Inv n r'.
  Proof.
    intros E Q I. unfold SeekToChunk in E. destruct (r_ok r) eqn:OK; cbn [negb] in E; [|inversion E; subst b r'; assumption].
    destruct (_ =? _); [inversion E; subst b r'; assumption|]. cbn [r_pos set_trunc] in E.
    assert (BB : 0 <= RoundDownToBlockBoundary q < 2 ^ 64 /\ RoundDownToBlockBoundary q mod 65536 = 0).
    { unfold RoundDownToBlockBoundary. blk. clear - Q. pose proof (Z.mod_pos_bound q 65536 ltac:(lia)). pose proof (Z.mod_le q 65536 ltac:(lia) ltac:(lia)).
      split; [lia|]. dml. }
    assert (I1 : Inv n (set_trunc false r)).
    { destruct I as [G JJ]. split; [apply good_trunc; assumption|]. intros _. destruct (JJ OK). constructor; assumption. }
    destruct (_ <? _).
    - destruct (PullChunkHeader hash content (set_trunc false r)) as [[[|] r1]|] eqn:EP; [| |discriminate];
        (apply pull_any in EP; [|assumption]; destruct EP as ((G1 & J1) & X)).
      + destruct (X eq_refl) as (OK1 & L & D).
        match type of E with (if ?i then _ else _) = _ => destruct i end; [inversion E; subst b r'; split; assumption|].
        destruct (_ <? _).
        * eapply to_block_any in E; try eassumption; apply BB.
        * eapply to_loop_any in E; try eassumption; try reflexivity; [apply ChunkEnd_range|apply good_data; assumption|discriminate].
      + destruct (negb (r_ok r1)) eqn:OK1; inversion E; subst b r'.
        * apply negb_true_iff in OK1. apply Inv_bad; assumption.
        * refine (FailSeeking_any _ (good_trunc false _ _)). assumption.
    - eapply to_block_any in E; try eassumption; [apply BB|apply BB|apply I1].
  Qed.


  Lemma RunOp_any o r oc r' : op_ok o -> RunOp hash o content r = Some (oc, r') -> Inv n r -> Inv n r' /\ forall c, oc = Some c -> chunk_valid c.
  Proof.
    intros H E I. destruct o; cbn [RunOp op_ok] in *.
    - eapply read_any; eassumption.
    - destruct (PullChunkHeader hash content r) as [[b r1]|] eqn:EP; [|discriminate]. inversion E; subst oc r'. split; [|discriminate]. eapply pull_any; eassumption.
    - destruct (Recover hash content r) as [[b r1]|] eqn:EP; [|discriminate]. inversion E; subst oc r'. split; [|discriminate].
      unfold Recover in EP. destruct (r_rec r); [inversion EP; subst; assumption| |]; (eapply recover_any in EP; [assumption|apply I|discriminate]).
    - inversion E; subst oc r'. split; [|discriminate]. apply Seek_any; assumption.
    - destruct (SeekToChunk hash content w p r) as [[b r1]|] eqn:EP; [|discriminate]. inversion E; subst oc r'. split; [|discriminate]. eapply to_any; eassumption.
    - inversion E; subst oc r'. split; [|discriminate]. unfold Close. destruct I as [[] JJ]. destruct (negb (r_open r)); [split; [constructor; assumption|assumption]|].
      unfold fail_rec. destruct (r_trunc r); cbn [snd]; (apply Inv_bad; [constructor; cbn; try assumption; lia|reflexivity]).
  Qed.
  End Content.

  Lemma RunOps_any : forall ops n r cs r', growing n ops -> Inv n r -> RunOps hash ops r = Some (cs, r') -> Forall chunk_valid cs.
  Proof.
    induction ops as [|[o content] ops IH]; intros n r cs r' GR I E; cbn [RunOps growing] in *.
    - inversion E; constructor.
    - destruct GR as (H1 & H2 & H3 & H4). destruct (RunOp hash o content r) as [[oc r1]|] eqn:E1; [|discriminate].
      destruct (RunOps hash ops r1) as [[cs1 r2]|] eqn:E2; [|discriminate]. inversion E; subst cs r'. clear E.
      eapply RunOp_any in E1; try eassumption; [|lia|eapply Inv_mono; [|exact I]; lia]. destruct E1 as [I1 V].
      specialize (IH _ _ _ _ H4 I1 E2). destruct oc as [c|]; [|exact IH]. constructor; [apply V; reflexivity|exact IH].
  Qed.

  (** The chunk is exactly what the header constructor would build for its contents. *)
  Lemma split40 (h : list Z) : zlen h = 40 ->
    exists a b c d e, h = a ++ b ++ c ++ d ++ e /\ length a = 8%nat /\ length b = 8%nat /\ length c = 8%nat /\ length d = 8%nat /\ length e = 8%nat.
  Proof.
    intros H. exists (firstn 8 h), (firstn 8 (skipn 8 h)), (firstn 8 (skipn 16 h)), (firstn 8 (skipn 24 h)), (skipn 32 h).
    unfold zlen in H. rewrite !firstn_length, !skipn_length. split; [|lia].
    rewrite <- (firstn_skipn 8 h) at 1. f_equal.
    rewrite <- (firstn_skipn 8 (skipn 8 h)) at 1. f_equal. rewrite <- skipn_add. change (8 + 8)%nat with 16%nat.
    rewrite <- (firstn_skipn 8 (skipn 16 h)) at 1. f_equal. rewrite <- skipn_add. change (16 + 8)%nat with 24%nat.
    rewrite <- (firstn_skipn 8 (skipn 24 h)) at 1. f_equal. rewrite <- skipn_add. reflexivity.
  Qed.

  Lemma le8_inv l : bytes l -> length l = 8%nat -> WriteLittleEndian 8 (ReadLittleEndianArray l) = l.
  Proof.
    intros B L. rewrite WriteLittleEndian_le_bytes, ReadLittleEndianArray_val by assumption. rewrite <- L at 1. apply le_bytes_val. assumption.
  Qed.

  Lemma chunk_valid_mk c : chunk_valid c -> exists k, chunk_ok k /\ c = mk_chunk hash k.
  Proof.
    intros (H1 & H2 & H3 & H4 & H5). destruct (ch_ranges _ H2) as [R1 R2].
    destruct (split40 (c_header c) H1) as (a & b & cc & d & e & EQ & La & Lb & Lc & Ld & Le).
    exists (Chunk (ch_chunk_type (c_header c)) (ch_num_records (c_header c)) (ch_decoded_data_size (c_header c)) (c_data c)).
    assert (By : bytes a /\ bytes b /\ bytes cc /\ bytes d /\ bytes e) by (rewrite EQ, !bytes_app in H2; tauto).
    destruct By as (Ba & Bb & Bc & Bd & Be).
    assert (S8 : skipn 8 (c_header c) = b ++ cc ++ d ++ e) by (rewrite EQ; apply skipn_app_len; assumption).
    assert (S16 : skipn 16 (c_header c) = cc ++ d ++ e).
    { change 16%nat with (8 + 8)%nat. rewrite skipn_add, S8. apply skipn_app_len; assumption. }
    assert (S24 : skipn 24 (c_header c) = d ++ e).
    { change 24%nat with (16 + 8)%nat. rewrite skipn_add, S16. apply skipn_app_len; assumption. }
    assert (S32 : skipn 32 (c_header c) = e).
    { change 32%nat with (24 + 8)%nat. rewrite skipn_add, S24. apply skipn_app_len; assumption. }
    assert (F0 : firstn 8 (c_header c) = a) by (rewrite EQ; apply firstn_app_len; assumption).
    assert (F8 : firstn 8 (skipn 8 (c_header c)) = b) by (rewrite S8; apply firstn_app_len; assumption).
    assert (F16 : firstn 8 (skipn 16 (c_header c)) = cc) by (rewrite S16; apply firstn_app_len; assumption).
    assert (F24 : firstn 8 (skipn 24 (c_header c)) = d) by (rewrite S24; apply firstn_app_len; assumption).
    assert (F32 : firstn 8 (skipn 32 (c_header c)) = e) by (rewrite S32, <- Le; apply firstn_all).
    pose proof (ReadLE8_range d Bd) as RD. rewrite <- Ld, firstn_all in RD.
    pose proof (ReadLE8_range e Be) as RE. rewrite <- Le, firstn_all in RE.
    split.
    - unfold chunk_ok. cbn [k_type k_nrec k_dsize k_data]. split; [|split; [assumption|split; [|lia]]].
      + unfold ch_chunk_type. change 255 with (2 ^ 8 - 1). rewrite land_ones_mod by lia. apply Z.mod_pos_bound. lia.
      + unfold ch_decoded_data_size. rewrite F32. exact RE.
    - destruct c as [h dt]. cbn [c_header c_data] in *. unfold mk_chunk. cbn [k_type k_nrec k_dsize k_data]. f_equal.
      unfold ChunkHeader.
      assert (E1 : WriteLittleEndian 8 (u64 (zlen dt)) = b).
      { rewrite H4. rewrite u64_small by lia. unfold ch_data_size. rewrite F8. apply le8_inv; assumption. }
      assert (E2 : WriteLittleEndian 8 (hash dt) = cc).
      { rewrite H5. unfold ch_data_hash. rewrite F16. apply le8_inv; assumption. }
      assert (E3 : WriteLittleEndian 8 (Z.lor (ch_chunk_type h) (u64 (Z.shiftl (ch_num_records h) 8))) = d).
      { unfold ch_chunk_type, ch_num_records in *. rewrite F24 in *. remember (ReadLittleEndianArray d) as v.
        replace (Z.lor (Z.land v 255) (u64 (Z.shiftl (Z.shiftr v 8) 8))) with v.
        - subst v. apply le8_inv; assumption.
        - rewrite u64_small.
          + change 255 with (2 ^ 8 - 1). rewrite land_ones_mod by lia. rewrite lor_shl_add by (try (apply Z.mod_pos_bound; lia); lia).
            rewrite Z.shiftr_div_pow2 by lia. pose proof (Z.div_mod v (2 ^ 8) ltac:(lia)). lia.
          + rewrite Z.shiftl_mul_pow2 by lia. change (2 ^ 64) with (2 ^ 56 * 2 ^ 8). split; [|apply Z.mul_lt_mono_pos_r]; lia. }
      assert (E4 : WriteLittleEndian 8 (ch_decoded_data_size h) = e).
      { unfold ch_decoded_data_size. rewrite F32. apply le8_inv; assumption. }
      rewrite E1, E2, E3, E4. unfold hvalid, ch_computed_header_hash, ch_stored_header_hash in H3. rewrite S8, F0 in H3.
      rewrite H3. rewrite le8_inv by assumption. exact EQ.
  Qed.

  Lemma Init_Inv p n : 0 <= p <= n -> n < 2 ^ 62 -> Inv n (InitializeReader p).
  Proof.
    intros P N. unfold InitializeReader.
    assert (G : good n (MkReader p p (zeros 40) [] (zeros 24) true false false kNo 0)).
    { constructor; cbn [r_header r_block r_spos r_pos r_recpos]; try lia; try reflexivity; apply bytes_zeros. }
    destruct (IsPossibleChunkBoundary p).
    - split; [exact G|]. intros _. apply J_nil; [reflexivity|]. unfold dist. cbn. lia.
    - apply Inv_bad; [destruct G; constructor; cbn; try assumption; lia|reflexivity].
  Qed.

  Theorem any_calls p n ops cs r : 0 <= p <= n -> n < 2 ^ 62 -> growing n ops ->
    RunOps hash ops (InitializeReader p) = Some (cs, r) ->
    Forall (fun c => exists k, chunk_ok k /\ c = mk_chunk hash k) cs.
  Proof.
    intros P N G E. eapply Forall_impl; [intros c; apply chunk_valid_mk|]. eapply RunOps_any; [exact G|exact (Init_Inv p n P N)|exact E].
  Qed.
End Any.
