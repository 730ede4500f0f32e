(** Reading records with recovery. *)
From Verif Require Import Base.Bytes Model.Endian Model.Block Model.Chunk Model.SimpleChunk Model.ChunkReader Model.ChunkDecoder Model.RecordReader Model.RecordRecovery
  Spec.BlockSpec Spec.FileSpec Spec.ChunkLink Spec.RecoverSpec Spec.RecordsSpec Spec.RecordRecoverSpec Proof.BlockProof Proof.ChunkReaderProof Proof.StaticRead Proof.RecoverProof Proof.SimpleChunkProof Proof.DecoderProof.

Section Recovery.
  Variable hash : list Z -> Z.
  Variable decompress : Z -> list Z -> option (list Z).
  Variable transpose_decode : list Z -> Z -> Z -> option (list Z * list Z).
  Hypothesis decompress_bytes : forall t l l', decompress t l = Some l' -> bytes l'.
  Hypothesis transposed_sound : sound_transposed transpose_decode.
  Variable content : list Z.
  Notation Decode := (Decode decompress transpose_decode).
  Notation decoded := (decoded decompress transpose_decode).
  Notation events_of := (events_of decompress transpose_decode).
  Notation RR_ReadChunk := (RR_ReadChunk hash decompress transpose_decode content).
  Notation RR_ReadRecord_loop := (fun fuel => RR_ReadRecord_loop hash decompress transpose_decode fuel content).
  Notation RR_Recover := (RR_Recover hash content).

  Definition chunk_bytes (c : chunk) : Prop := bytes (c_header c) /\ zlen (c_header c) = 40 /\ bytes (c_data c).
  Lemma decode_sound_any c dec : chunk_bytes c -> Decode c = (true, dec) -> exists rs, dec = holds rs 0 /\ zlen rs = ch_num_records (c_header c).
  Proof.
    intros (B1 & B2 & B3) E. destruct (Z.eq_dec (ch_chunk_type (c_header c)) kTransposed) as [K|K].
    - unfold ChunkDecoder.Decode in E. destruct (Parse decompress transpose_decode (c_header c) (c_data c)) as [[limits values]|] eqn:P; [|discriminate E]. injection E as <-.
      unfold Parse in P. rewrite K in P. change (kTransposed =? kFileSignature) with false in P. change (kTransposed =? kFileMetadata) with false in P.
      change (kTransposed =? kPadding) with false in P. change (kTransposed =? kSimple) with false in P. change (kTransposed =? kTransposed) with true in P. cbv iota in P.
      destruct (transposed_sound _ _ _ _ _ P) as (rs & -> & -> & L & _). exists rs. split; [apply holds_0|exact L].
    - destruct (decode_any decompress transpose_decode decompress_bytes c dec B1 B2 B3 K E) as (rs & -> & L & _). exists rs. split; [reflexivity|exact L].
  Qed.
  Lemma decode_cases c : chunk_bytes c ->
    (exists rs, Decode c = (true, holds rs 0) /\ decoded c = Some rs /\ zlen rs = ch_num_records (c_header c)) \/
    (exists dec, Decode c = (false, dec) /\ dc_index dec = 0 /\ decoded c = None).
  Proof.
    intros B. destruct (Decode c) as [[|] dec] eqn:E.
    - destruct (decode_sound_any c dec B E) as (rs & -> & L). left. exists rs. split; [reflexivity|]. split; [|exact L].
      unfold RecordRecoverSpec.decoded. rewrite E. rewrite ReadAllRecords_holds; [reflexivity|pose proof (zlen_nonneg rs); lia|].
      unfold dc_num_records. cbn [dc_limits holds]. rewrite zlen_ends. lia.
    - right. exists dec. split; [reflexivity|]. unfold RecordRecoverSpec.decoded. rewrite E. split; [|reflexivity].
      unfold ChunkDecoder.Decode in E. destruct (Parse decompress transpose_decode (c_header c) (c_data c)) as [[limits values]|]; [discriminate E|]. injection E as <-. reflexivity.
  Qed.

  (** What the reader of chunks sees, from [r] on, until it ends in [rf]. *)
  Inductive run : reader -> list event -> reader -> Prop :=
  | run_end r rf : ReadChunk hash content r = Some (None, rf) -> r_ok rf = true -> r_rec rf = kNo -> run r [] rf
  | run_got r c r' es rf : ReadChunk hash content r = Some (Some c, r') -> chunk_bytes c -> 0 <= r_pos r ->
      r_pos r + ch_num_records (c_header c) <= r_pos r' < 2 ^ 64 -> run r' es rf -> run r (Got (r_pos r) c (r_pos r') :: es) rf
  | run_skip r r1 b e r2 es rf : ReadChunk hash content r = Some (None, r1) -> r_ok r1 = false -> Recover hash content r1 = Some (Some (b, e), r2) ->
      run r2 es rf -> run r (Skipped b e :: es) rf.

  Lemma run_reads r es rf : run r es rf -> forall fuel, (length es < fuel)%nat -> ReadAllRecovering hash fuel content r = Some (es, rf).
  Proof.
    induction 1 as [r rf E K R|r c r' es rf E B P L X IH|r r1 b e r2 es rf E K RC X IH]; intros fuel F; (destruct fuel as [|fuel]; [cbn [length] in F; lia|]); cbn [ReadAllRecovering]; rewrite E.
    - rewrite recover_none by exact R. reflexivity.
    - rewrite IH by (cbn [length] in F; lia). reflexivity.
    - rewrite RC, IH by (cbn [length] in F; lia). reflexivity.
  Qed.

  (** A reader of records in a chunk which begins at [b], with records [rs] of which [i] have been read. *)
  Record st (d : record_reader) (b : Z) (rs : list (list Z)) (i : Z) (r : reader) : Prop := {
    st_src : rd_src d = r; st_open : rd_open d = true; st_failed : rd_failed d = false; st_rec : rd_rec d = RNo;
    st_begin : rd_begin d = b; st_dec : rd_dec d = holds rs i; st_i : 0 <= i <= zlen rs }.
  Lemma st_ok d b rs i r : st d b rs i r -> rd_ok d = true.
  Proof. intros []. unfold rd_ok. rewrite st_open0, st_failed0. reflexivity. Qed.
  Lemma st_last d b rs i r x : st d b rs i r -> st (put_last x d) b rs i r.
  Proof. intros []. constructor; cbn; assumption. Qed.
  Lemma clear_holds : ClearDecoder = holds [] 0.
  Proof. reflexivity. Qed.

  Lemma step d b rs r es rf : st d b rs (zlen rs) r -> run r es rf ->
    match es with
    | [] => exists d1, RR_ReadChunk d = Some (false, d1) /\ RR_Recover d1 = Some (None, d1) /\ st d1 (r_pos r) [] 0 rf
    | ev :: es => (exists b' rs' d1 r1, RR_ReadChunk d = Some (true, d1) /\ events_of ev = numbered b' 0 rs' /\ st d1 b' rs' 0 r1 /\ run r1 es rf) \/
        (exists b' e' d1 d2 b2 r2, RR_ReadChunk d = Some (false, d1) /\ rd_ok d1 = false /\ RR_Recover d1 = Some (Some (b', e'), d2) /\ events_of ev = [Lost b' e'] /\ st d2 b2 [] 0 r2 /\ run r2 es rf)
    end.
  Proof.
    intros S X. pose proof S as S0. destruct S0. destruct X as [r rf E K R|r c r' es rf E B P L X|r r1 b1 e1 r2 es rf E K RC X]; unfold RecordReader.RR_ReadChunk; cbn [put_begin rd_src rd_begin rd_dec rd_last rd_rec rd_open rd_failed]; rewrite st_src0, E.
    - rewrite K. cbn [negb]. eexists. split; [reflexivity|]. split; [unfold RecordReader.RR_Recover; cbn; rewrite st_rec0; reflexivity|]. constructor; cbn; try assumption; try reflexivity. change (zlen (@nil (list Z))) with 0. lia.
    - destruct (decode_cases c B) as [(rs1 & -> & DD & LN)|(dec & -> & DI & DD)].
      + left. exists (r_pos r), rs1. cbn [negb]. eexists _, r'. split; [reflexivity|]. split; [cbn [RecordRecoverSpec.events_of]; rewrite DD; reflexivity|].
        split; [|exact X]. constructor; cbn; try assumption; try reflexivity. pose proof (zlen_nonneg rs1). lia.
      + right. cbn [negb]. eexists (r_pos r), (r_pos r'), _, _, (r_pos r), r'. split; [reflexivity|]. split; [unfold rd_ok; cbn; apply andb_false_r|].
        split; [unfold RecordReader.RR_Recover; cbn; rewrite DI|].
        { rewrite Z.add_0_r, Z.add_0_r. assert (0 <= ch_num_records (c_header c)) by (destruct B as (B1 & _); unfold ch_num_records; apply Z.shiftr_nonneg; apply (proj1 (ReadLE8_range (skipn 24 (c_header c)) (bytes_zdrop 24 _ B1)))).
          rewrite !u64_small by lia. reflexivity. }
        split; [cbn [RecordRecoverSpec.events_of]; rewrite DD; reflexivity|]. split; [|exact X]. constructor; cbn; try assumption; try reflexivity. change (zlen (@nil (list Z))) with 0. lia.
    - right. rewrite K. cbn [negb]. eexists b1, e1, _, _, (r_pos r), r2. split; [reflexivity|]. split; [unfold rd_ok; cbn; apply andb_false_r|].
      split; [unfold RecordReader.RR_Recover; cbn; rewrite RC; reflexivity|]. split; [reflexivity|]. split; [|exact X]. constructor; cbn; try assumption; try reflexivity. change (zlen (@nil (list Z))) with 0. lia.
  Qed.

  (** The events which are left. *)
  Definition left_in (d : record_reader) (es : list event) (rf : reader) (E : list record_event) : Prop :=
    exists b rs i r, st d b rs i r /\ run r es rf /\ E = numbered b i (zdrop i rs) ++ flat_map events_of es.

  Lemma numbered_next b rs i x : 0 <= i -> nth_error rs (Z.to_nat i) = Some x -> numbered b i (zdrop i rs) = Read (b, i) x :: numbered b (i + 1) (zdrop (i + 1) rs).
  Proof.
    intros I N. unfold zdrop. replace (Z.to_nat (i + 1)) with (S (Z.to_nat i)) by lia. rewrite (skipn_nth rs _ x N). reflexivity.
  Qed.
  Lemma zdrop_end {A} (l : list A) : zdrop (zlen l) l = [].
  Proof. apply zdrop_all. lia. Qed.

  (** The next record, or the next failure. *)
  Lemma loop_ok es : forall d rf E fuel, left_in d es rf E -> (length es < fuel)%nat ->
    exists o d1, RR_ReadRecord_loop fuel d = Some (o, d1) /\
      match o with
      | Some x => exists b i es1 E1, last_pos d1 = Some (b, i) /\ (length es1 <= length es)%nat /\ E = Read (b, i) x :: E1 /\ left_in d1 es1 rf E1
      | None => (E = [] /\ RR_Recover d1 = Some (None, d1) /\ rd_ok d1 = true /\ rd_src d1 = rf) \/
          (exists b e d2 es1 E1, rd_ok d1 = false /\ RR_Recover d1 = Some (Some (b, e), d2) /\ (length es1 < length es)%nat /\ E = Lost b e :: E1 /\ left_in d2 es1 rf E1)
      end.
  Proof.
    induction es as [|ev es IH]; intros d rf E fuel (b & rs & i & r & S & X & ->) F; (destruct fuel as [|fuel]; [cbn [length] in F; lia|]); cbn [RecordReader.RR_ReadRecord_loop];
      rewrite (st_dec _ _ _ _ _ S), ReadRecord_holds by apply S.
    all: pose proof (st_i _ _ _ _ _ S) as I; destruct (nth_error rs (Z.to_nat i)) as [x|] eqn:N.
    1,3: exists (Some x); eexists; split; [reflexivity|]; rewrite (numbered_next b rs i x) by (try lia; assumption); eexists b, i, _, _; split; [unfold last_pos; cbn; rewrite (st_begin _ _ _ _ _ S); do 2 f_equal; lia|];
      split; [|split; [reflexivity|]]; [reflexivity|]; exists b, rs, (i + 1), r; split; [|split; [exact X|reflexivity]];
      assert (Z.to_nat i < length rs)%nat by (apply nth_error_Some; congruence); destruct S; constructor; cbn; try assumption; unfold zlen in *; try reflexivity; lia.
    all: apply nth_error_None in N; assert (EI : i = zlen rs) by (unfold zlen in *; lia); rewrite EI, Z.eqb_refl; rewrite EI in S;
      assert (PD : put_dec (holds rs (zlen rs)) d = d) by (destruct S as [_ _ _ _ _ S6 _]; destruct d; cbn in *; rewrite <- S6; reflexivity); rewrite PD;
      rewrite (st_ok _ _ _ _ _ S); cbn [negb holds dc_ok]; rewrite zdrop_end; cbn [numbered app]; pose proof (step d b rs r _ rf S X) as ST; cbv beta iota in ST.
    - destruct ST as (d1 & -> & RC & S1). eexists None, d1. split; [reflexivity|]. left. split; [reflexivity|]. split; [exact RC|]. split; [apply (st_ok _ _ _ _ _ S1)|]. apply S1.
    - destruct ST as [(b' & rs' & d1 & r1 & -> & EV & S1 & X1)|(b' & e' & d1 & d2 & b2 & r2 & -> & K & RC & EV & S2 & X2)].
      + cbn [flat_map]. rewrite EV. destruct (IH d1 rf (numbered b' 0 rs' ++ flat_map events_of es) fuel) as (o & d2 & L & Y); [exists b', rs', 0, r1; auto|cbn [length] in F; lia|].
        rewrite L. exists o, d2. split; [reflexivity|]. destruct o as [x|].
        * destruct Y as (bb & ii & es1 & E1 & Y1 & Y2 & Y3 & Y4). exists bb, ii, es1, E1. cbn [length]. auto with arith.
        * destruct Y as [(Y1 & Y2 & Y3 & Y4)|(bb & e & d3 & es1 & E1 & Y1 & Y2 & Y3 & Y4 & Y5)]; [left; split; [exact Y1|]; split; [exact Y2|]; split; [exact Y3|exact Y4]|right].
          exists bb, e, d3, es1, E1. cbn [length]. auto with arith.
      + eexists None, d1. split; [reflexivity|]. right. exists b', e', d2, es, (flat_map events_of es). split; [exact K|]. split; [exact RC|]. split; [cbn [length]; lia|].
        cbn [flat_map]. rewrite EV. split; [reflexivity|]. exists b2, [], 0, r2. split; [exact S2|]. split; [exact X2|reflexivity].
  Qed.

  Lemma recovering_ok : forall fuel d es rf E, left_in d es rf E -> (length es <= length content)%nat -> (length E < fuel)%nat ->
    exists d1, RR_ReadAllRecovering hash decompress transpose_decode fuel content d = Some (E, d1) /\ rd_ok d1 = true /\ rd_src d1 = rf.
  Proof.
    induction fuel as [|fuel IH]; intros d es rf E L LE F; [lia|]. cbn [RR_ReadAllRecovering]. unfold RR_ReadRecord.
    destruct (loop_ok es (put_last false d) rf E (S (S (length content)))) as (o & d1 & -> & Y); [|lia|].
    { destruct L as (b & rs & i & r & S & X & EE). exists b, rs, i, r. split; [apply st_last, S|auto]. }
    destruct o as [x|].
    - destruct Y as (b & i & es1 & E1 & LP & L1 & -> & Y). destruct (IH d1 es1 rf E1 Y ltac:(lia) ltac:(cbn [length] in F; lia)) as (d2 & -> & K & R).
      exists d2. split; [|auto]. unfold read_event. rewrite LP. reflexivity.
    - destruct Y as [(-> & -> & K & R)|(b & e & d2 & es1 & E1 & K & -> & L1 & -> & Y)].
      + exists d1. auto.
      + destruct (IH d2 es1 rf E1 Y ltac:(lia) ltac:(cbn [length] in F; lia)) as (d3 & -> & K3 & R3). exists d3. auto.
  Qed.

  (** ** With a recovery function *)
  Section With.
    Variable recovery : Z * Z -> bool.
    Notation ReadRecordWith_loop := (fun fuel => ReadRecordWith_loop hash decompress transpose_decode recovery fuel content).
    Definition accepted (e : record_event) : Prop := match e with Lost b e => recovery (b, e) = true | Read _ _ => False end.

    Lemma until_app L E : Forall accepted L -> until recovery (L ++ E) = L ++ until recovery E.
    Proof. induction 1 as [|e L A _ IH]; [reflexivity|]. destruct e as [p r|b e]; [contradiction|]. cbn [app until]. cbn in A. rewrite A, IH. reflexivity. Qed.

    Lemma with_ok : forall n es, (length es <= n)%nat -> forall d rf E fuel, left_in d es rf E -> (length es < fuel)%nat ->
      exists L o d1, ReadRecordWith_loop fuel d = Some (L, o, d1) /\ rd_ok d1 = true /\
        match o with
        | Some x => exists b i es1 E1, Forall accepted L /\ last_pos d1 = Some (b, i) /\ (length es1 <= length es)%nat /\ E = L ++ Read (b, i) x :: E1 /\ left_in d1 es1 rf E1
        | None => L = until recovery E
        end.
    Proof.
      induction n as [|n IHn]; intros es LN d rf E fuel (b & rs & i & r & S & X & ->) F; (destruct fuel as [|fuel]; [lia|]); cbn [RecordRecovery.ReadRecordWith_loop];
        rewrite (st_dec _ _ _ _ _ S), ReadRecord_holds by apply S.
      all: pose proof (st_i _ _ _ _ _ S) as I; destruct (nth_error rs (Z.to_nat i)) as [x|] eqn:N.
      1,3: exists [], (Some x); eexists; split; [reflexivity|]; split; [unfold rd_ok; cbn; exact (st_ok _ _ _ _ _ S)|]; rewrite (numbered_next b rs i x) by (try lia; assumption); eexists b, i, _, _; split; [constructor|];
        split; [unfold last_pos; cbn; rewrite (st_begin _ _ _ _ _ S); do 2 f_equal; lia|];
        split; [|split; [reflexivity|]]; [reflexivity|]; exists b, rs, (i + 1), r; split; [|split; [exact X|reflexivity]];
        assert (Z.to_nat i < length rs)%nat by (apply nth_error_Some; congruence); destruct S; constructor; cbn; try assumption; unfold zlen in *; try reflexivity; lia.
      all: apply nth_error_None in N; assert (EI : i = zlen rs) by (unfold zlen in *; lia); rewrite EI, Z.eqb_refl; rewrite EI in S;
        assert (PD : put_dec (holds rs (zlen rs)) d = d) by (destruct S as [_ _ _ _ _ S6 _]; destruct d; cbn in *; rewrite <- S6; reflexivity); rewrite PD;
        rewrite (st_ok _ _ _ _ _ S); cbn [negb holds dc_ok]; rewrite zdrop_end; cbn [numbered app]; pose proof (step d b rs r _ rf S X) as ST; cbv beta iota in ST.
      all: destruct es as [|ev es]; [|try (cbn [length] in LN; lia)].
      1,2: destruct ST as (d1 & -> & RC & S1); cbv zeta beta; unfold TryRecovery; rewrite RC; exists [], None, d1; split; [reflexivity|]; split; [apply (st_ok _ _ _ _ _ S1)|reflexivity].
      cbn [length] in LN, F. destruct ST as [(b' & rs' & d1 & r1 & -> & EV & S1 & X1)|(b' & e' & d1 & d2 & b2 & r2 & -> & K & RC & EV & S2 & X2)].
      - cbn [flat_map]. rewrite EV. destruct (IHn es ltac:(lia) d1 rf (numbered b' 0 rs' ++ flat_map events_of es) fuel) as (L & o & d2 & HL & K2 & Y); [exists b', rs', 0, r1; auto|lia|].
        rewrite HL. exists L, o, d2. split; [reflexivity|]. split; [exact K2|]. destruct o as [x|]; [|exact Y].
        destruct Y as (bb & ii & es1 & E1 & Y0 & Y1 & Y2 & Y3 & Y4). exists bb, ii, es1, E1. cbn [length]. auto 10 with arith.
      - cbv zeta beta. unfold TryRecovery. rewrite RC. cbn [flat_map]. rewrite EV. cbn [app until lost].
        destruct (recovery (b', e')) eqn:RV.
        + destruct (IHn es ltac:(lia) d2 rf (flat_map events_of es) fuel) as (L & o & d3 & HL & K2 & Y); [exists b2, [], 0, r2; auto|lia|].
          rewrite HL. exists (Lost b' e' :: L), o, d3. split; [reflexivity|]. split; [exact K2|]. destruct o as [x|]; [|rewrite Y; reflexivity].
          destruct Y as (bb & ii & es1 & E1 & Y0 & Y1 & Y2 & Y3 & Y4). exists bb, ii, es1, E1. split; [constructor; assumption|]. rewrite Y3. cbn [length]. auto 10 with arith.
        + exists [Lost b' e'], None, d2. split; [reflexivity|]. split; [apply (st_ok _ _ _ _ _ S2)|]. reflexivity.
    Qed.
    Lemma all_with_ok : forall fuel d es rf E, left_in d es rf E -> (length es <= length content)%nat -> (length E < fuel)%nat ->
      exists d1, ReadAllWith hash decompress transpose_decode recovery fuel content d = Some (until recovery E, d1) /\ rd_ok d1 = true.
    Proof.
      induction fuel as [|fuel IH]; intros d es rf E L LE F; [lia|]. cbn [ReadAllWith]. unfold ReadRecordWith.
      destruct (with_ok _ es (Nat.le_refl _) (put_last false d) rf E (S (S (length content)))) as (L1 & o & d1 & -> & K & Y); [|lia|].
      { destruct L as (b & rs & i & r & S & X & EE). exists b, rs, i, r. split; [apply st_last, S|auto]. }
      destruct o as [x|].
      - destruct Y as (b & i & es1 & E1 & A & LP & LL & -> & Y). rewrite app_length in F. cbn [length] in F. destruct (IH d1 es1 rf E1 Y ltac:(lia) ltac:(lia)) as (d2 & -> & K2).
        exists d2. split; [|exact K2]. unfold read_event. rewrite LP, until_app by exact A. reflexivity.
      - exists d1. subst L1. auto.
    Qed.
  End With.

  (** ** Any content *)
  Hypothesis cbytes : bytes content.
  Hypothesis clen : zlen content < 2 ^ 62.
  Hypothesis honest : forall K, 0 <= K -> K mod 65536 = 0 -> K + 24 <= zlen content -> blk_valid hash content K ->
    (bh_previous_chunk (blk_at content K) = 0 \/ 0 < bh_next_chunk (blk_at content K)) /\ K + bh_next_chunk (blk_at content K) + 65536 <= 2 ^ 64.

  (** Chunks have room for the positions of their records. *)
  Definition roomy (e : event) : Prop := match e with Got b c e => b + ch_num_records (c_header c) <= e /\ chunk_bytes c | Skipped _ _ => True end.
  Lemma run_static : forall n p r, start hash content p r -> (Z.to_nat (zlen content - p) <= n)%nat ->
    exists es rf q, run r es rf /\ tiles p es q /\ q <= zlen content /\ Forall roomy es.
  Proof.
    induction n as [n IH] using lt_wf_ind. intros p r S HF.
    destruct (ReadChunk_static hash content cbytes clen p r S) as (o & r1 & E & X). pose proof S as S0. destruct S0.
    destruct o as [c|].
    - destruct X as [GC FR]. destruct GC as (G1 & G2 & G3 & G4 & G5 & G6 & G7 & G8).
      destruct (end_at_spec hash content cbytes clen p ltac:(lia) s_b ltac:(lia)) as (E1 & E2 & E3 & E4).
      assert (S1 : start hash content (end_at content p) r1).
      { destruct FR. constructor; try assumption; [lia|]. left. assumption. }
      destruct (IH (Z.to_nat (zlen content - end_at content p)) ltac:(lia) _ _ S1 ltac:(lia)) as (es & rf & q & R & T1 & T2 & T3).
      pose proof (f_pos _ _ FR) as FP.
      assert (CB : chunk_bytes c) by (rewrite G2; repeat split; cbn [c_header c_data]; try assumption; apply bytes_pay; exact cbytes).
      assert (CN : r_pos r + ch_num_records (c_header c) <= r_pos r1) by (rewrite G2; cbn [c_header]; lia).
      exists (Got p c (end_at content p) :: es), rf, q. split.
      + rewrite <- s_pos at 1. rewrite <- FP. apply (run_got r c r1 es rf E CB); [lia|lia|exact R].
      + split; [apply tiles_got; [lia|assumption]|]. split; [exact T2|]. constructor; [|exact T3]. cbn [roomy]. split; [lia|exact CB].
    - destruct X as [X|X].
      + exists [], r1, p. split; [apply run_end; [exact E| |apply X]; unfold r_ok; destruct X as [-> -> _ _ _]; reflexivity|]. split; [constructor|]. split; [lia|constructor].
      + pose proof (failed_recov hash content cbytes clen honest p r S r1 X) as RV. destruct (Recover_static hash content cbytes clen honest p r1 RV) as (o & e & r2 & RC & T & L).
        pose proof (target_after hash content honest p r1 o RV T) as TA. rewrite (landed_pos _ _ _ _ _ L) in *.
        assert (K : r_ok r1 = false) by (unfold r_ok; rewrite (x_failed _ _ _ _ X); apply andb_false_r).
        destruct o as [e'|e'|].
        * destruct L as [_ L]. cbn [lpos] in *. destruct (IH (Z.to_nat (zlen content - e')) ltac:(lia) _ _ L ltac:(lia)) as (es & rf & q & R & T1 & T2 & T3).
          exists (Skipped p e' :: es), rf, q. split; [eapply run_skip; eassumption|]. split; [apply tiles_skip; [lia|assumption]|]. split; [exact T2|]. constructor; [exact Logic.I|exact T3].
        * destruct L as [_ L]. cbn [lpos] in *. destruct (read_tail hash content clen honest _ _ L) as (r3 & E3 & E4 & E5 & E6).
          exists [Skipped p e'], r3, e'. split; [eapply run_skip; try eassumption; apply run_end; assumption|]. split; [apply tiles_skip; [lia|constructor]|]. split; [lia|]. repeat constructor.
        * destruct L as [_ L]. cbn [lpos] in *. destruct (read_over hash content _ L) as (r3 & E3 & E4 & E5 & E6).
          exists [Skipped p (zlen content)], r3, (zlen content). split; [eapply run_skip; try eassumption; apply run_end; assumption|]. split; [apply tiles_skip; [lia|constructor]|]. split; [lia|]. repeat constructor.
  Qed.

  Lemma forward_weak E : forall p p' q, p' <= p -> forward p E q -> forward p' E q.
  Proof. intros p p' q L H. destruct H; constructor; try lia; assumption. Qed.
  Lemma forward_numbered b rs : forall i p e E q, p <= b + i -> 0 <= i -> b + i + zlen rs <= e -> p <= e -> forward e E q -> forward p (numbered b i rs ++ E) q.
  Proof.
    induction rs as [|x rs IH]; intros i p e E q H2 H3 H4 H6 H5; [cbn [numbered app]; apply (forward_weak E e); [lia|exact H5]|].
    rewrite zlen_cons in H4. pose proof (zlen_nonneg rs). cbn [numbered app]. constructor; try lia. apply (IH (i + 1) (b + i + 1) e); try lia. exact H5.
  Qed.
  Lemma tiles_forward es : forall p q, tiles p es q -> Forall roomy es -> forward p (flat_map events_of es) q.
  Proof.
    induction es as [|ev es IH]; intros p q T R; inversion T; subst; [constructor; lia| |].
    - pose proof (Forall_inv R) as [R1 R2]. pose proof (Forall_inv_tail R) as R3. cbn [flat_map RecordRecoverSpec.events_of].
      destruct (decode_cases c R2) as [(rs & _ & -> & L)|(dec & _ & _ & ->)].
      + apply (forward_numbered p rs 0 p e); try lia. apply IH; assumption.
      + cbn [app]. constructor; [lia|]. apply IH; assumption.
    - inversion R; subst. cbn [flat_map RecordRecoverSpec.events_of app]. constructor; [lia|]. apply IH; assumption.
  Qed.
  Lemma forward_length E : forall p q, forward p E q -> zlen E <= q - p.
  Proof.
    induction E as [|e E IH]; intros p q H; inversion H; subst; rewrite ?zlen_cons; [change (zlen (@nil record_event)) with 0; lia| |].
    - match goal with F : forward _ E _ |- _ => apply IH in F end. lia.
    - match goal with F : forward _ E _ |- _ => apply IH in F end. lia.
  Qed.
  Lemma tiles_length es : forall p q, tiles p es q -> zlen es <= q - p.
  Proof.
    induction es as [|e E IH]; intros p q H; inversion H; subst; rewrite ?zlen_cons; [change (zlen (@nil event)) with 0; lia| |];
      match goal with F : tiles _ E _ |- _ => apply IH in F end; lia.
  Qed.

  Lemma new_left es rf : run (InitializeReader 0) es rf -> left_in NewRecordReader es rf (flat_map events_of es).
  Proof. intros X. exists 0, [], 0, (InitializeReader 0). split; [constructor; cbn; try reflexivity; change (zlen (@nil (list Z))) with 0; lia|]. split; [exact X|reflexivity]. Qed.

  Lemma any_records : exists es rf q, tiles 0 es q /\ q <= zlen content /\ (forall fuel, (length es < fuel)%nat -> ReadAllRecovering hash fuel content (InitializeReader 0) = Some (es, rf)) /\
    forward 0 (flat_map events_of es) q /\ forall fuel, (length content < fuel)%nat ->
    (exists d, RR_ReadAllRecovering hash decompress transpose_decode fuel content NewRecordReader = Some (flat_map events_of es, d) /\ rd_ok d = true) /\
    (forall recovery, exists d, ReadAllWith hash decompress transpose_decode recovery fuel content NewRecordReader = Some (until recovery (flat_map events_of es), d) /\ rd_ok d = true).
  Proof.
    assert (S : start hash content 0 (InitializeReader 0)).
    { pose proof (zlen_nonneg content). constructor; cbn; try reflexivity; try lia; try (left; reflexivity). }
    destruct (run_static _ 0 _ S (Nat.le_refl _)) as (es & rf & q & R & T & Q & RM). exists es, rf, q. split; [exact T|]. split; [exact Q|].
    split; [intros fuel F; apply run_reads; assumption|]. pose proof (tiles_forward es 0 q T RM) as FW. split; [exact FW|]. intros fuel F.
    pose proof (forward_length _ _ _ FW) as L1. pose proof (tiles_length _ _ _ T) as L2. unfold zlen in Q, L1, L2.
    destruct (recovering_ok fuel _ es rf _ (new_left es rf R) ltac:(lia) ltac:(lia)) as (d & E & K & _). split; [exists d; auto|].
    intros recovery. exact (all_with_ok recovery fuel _ es rf _ (new_left es rf R) ltac:(lia) ltac:(lia)).
  Qed.
End Recovery.
