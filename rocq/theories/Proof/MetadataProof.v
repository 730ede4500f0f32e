(** Checking the file format and reading file metadata. *)
From Verif Require Import Base.Bytes Model.Varint Model.Endian Model.Block Model.Chunk Model.ChunkWriter Model.ChunkReader Model.SimpleChunk Model.ChunkDecoder
  Model.RecordWriter Model.RecordReader Model.RecordMetadata Spec.BlockSpec Spec.FileSpec Spec.ChunkLink Spec.RecordsSpec Spec.CursorSpec Spec.CursorLink Spec.SessionSpec Spec.ReadSpec
  Proof.CodecLemmas Proof.BlockProof Proof.ChunkWriterProof Proof.ChunkReaderProof Proof.FileProof Proof.LocalProof Proof.SeekProof Proof.ChunkPropsLemmas Proof.SimpleChunkProof Proof.DecoderProof Proof.RecordReaderProof
  Proof.RecordWriterProof Proof.SeqReadProof Proof.SessionProof Proof.RecordLemmas.

Section Reading.
  Variable hash : list Z -> Z.
  Hypothesis hash_range : forall l, 0 <= hash l < 2 ^ 64.
  Variable decompress : Z -> list Z -> option (list Z).
  Variable transpose_decode : list Z -> Z -> Z -> option (list Z * list Z).
  Variable F : list Z.
  Variable qr : list (placed * list (list Z)).
  Notation qs0 := (map fst qr).
  Hypothesis FC : chain hash F 0 qs0.
  Hypothesis FS : Forall (seek_ok hash F) qs0.
  Hypothesis flen : zlen F + 64 <= 2 ^ 64.
  Hypothesis DEC : Forall (decodes hash decompress transpose_decode) qr.
  Notation rel := (rel hash F qr).
  Notation st := (st hash F).
  Notation beginning := (beginning F).

  Lemma pull A x C src : qr = A ++ x :: C -> st (beginning (x :: C)) (map fst (x :: C)) src ->
    exists src', PullChunkHeader hash F src = Some (true, src') /\ st (beginning (x :: C)) (map fst (x :: C)) src' /\ r_header src' = c_header (mk_chunk hash (q_chunk (fst x))).
  Proof.
    intros E S. destruct (RecordReaderProof.split_at hash hash_range F qr FC A _ E) as (CH & _ & _). cbn [map beginning] in *.
    assert (SO : seek_ok hash F (fst x)) by (apply (seek_in hash F qr FS x); rewrite E; apply in_or_app; right; left; reflexivity).
    inversion CH as [|q qs O C1 EQ]; subst. destruct (nrec_end hash F (fst x) SO) as (N1 & N2 & N3). pose proof (po_le _ _ _ O) as LE. pose proof SO as SO'. destruct SO'.
    destruct (hend_facts (mk_chunk hash (q_chunk (fst x))) (q_begin (fst x)) so_p so_b so_w so_f) as (H1 & H2 & H3).
    destruct (PullChunkHeader_spec hash hash_range (mk_chunk hash (q_chunk (fst x))) (q_begin (fst x)) so_p so_b so_w so_h so_f so_s F src so_a S) as [X _].
    destruct X as (r2 & E2 & I2 & T2 & P2 & O2); [|]. { lia. }
    exists r2. split; [exact E2|]. split; [exact I2|]. exact (header_full hash hash_range _ _ so_w F r2 I2 O2).
  Qed.
  Lemma pull_end A src : qr = A -> st (beginning []) [] src -> exists src', PullChunkHeader hash F src = Some (false, src') /\ st (beginning []) [] src'.
  Proof.
    intros E S. destruct (Pull_at_end hash hash_range F src (zlen F) S ltac:(apply zlen_nonneg) ltac:(pose proof flen; lia) eq_refl) as (r' & P & FR & _). exists r'. split; [exact P|exact FR].
  Qed.

  Lemma clear_holds : ClearDecoder = holds [] 0.
  Proof. reflexivity. Qed.
  Lemma put_src_base src d : base d -> base (put_src src d).
  Proof. intros []. constructor; assumption. Qed.
  Lemma nrecs_empty A : Forall (fun x => snd x = []) A -> nrecs A = 0.
  Proof. induction 1 as [|x A E _ IH]; [reflexivity|]. change (x :: A) with ([x] ++ A). rewrite nrecs_app, nrecs_one, E, IH. reflexivity. Qed.

  Lemma nonempty_pos : qr <> [] -> zlen F = 0 -> false = true.
  Proof.
    intros NE Z0. pose proof (chain_length hash hash_range F qr 0 FC ltac:(lia)) as L. destruct qr as [|y l]; [congruence|]. rewrite zlen_cons in L. pose proof (zlen_nonneg l). lia.
  Qed.

  (** CheckFileFormat() at any moment *)
  Lemma check i d : rel i d -> exists b d', RR_CheckFileFormat hash F d = Some (b, d') /\ rel i d' /\ (b = false -> nth_error (records_of (vw qr)) (Z.to_nat i) = None) /\ (i = 0 -> qr <> [] -> r_pos (rd_src d) = 0 -> b = true).
  Proof.
    intros R. unfold RR_CheckFileFormat. rewrite (base_ok _ (rel_base _ _ _ _ _ R)). cbn [negb].
    destruct R as [A B d E BA BE DE S|A x C j d E BA BE DE J S].
    - rewrite DE. change (0 <? dc_num_records ClearDecoder) with false. cbv iota. destruct B as [|x C].
      + destruct (pull_end A (rd_src d) ltac:(rewrite E, app_nil_r; reflexivity) S) as (src & -> & S'). destruct (st_ok hash F _ _ _ S') as [OK _]. destruct (st_ok hash F _ _ _ S) as [_ P]. rewrite OK. cbn [negb].
        eexists _, _. split; [reflexivity|]. split; [|split].
        * apply (rel_between hash F qr A []); try assumption; try reflexivity. constructor; apply BA.
        * intros _. eapply nth_end; try eassumption. rewrite E, app_nil_r. reflexivity.
        * intros _ NE P0. rewrite P in P0. cbn [RecordReaderProof.beginning] in P0. pose proof (zlen_nonneg F). exact (nonempty_pos NE P0).
      + destruct (pull A x C (rd_src d) E S) as (src & -> & S' & _). eexists _, _. split; [reflexivity|]. split; [|split; [discriminate|reflexivity]].
        apply (rel_between hash F qr A (x :: C)); try assumption. constructor; apply BA.
    - rewrite DE. unfold dc_num_records, holds. cbn [dc_limits]. rewrite zlen_ends. destruct (Z.ltb_spec 0 (zlen (snd x))) as [L|L].
      { eexists _, _. split; [reflexivity|]. split; [apply (rel_inside hash F qr A x C); assumption|]. split; [discriminate|reflexivity]. }
      assert (E0 : snd x = []) by (destruct (snd x) as [|r rs]; [reflexivity|]; rewrite zlen_cons in L; pose proof (zlen_nonneg rs); lia).
      assert (J0 : j = 0) by (rewrite E0 in J; change (zlen (@nil (list Z))) with 0 in J; lia). subst j.
      destruct C as [|y C].
      + destruct (pull_end qr (rd_src d) eq_refl S) as (src & -> & S'). destruct (st_ok hash F _ _ _ S') as [OK _]. destruct (st_ok hash F _ _ _ S) as [_ P]. rewrite OK. cbn [negb].
        eexists _, _. split; [reflexivity|]. split; [|split].
        * apply (rel_inside hash F qr A x []); try assumption; [constructor; apply BA|cbn [put_dec rd_dec]; rewrite E0; reflexivity].
        * intros _. replace (nrecs A + 0) with (nrecs qr) by (rewrite E, nrecs_app, nrecs_one, E0; reflexivity). eapply nth_end; try eassumption; reflexivity.
        * intros _ NE P0. rewrite P in P0. cbn [RecordReaderProof.beginning] in P0. pose proof (zlen_nonneg F). exact (nonempty_pos NE P0).
      + destruct (pull (A ++ [x]) y C (rd_src d) ltac:(rewrite <- app_assoc; exact E) S) as (src & -> & S' & _). eexists _, _. split; [reflexivity|]. split; [|split; [discriminate|reflexivity]].
        apply (rel_inside hash F qr A x (y :: C)); try assumption. constructor; apply BA.
  Qed.

  (** ReadSerializedMetadata() at the beginning of the file *)
  Definition metadata_result (l : list (placed * list (list Z))) (m : option (list Z)) (b : bool) (meta : list Z) (d : record_reader) : Prop :=
    match m with
    | Some m => b = true /\ meta = m /\ rd_last d = true /\ rel 0 d
    | None => b = false /\ meta = [] /\ rd_ok d = false /\ match l with
        _ :: x :: _ => rd_rec d = RRecoverChunkDecoder /\ exists d', RR_Recover hash F d = Some (Some (q_begin (fst x), q_end (fst x)), d') /\ rel 0 d' | _ => False end
    end.
  Hypothesis SG : match qs0 with [] => True | q :: _ => q_chunk q = signature_chunk end.
  Hypothesis OKC : Forall (fun q => chunk_ok (q_chunk q)) qs0.
  Record start (d : record_reader) : Prop := { s_base : base d; s_begin : rd_begin d = 0; s_dec : rd_dec d = ClearDecoder; s_st : st 0 qs0 (rd_src d) }.
  Lemma start_new : start NewRecordReader.
  Proof.
    constructor; try reflexivity; [constructor; reflexivity|]. apply (fresh_st hash hash_range F qs0 FS); [exact FC|apply incl_refl|lia|constructor; reflexivity].
  Qed.
  Lemma start_rel d : start d -> rel 0 d.
  Proof.
    intros [B BE D S]. pose proof (chain_begin hash F 0 qr FC) as CB. apply (rel_between hash F qr [] qr); try assumption; [reflexivity|rewrite <- CB; exact BE|rewrite <- CB; exact S].
  Qed.
  Lemma start_check d : start d -> qr <> [] -> exists d', RR_CheckFileFormat hash F d = Some (true, d') /\ start d'.
  Proof.
    intros [B BE D S] NE. pose proof (chain_begin hash F 0 qr FC) as CB. unfold RR_CheckFileFormat. rewrite (base_ok _ B), D. cbn [negb]. change (0 <? dc_num_records ClearDecoder) with false. cbv iota.
    assert (Q : exists x C, qr = x :: C) by (clear - NE; destruct qr as [|x C]; [congruence|eauto]). destruct Q as (x & C & Q). destruct (pull [] x C (rd_src d)) as (src & -> & S' & _); [exact Q| |].
    { rewrite <- Q, <- CB. exact S. }
    eexists. split; [reflexivity|]. rewrite <- Q in S'. rewrite <- CB in S'. constructor; [apply put_src_base; exact B|exact BE|exact D|exact S'].
  Qed.
  Lemma no_records A x C : qr = A ++ x :: C -> k_nrec (q_chunk (fst x)) = 0 -> snd x = [].
  Proof.
    intros E K. assert (IX : In x qr) by (rewrite E; apply in_or_app; right; left; reflexivity). rewrite Forall_forall in DEC. destruct (DEC x IX) as [_ N]. rewrite K in N.
    destruct (snd x) as [|r rs]; [reflexivity|]. rewrite zlen_cons in N. pose proof (zlen_nonneg rs). lia.
  Qed.
  Lemma metadata d l : qr = l -> start d ->
    exists b meta d', RR_ReadSerializedMetadata hash transpose_decode F d = Some (b, meta, d') /\
      match l with
      | [] | [_] => b = false /\ meta = [] /\ rel 0 d'
      | _ :: x :: _ =>
          if k_type (q_chunk (fst x)) =? kFileMetadata then metadata_result l (if k_nrec (q_chunk (fst x)) =? 0 then option_map snd (transpose_decode (k_data (q_chunk (fst x))) 1 (k_dsize (q_chunk (fst x)))) else None) b meta d'
          else b = true /\ meta = [] /\ rel 0 d'
      end.
  Proof.
    intros Q [B BE D S]. pose proof (chain_begin hash F 0 qr FC) as CB. destruct (st_ok hash F _ _ _ S) as [_ SP].
    unfold RR_ReadSerializedMetadata. cbn [rd_src put_last]. assert (B1 : base (put_last false d)) by (apply base_put_last, B). rewrite (base_ok _ B1), SP. cbn [negb Z.eqb].
    destruct (read_positioned hash hash_range F qs0 FS flen 0 qs0 (rd_src d) FC ltac:(apply incl_refl) ltac:(lia) S) as (src & RC & S1). cbn [put_begin rd_src].
    assert (SG1 : match map fst l with [] => True | q :: _ => q_chunk q = signature_chunk end) by (rewrite <- Q; exact SG).
    assert (OK1 : Forall (fun q => chunk_ok (q_chunk q)) (map fst l)) by (rewrite <- Q; exact OKC).
    assert (FS1 : Forall (seek_ok hash F) (map fst l)) by (rewrite <- Q; exact FS).
    assert (DEC1 : Forall (decodes hash decompress transpose_decode) l) by (rewrite <- Q; exact DEC).
    cbn [put_begin put_last rd_src]. rewrite RC. assert (QM : map fst qr = map fst l) by (rewrite Q; reflexivity). rewrite QM in S1. rewrite QM. rewrite Q in CB. destruct l as [|x0 l]; cbn [map] in S1, RC, SG1, OK1 |- *.
    { destruct (st_ok hash F _ _ _ S1) as [OK _]. rewrite OK. cbn [negb]. eexists _, _, _. split; [reflexivity|]. split; [reflexivity|]. split; [reflexivity|].
      change 0 with (nrecs []). apply (rel_between hash F _ [] []); try reflexivity; try assumption; [constructor; apply B|]. rewrite <- CB. exact S1. }
    assert (OK0 : chunk_ok (q_chunk (fst x0))) by (apply Forall_inv in OK1; exact OK1).
    destruct (mk_chunk_wf hash hash_range _ OK0) as (_ & _ & _ & T0 & _ & _). rewrite T0, SG1. cbn [k_type signature_chunk]. change (115 =? kFileSignature) with true. cbn [negb].
    assert (X0 : snd x0 = []) by (apply (no_records [] x0 l); [exact Q|rewrite SG1; reflexivity]).
    pose proof (split_end hash hash_range decompress transpose_decode F qr FC FS DEC [] x0 l Q) as SE. rewrite SE in S1.
    destruct (st_ok hash F _ _ _ S1) as [_ P1]. cbn [put_src put_begin put_last rd_src rd_begin rd_dec rd_last rd_rec rd_open rd_failed]. rewrite P1.
    destruct l as [|x l].
    - destruct (pull_end qr src eq_refl) as (src2 & PE & S2). { cbn [map] in S1. exact S1. }
      rewrite PE. destruct (st_ok hash F _ _ _ S2) as [OK _]. rewrite OK. cbn [negb]. eexists _, _, _. split; [reflexivity|]. split; [reflexivity|]. split; [reflexivity|].
      rewrite <- (nrecs_empty [x0]) by (repeat constructor; assumption). apply (rel_between hash F _ [x0] []); try reflexivity; try assumption. constructor; apply B.
    - destruct (pull [x0] x l src Q S1) as (src2 & PU & S2 & HD). rewrite PU, HD.
      assert (OK2 : chunk_ok (q_chunk (fst x))) by (cbn [map] in OK1; apply Forall_inv_tail, Forall_inv in OK1; exact OK1).
      destruct (mk_chunk_wf hash hash_range _ OK2) as (_ & _ & N1 & T1 & D1 & _). rewrite T1.
      destruct (k_type (q_chunk (fst x)) =? kFileMetadata) eqn:TY; cbn [negb].
      2:{ eexists _, _, _. split; [reflexivity|]. split; [reflexivity|]. split; [reflexivity|].
          rewrite <- (nrecs_empty [x0]) by (repeat constructor; assumption). apply (rel_between hash F _ [x0] (x :: l)); try reflexivity; try assumption. constructor; apply B. }
      destruct (RecordReaderProof.split_at hash hash_range F qr FC [x0] (x :: l) Q) as (CH & _ & BN).
      destruct (read_positioned hash hash_range F (map fst qr) FS flen _ _ src2 CH) as (src3 & RC3 & S3); [|exact BN|exact S2|].
      { apply (incl_B hash decompress transpose_decode F qr) with (A := [x0]); [exact FC|exact FS|exact DEC|exact Q]. }
      rewrite RC3. cbn [map] in *. 
      pose proof (split_end hash hash_range decompress transpose_decode F qr FC FS DEC [x0] x l Q) as SE3. pose proof S3 as S3'. rewrite SE3 in S3.
      unfold ParseMetadata. rewrite N1, D1. change (c_data (mk_chunk hash (q_chunk (fst x)))) with (k_data (q_chunk (fst x))).
      assert (R0 : 0 = nrecs [x0] + 0) by (rewrite nrecs_empty by (repeat constructor; assumption); reflexivity).
      assert (X1 : snd x = []).
      { clear - DEC1 TY T1. apply Forall_inv_tail, Forall_inv in DEC1. destruct DEC1 as [DX _]. unfold Decode, Parse in DX. rewrite T1, TY in DX. apply Z.eqb_eq in TY. rewrite TY in DX.
        change (kFileMetadata =? kFileSignature) with false in DX. cbv iota in DX. destruct (negb _) in DX; [discriminate DX|]. injection DX as E1 E2. destruct (snd x); [reflexivity|discriminate E1]. }
      assert (REL : forall lst rec, rec = RNo -> rel 0 (MkRecordReader src3 (beginning (x :: l)) (rd_dec d) lst rec (rd_open d) (rd_failed d))).
      { intros lst rec ->. rewrite R0. apply (rel_inside hash F _ [x0] x l 0); [exact Q|constructor; try reflexivity; apply B|reflexivity|cbn [rd_dec]; rewrite D, X1; reflexivity|rewrite X1; cbn; lia|exact S3]. }
      assert (BAD : forall d', d' = put_failed true (put_rec RRecoverChunkDecoder (MkRecordReader src3 (beginning (x :: l)) (rd_dec d) false (rd_rec d) (rd_open d) (rd_failed d))) ->
        rd_ok d' = false /\ rd_rec d' = RRecoverChunkDecoder /\ exists d'', RR_Recover hash F d' = Some (Some (q_begin (fst x), q_end (fst x)), d'') /\ rel 0 d'').
      { intros d' ->. split; [unfold rd_ok; cbn; apply andb_false_r|]. split; [reflexivity|]. unfold RR_Recover. cbn [put_failed put_rec put_dec rd_rec rd_dec rd_begin].
        eexists. split; [|].
        - do 2 f_equal. f_equal. f_equal.
          + rewrite D. cbn [dc_index ClearDecoder]. change (beginning (x :: l)) with (q_begin (fst x)). rewrite Z.add_0_r. apply u64_small. 
            assert (SO : seek_ok hash F (fst x)) by (clear - FS1; apply Forall_inv_tail, Forall_inv in FS1; exact FS1). destruct (nrec_end hash F (fst x) SO). pose proof (so_p _ _ _ SO). lia.
          + unfold rpos. cbn [dc_index dc_num_records ClearDecoder rd_dec rd_rec rd_src put_failed put_rec put_dec fst snd]. change (0 <? dc_num_records ClearDecoder) with false. cbn [orb fst snd].
            destruct (st_ok hash F _ _ _ S3') as [_ ->]. rewrite Z.add_0_r. apply u64_small. assert (SO : seek_ok hash F (fst x)) by (clear - FS1; apply Forall_inv_tail, Forall_inv in FS1; exact FS1). destruct (nrec_end hash F (fst x) SO). pose proof (so_p _ _ _ SO). lia.
        - unfold put_failed, put_rec, put_dec. cbn [rd_src rd_begin rd_dec rd_last rd_rec rd_open rd_failed]. rewrite <- D. rewrite <- (b_failed _ B) at 2. apply REL. reflexivity. }
      destruct (k_nrec (q_chunk (fst x)) =? 0) eqn:KN; cbn [negb].
      + destruct (transpose_decode (k_data (q_chunk (fst x))) 1 (k_dsize (q_chunk (fst x)))) as [[lim m]|] eqn:TD; cbn [option_map snd metadata_result].
        * eexists _, _, _. split; [reflexivity|]. split; [reflexivity|]. split; [reflexivity|]. split; [reflexivity|]. apply REL. apply B.
        * eexists _, _, _. split; [reflexivity|]. split; [reflexivity|]. split; [reflexivity|]. apply BAD. reflexivity.
      + eexists _, _, _. split; [reflexivity|]. split; [reflexivity|]. split; [reflexivity|]. apply BAD. reflexivity.
  Qed.
End Reading.

(** ** If there is no metadata chunk then the second chunk, if any, is not of that type *)
Definition second_byte (dest : list Z) (pos : Z) : Prop :=
  zlen dest = 64 /\ pos = 64 \/ exists b, nth_error dest 88 = Some b /\ b <> kFileMetadata.
Definition second (w : writer) : Prop := second_byte (w_dest w) (w_pos w).
Definition second_all (m : option (bool * writer)) : Prop := match m with None => True | Some (_, w) => second w end.
Lemma second_more dest (pos : Z) out pos' b : nth_error dest 88 = Some b -> b <> kFileMetadata -> second_byte (dest ++ out) pos'.
Proof. intros E N. right. exists b. split; [|exact N]. rewrite nth_error_app1; [exact E|]. apply nth_error_Some. congruence. Qed.
Lemma second_fail w : second w -> second (w_fail w).
Proof. exact (fun H => H). Qed.
Lemma andthen_second m f : second_all m -> (forall w, second w -> second_all (f w)) -> second_all (andthen m f).
Proof. intros M H. unfold andthen. destruct m as [[[|] w]|]; [apply H; exact M|exact M|exact Logic.I]. Qed.

Section Second.
  Variable hash : list Z -> Z.
  Variable compress : Z -> list Z -> list Z.
  Variable transpose_encode : options -> list (list Z) -> list Z.

  Lemma second_chunk data t n size dest pos out pos' : 0 <= t < 256 -> t <> kFileMetadata ->
    WriteChunk hash (MkChunk (ChunkHeader hash data t n size) data) pos = Some (out, pos') -> second_byte dest pos -> second_byte (dest ++ out) pos'.
  Proof.
    intros T NM W [[L ->]|(b & E & N)]; [|exact (second_more dest pos out pos' b E N)].
    unfold WriteChunk in W. cbn [c_header c_data] in W.
    assert (HL : exists h1 h2, ChunkHeader hash data t n size = h1 ++ t :: h2 /\ length h1 = 24%nat /\ length h2 = 15%nat).
    { unfold ChunkHeader. cbv zeta. generalize (hash (WriteLittleEndian 8 (u64 (zlen data)) ++ WriteLittleEndian 8 (hash data) ++ WriteLittleEndian 8 (Z.lor t (u64 (Z.shiftl n 8))) ++ WriteLittleEndian 8 size)). intros hh.
      exists (WriteLittleEndian 8 hh ++ WriteLittleEndian 8 (u64 (zlen data)) ++ WriteLittleEndian 8 (hash data)).
      assert (B : exists r, WriteLittleEndian 8 (Z.lor t (u64 (Z.shiftl n 8))) = t :: r /\ length r = 7%nat).
      { eexists. split; [unfold WriteLittleEndian; cbn [seq map]; f_equal|reflexivity]. change (8 * Z.of_nat 0) with 0. rewrite Z.shiftr_0_r. unfold byte_cast.
        rewrite Z.land_lor_distr_l. change 255 with (Z.ones 8). rewrite !Z.land_ones by lia. rewrite (Z.mod_small t) by (change (2 ^ 8) with 256; lia).
        replace (u64 (Z.shiftl n 8) mod 2 ^ 8) with 0; [apply Z.lor_0_r|]. unfold u64. rewrite Z.shiftl_mul_pow2 by lia. change (2 ^ 64) with (2 ^ 56 * 2 ^ 8). rewrite Z.mul_mod_distr_r by (intros X; discriminate X). rewrite Z.mod_mul by (intros X; discriminate X). reflexivity. }
      destruct B as (r & -> & LR). exists (r ++ WriteLittleEndian 8 size). split; [rewrite <- !app_assoc; reflexivity|]. split; [reflexivity|]. rewrite app_length, LR. reflexivity. }
    destruct HL as (h1 & h2 & HE & L1 & L2). rewrite HE in W.
    assert (E0 : exists out2, out = (h1 ++ t :: h2) ++ out2).
    { remember (h1 ++ t :: h2) as h eqn:EH. assert (LH : zlen h = 40) by (subst h; unfold zlen; rewrite app_length; cbn [length]; lia).
      assert (WS : forall ce, WriteSection hash (S (length h)) h 64 ce 64 = Some (h, 104)).
      { clear - LH. intros ce. destruct h as [|x h]; [cbn in LH; lia|]. remember (x :: h) as hh eqn:EH. destruct (length hh) as [|k] eqn:LK; [subst hh; discriminate LK|]. rewrite EH. cbn [WriteSection].
        change (IsBlockBoundary 64) with false. cbv iota. rewrite <- EH, LH. change (Z.min 40 (RemainingInBlock 64)) with 40. rewrite zdrop_all by lia. rewrite ztake_all by lia. change (u64 (64 + 40)) with 104. rewrite app_nil_r. reflexivity. }
      rewrite WS in W. destruct (WriteSection hash _ data _ _ _) as [[o2 p2]|]; [|discriminate W]. destruct (WritePaddingTo hash _ _ _ _) as [[o3 p3]|]; [|discriminate W]. injection W as W _. exists (o2 ++ o3). symmetry. exact W. }
    destruct E0 as (out2 & ->). right. exists t. split; [|exact NM]. rewrite nth_error_app2 by (unfold zlen in L; lia). replace (88 - length dest)%nat with 24%nat by (unfold zlen in L; lia).
    rewrite <- app_assoc, nth_error_app2 by lia. replace (24 - length h1)%nat with 0%nat by lia. reflexivity.
  Qed.
  Lemma second_padding padding dest pos out pos' : WritePadding hash padding pos = Some (out, pos') -> second_byte dest pos -> second_byte (dest ++ out) pos'.
  Proof.
    unfold WritePadding. destruct (PosAfterPadding pos padding) as [e|]; [|discriminate]. destruct (e =? pos); [intros E; injection E as <- <-; rewrite app_nil_r; exact (fun H => H)|].
    destruct (_ <? _); [discriminate|]. intros W. exact (second_chunk _ kPadding _ _ dest pos out pos' ltac:(unfold kPadding; lia) ltac:(discriminate) W).
  Qed.
  Lemma PutPadding_second padding w : second w -> second_all (PutPadding hash padding w).
  Proof.
    intros S. unfold PutPadding. destruct (negb _); [exact S|]. destruct (WritePadding hash padding (w_pos w)) as [[out pos]|] eqn:W; [|exact Logic.I]. exact (second_padding _ _ _ _ _ W S).
  Qed.
  Lemma CloseChunk_second w : second w -> second_all (CloseChunk hash compress transpose_encode w).
  Proof.
    intros S. unfold CloseChunk. destruct (negb _); [exact S|]. unfold ce_EncodeAndClose. destruct (w_encoder w) as [e|rs ok] eqn:EN.
    - unfold EncodeAndClose. destruct (negb (e_ok e)); [exact S|]. unfold put_chunk. cbn [set_encoder w_pos w_dest]. destruct (WriteChunk _ _ _) as [[out pos]|] eqn:W; [|exact Logic.I].
      exact (second_chunk _ kSimple _ _ _ _ _ _ ltac:(unfold kSimple; lia) ltac:(discriminate) W S).
    - destruct ok; [|exact S]. unfold put_chunk. cbn [set_encoder w_pos w_dest]. destruct (WriteChunk _ _ _) as [[out pos]|] eqn:W; [|exact Logic.I].
      exact (second_chunk _ kTransposed _ _ _ _ _ _ ltac:(unfold kTransposed; lia) ltac:(discriminate) W S).
  Qed.
  Lemma WriteRecord_second r w : second w -> second_all (WriteRecord hash compress transpose_encode r w).
  Proof.
    intros S. unfold WriteRecord. destruct (negb _); [exact S|]. apply andthen_second.
    - destruct (_ && _); [|exact S]. apply andthen_second; [apply CloseChunk_second; exact S|]. intros w1 S1. exact S1.
    - intros w1 S1. apply andthen_second.
      + unfold Worker_AddRecord. destruct (negb _); [exact S1|]. destruct (ce_AddRecord _ _) as [[|] e]; exact S1.
      + intros w2 S2. destruct (_ <? _); [|exact S2]. apply andthen_second; [apply CloseChunk_second; exact S2|]. intros w3 S3. exact S3.
  Qed.
  Lemma close_open_second w : second w -> second_all (close_open_chunk hash compress transpose_encode w).
  Proof. intros S. unfold close_open_chunk. destruct (_ <? _); [|exact S]. apply CloseChunk_second. destruct (w_last w); exact S. Qed.
  Lemma Flush_second w : second w -> second_all (Flush hash compress transpose_encode w).
  Proof.
    intros S. unfold Flush. destruct (negb _); [exact S|]. apply andthen_second; [apply close_open_second; exact S|]. intros w1 S1.
    apply andthen_second; [apply PutPadding_second; exact S1|]. intros w2 S2. destruct (_ <? _); exact S2.
  Qed.
  Lemma CloseWriter_second w : second w -> second_all (CloseWriter hash compress transpose_encode w).
  Proof.
    intros S. unfold CloseWriter. pose proof (close_open_second w S) as S1. destruct (close_open_chunk _ _ _ w) as [[b w1]|]; [|exact Logic.I].
    assert (S2 : second (set_so_far 0 (if b then w1 else w_fail w1))) by (destruct b; exact S1). pose proof (PutPadding_second (o_final_padding (w_options (set_so_far 0 (if b then w1 else w_fail w1)))) _ S2) as S3.
    destruct (PutPadding _ _ _) as [[b2 w2]|]; [|exact Logic.I]. destruct b2; exact S3.
  Qed.
  Lemma RunCalls_second cs : forall w os w', second w -> RunCalls hash compress transpose_encode cs w = Some (os, w') -> second w'.
  Proof.
    induction cs as [|c cs IH]; intros w os w' S R; cbn [RunCalls] in R; [injection R as _ <-; exact S|].
    assert (S1 : second_all (RunCall hash compress transpose_encode c w)) by (destruct c; [apply WriteRecord_second|apply Flush_second]; exact S).
    destruct (RunCall hash compress transpose_encode c w) as [[b w1]|]; [|discriminate R]. destruct (RunCalls hash compress transpose_encode cs w1) as [[os1 w2]|] eqn:R1; [|discriminate R]. injection R as _ <-. exact (IH w1 os1 w2 S1 R1).
  Qed.
  Definition second_file (f : list Z) : Prop := second_byte f (zlen f).
  Lemma second_close w : second w -> second_file (w_dest w).
  Proof. intros [[L _]|H]; [left; rewrite L; auto|right; exact H]. Qed.
  Lemma Session_second o cs dest os b f : (forall b w, NewRecordWriter hash transpose_encode o dest = Some (b, w) -> second w) ->
    Session hash compress transpose_encode o cs dest = Some (os, b, f) -> second_file f.
  Proof.
    intros OPEN. unfold Session. destruct (NewRecordWriter hash transpose_encode o dest) as [[b0 w0]|] eqn:N; [|discriminate]. specialize (OPEN b0 w0 eq_refl).
    destruct (RunCalls hash compress transpose_encode cs w0) as [[os1 w1]|] eqn:R; [|discriminate]. pose proof (CloseWriter_second w1 (RunCalls_second cs w0 os1 w1 OPEN R)) as S.
    destruct (CloseWriter hash compress transpose_encode w1) as [[b1 w2]|]; [|discriminate]. intros E. injection E as _ _ <-. apply second_close, S.
  Qed.
  Lemma open_second o dest : dest <> [] -> chunk_boundary (zlen dest) -> second_file dest -> forall b w, NewRecordWriter hash transpose_encode o dest = Some (b, w) -> second w.
  Proof.
    intros NE B S b w. unfold NewRecordWriter, InitializeWriter. apply IsPossibleChunkBoundary_iff in B. rewrite B.
    destruct (Z.eqb_spec (zlen dest) 0) as [E|E]; [destruct dest as [|x l]; [congruence|]; rewrite zlen_cons in E; pose proof (zlen_nonneg l); lia|].
    intros P. match type of P with PutPadding _ ?p ?w0 = _ => pose proof (PutPadding_second p w0) as H end. rewrite P in H. apply H. unfold second. cbn [w_dest w_pos]. rewrite app_nil_r. exact S.
  Qed.
End Second.

Lemma nth_strip n : forall pos l, (forall i, 0 <= i <= Z.of_nat n -> in_block_header (pos + i) = false) -> nth_error (strip_headers pos l) n = nth_error l n.
Proof.
  induction n as [|n IH]; intros pos [|b l] H; try reflexivity; cbn [strip_headers].
  - pose proof (H 0 ltac:(lia)) as H0. rewrite Z.add_0_r in H0. rewrite H0. reflexivity.
  - pose proof (H 0 ltac:(lia)) as H0. rewrite Z.add_0_r in H0. rewrite H0. cbn [nth_error]. apply IH. intros i I. replace (pos + 1 + i) with (pos + (1 + i)) by lia. apply H. lia.
Qed.

Section Files.
  Variable hash : list Z -> Z.
  Hypothesis hash_range : forall l, 0 <= hash l < 2 ^ 64.
  Variable compress : Z -> list Z -> list Z.
  Variable decompress : Z -> list Z -> option (list Z).
  Variable transpose_encode : options -> list (list Z) -> list Z.
  Variable transpose_decode : list Z -> Z -> Z -> option (list Z * list Z).
  Hypothesis CODECS : codecs compress decompress transpose_encode transpose_decode.
  Notation file_ok := (file_ok hash decompress transpose_decode).

  Lemma signature_end e out : chunk_layout hash 0 e signature_chunk out -> e = 64.
  Proof.
    intros (_ & ((B & _ & E0 & P) & M) & _). cbn [k_data k_nrec signature_chunk] in *. change (40 + zlen (@nil Z)) with 40 in *. rewrite payload_closed in P by lia.
    assert (64 <= e) by (clear - P E0; unfold pos_payload in P; change (0 - 0 / 65536 * 24 - Z.min (0 mod 65536) 24) with 0 in P; dml).
    specialize (M 64 ltac:(right; reflexivity) ltac:(lia) ltac:(lia) ltac:(rewrite payload_closed by lia; vm_compute; discriminate)). lia.
  Qed.
  Lemma first_chunk file x0 l : file_ok file (x0 :: l) -> exists e out1 out2, fst x0 = Placed 0 64 signature_chunk /\ file = out1 ++ out2 /\ zlen out1 = 64 /\ e = zlen file /\ file_layout hash 64 (map fst l) out2 e.
  Proof.
    intros FO. pose proof (f_layout _ _ _ _ _ FO) as L. pose proof (f_sig _ _ _ _ _ FO) as SG. cbn [map] in *. inversion L as [|p e k qs o1 o2 E CL FL X1 X2 X3]. subst. rewrite <- X2 in SG. cbn [q_chunk] in SG. subst k.
    pose proof (signature_end _ _ CL) as ->. exists (zlen (o1 ++ o2)), o1, o2. split; [reflexivity|]. split; [reflexivity|]. split; [destruct CL as (CL & _); lia|]. split; [reflexivity|exact FL].
  Qed.
  Lemma second_type file x0 x l : file_ok file (x0 :: x :: l) -> second_file file -> k_type (q_chunk (fst x)) <> kFileMetadata.
  Proof.
    intros FO S. destruct (first_chunk file x0 (x :: l) FO) as (e & o1 & o2 & _ & EF & L1 & -> & FL). cbn [map] in FL.
    assert (OK : chunk_ok (q_chunk (fst x))) by (pose proof (f_ok _ _ _ _ _ FO) as OK; cbn [map] in OK; apply Forall_inv_tail, Forall_inv in OK; exact OK).
    inversion FL as [|p e k qs p1 p2 E CL FL2 X1 X2 X3 X4]. subst p qs E. rewrite <- X2 in *. cbn [q_chunk] in *.
    assert (N : nth_error p1 24 = Some (k_type k)).
    { destruct CL as (_ & _ & (pad & ST) & _). rewrite <- (nth_strip 24 64 p1), ST.
      - destruct OK as (T & _). unfold chunk_header_bytes. cbv zeta. rewrite <- !app_assoc.
        assert (LL : forall v, length (le64 v) = 8%nat) by reflexivity.
        rewrite nth_error_app2 by (rewrite LL; lia). rewrite LL. rewrite nth_error_app2 by (rewrite LL; lia). rewrite LL. rewrite nth_error_app2 by (rewrite LL; lia). rewrite LL. rewrite nth_error_app1 by (rewrite LL; lia).
        cbn [Nat.sub]. unfold le64. cbn [map seq nth_error]. f_equal. change (256 ^ Z.of_nat 0) with 1. rewrite Z.div_1_r. rewrite (Z.mul_comm 256), Z.mod_add by discriminate. apply Z.mod_small. lia.
      - intros i I. unfold in_block_header. apply Z.ltb_ge. rewrite Z.mod_small; lia. }
    destruct S as [[L _]|(b & NB & NE)].
    - exfalso. assert (25 <= zlen p1). { assert (24 < length p1)%nat by (apply nth_error_Some; congruence). unfold zlen. lia. } rewrite EF, zlen_app, <- X3, zlen_app in L. pose proof (zlen_nonneg p2). lia.
    - rewrite EF, nth_error_app2 in NB by (unfold zlen in L1; lia). replace (88 - length o1)%nat with 24%nat in NB by (unfold zlen in L1; lia). rewrite <- X3 in NB.
      rewrite nth_error_app1 in NB by (apply nth_error_Some; congruence). congruence.
  Qed.

  Lemma sessions_second ss : forall dest qr S rs f, file_ok dest qr -> qr <> [] -> zlen dest <= S -> Forall session_ok ss -> S + sessions_size ss <= 2 ^ 62 -> second_file dest ->
    Sessions hash compress transpose_encode ss dest = Some (rs, f) -> second_file f.
  Proof.
    induction ss as [|[o cs] ss IH]; intros dest qr S rs f FO NE DS OK SZ SF R; cbn [Sessions] in R; [injection R as _ <-; exact SF|].
    change (sessions_size ((o, cs) :: ss)) with (session_size (o, cs) + sessions_size ss) in *. pose proof (sessions_size_nonneg hash hash_range ss (Forall_inv_tail OK)) as SN.
    destruct (session_step hash hash_range compress decompress transpose_encode transpose_decode CODECS o cs dest qr S FO DS (Forall_inv OK) ltac:(lia)) as (os & out & new & ps & E & F1 & L1 & _). rewrite E in R.
    destruct (Sessions hash compress transpose_encode ss (dest ++ out)) as [[rs1 f1]|] eqn:R1; [|discriminate R]. injection R as _ <-.
    apply (IH (dest ++ out) (qr ++ new) _ rs1 f1 F1) with (3 := Forall_inv_tail OK) (2 := L1); [intros X; apply app_eq_nil in X as [X _]; congruence|lia| |exact R1].
    pose proof (file_nonempty hash hash_range decompress transpose_decode dest qr FO NE) as D0. apply (Session_second hash compress transpose_encode o cs dest os true (dest ++ out)); [|exact E].
    apply (open_second hash compress transpose_encode o dest); [intros X; rewrite X in D0; cbn in D0; lia|apply FO|exact SF].
  Qed.

  Lemma first_session o cs ss rs f : Forall session_ok ((o, cs) :: ss) -> sessions_size ((o, cs) :: ss) <= 2 ^ 62 -> o_metadata o = None ->
    Sessions hash compress transpose_encode ((o, cs) :: ss) [] = Some (rs, f) -> second_file f.
  Proof.
    intros OK SZ OM R. change (sessions_size ((o, cs) :: ss)) with (session_size (o, cs) + sessions_size ss) in *. pose proof (sessions_size_nonneg hash hash_range ss (Forall_inv_tail OK)) as SN.
    destruct (Forall_inv OK) as [O CB]. cbn [fst snd] in O, CB. cbn [Sessions] in R.
    destruct (session_step hash hash_range compress decompress transpose_encode transpose_decode CODECS o cs [] [] 0 (file_nil_ok _ _ _) ltac:(reflexivity) (Forall_inv OK) ltac:(lia)) as (os & out & new & ps & E & F1 & L1 & _ & _ & _ & _ & _ & _ & KO). rewrite E in R. cbn [app] in *.
    destruct (Sessions hash compress transpose_encode ss out) as [[rs1 f1]|] eqn:R1; [|discriminate R]. injection R as _ <-.
    apply (sessions_second ss out new _ rs1 f1 F1) with (3 := Forall_inv_tail OK) (2 := L1); [|lia| |exact R1].
    - destruct (KO eq_refl) as (more & KE). unfold opening in KE. intros ->. discriminate KE.
    - apply (Session_second hash compress transpose_encode o cs [] os true out); [|exact E]. intros b w N.
      pose proof (calls_size_nonneg hash hash_range o cs O) as C0. pose proof (padding_nonneg _ (oo_final o O)) as P0. unfold session_size in SZ. cbn [fst snd] in SZ.
      destruct (open_empty hash hash_range compress decompress transpose_encode transpose_decode CODECS o O ltac:(lia)) as (dest & qr & N1 & W & _ & KQ). rewrite N1 in N. injection N as _ <-.
      unfold opening in KQ. rewrite OM in KQ. destruct qr as [|x0 [|x1 l]]; try discriminate KQ. left. unfold wst. cbn [w_dest w_pos].
      destruct (first_chunk dest x0 [] (wi_f _ _ _ _ _ _ _ _ _ W)) as (e & o1 & o2 & _ & EF & L & -> & FL). cbn [map] in FL. inversion FL. subst o2. assert (zlen dest = 64) by (rewrite EF, app_nil_r; exact L). auto.
  Qed.

  (** What ReadSerializedMetadata() should return for a file written by sessions. *)
  Lemma metadata_read o cs ss : Forall session_ok ((o, cs) :: ss) -> sessions_size ((o, cs) :: ss) <= 2 ^ 62 ->
    exists rs file v, Sessions hash compress transpose_encode ((o, cs) :: ss) [] = Some (rs, file) /\
      records_of v = all_written ((o, cs) :: ss) /\ map Some (positions_of v) = all_positions ((o, cs) :: ss) rs /\ reads_as hash decompress transpose_decode file v /\
      exists d0, RR_CheckFileFormat hash file NewRecordReader = Some (true, d0) /\
      (forall d, d = NewRecordReader \/ d = d0 ->
        exists b m d', RR_ReadSerializedMetadata hash transpose_decode file d = Some (b, m, d') /\ rd_ok d' = true /\
          m = match o_metadata o with Some m => m | None => [] end /\ (b = false -> o_metadata o = None /\ all_written ((o, cs) :: ss) = []) /\
          forall calls, Forall (call_ok v (zlen file)) calls -> exists d'', reader_run hash decompress transpose_decode file calls d' = Some (cursor_run v calls 0, d'') /\ rd_ok d'' = true).
  Proof.
    intros OK SZ. destruct (sessions_file hash hash_range compress decompress transpose_encode transpose_decode CODECS _ OK SZ) as (rs & file & qr & ps & H1 & FO & _ & _ & _ & H5 & H6 & H4 & _ & more & KE).
    exists rs, file, (vw qr). split; [exact H1|]. split; [exact H4|]. split; [rewrite H6; symmetry; exact H5|]. split; [eapply read_ok; eassumption|].
    destruct (file_chain hash hash_range decompress transpose_decode file qr FO) as [FC FS]. pose proof (f_size _ _ _ _ _ FO) as FL0. pose proof (f_dec _ _ _ _ _ FO) as DEC. pose proof (f_sig _ _ _ _ _ FO) as SG. pose proof (f_ok _ _ _ _ _ FO) as OKC.
    assert (FLEN : zlen file + 64 <= 2 ^ 64) by lia. assert (NE : qr <> []) by (intros ->; discriminate KE).
    pose proof (start_new hash hash_range file qr FC FS) as SN. 
    destruct (start_check hash hash_range decompress transpose_decode file qr FC FS DEC NewRecordReader SN NE) as (d0 & CK & S0). exists d0. split; [exact CK|].
    intros d D. assert (SD : start hash file qr d) by (destruct D as [-> | ->]; assumption). clear D.
    destruct (metadata hash hash_range decompress transpose_decode file qr FC FS FLEN DEC SG OKC d qr eq_refl SD) as (b & m & d' & RM & RES).
    exists b, m, d'. split; [exact RM|].
    assert (RUN : rel hash file qr 0 d' -> rd_ok d' = true /\ forall calls, Forall (call_ok (vw qr) (zlen file)) calls -> exists d'', reader_run hash decompress transpose_decode file calls d' = Some (cursor_run (vw qr) calls 0, d'') /\ rd_ok d'' = true).
    { intros R. split; [apply base_ok; eapply rel_base; exact R|]. intros calls CO. exact (run_refines hash hash_range decompress transpose_decode file qr FC FS FLEN DEC calls 0 d' CO R). }
    destruct (o_metadata o) as [m0|] eqn:OM.
    - unfold opening in KE. rewrite OM in KE. destruct qr as [|x0 [|x l]]; try discriminate KE. injection KE as K0 K1 _. rewrite K1 in RES. cbn [k_type k_nrec k_data k_dsize] in RES. rewrite Z.eqb_refl in RES. change (0 =? 0) with true in RES. cbv iota in RES.
      destruct (Forall_inv OK) as [O _]. cbn [fst] in O. pose proof (oo_metadata o O) as MB. rewrite OM in MB. destruct MB as [MB ML].
      pose proof (ct_inverse _ _ _ _ CODECS o [m0] (oo_compression o O) ltac:(constructor; [exact MB|constructor]) ltac:(cbn [concat]; rewrite app_nil_r; change (zlen [m0]) with 1; lia)) as CI. cbn [concat] in CI. rewrite app_nil_r in CI. change (zlen [m0]) with 1 in CI. rewrite CI in RES.
      cbn [option_map snd metadata_result] in RES. destruct RES as (B & M & _ & R). destruct (RUN R) as [R1 R2]. split; [exact R1|]. split; [exact M|]. split; [rewrite B; discriminate|exact R2].
    - pose proof (first_session o cs ss rs file OK SZ OM H1) as SF.
      assert (RES2 : m = [] /\ rel hash file qr 0 d' /\ (b = false -> records_of (vw qr) = [])).
      { destruct qr as [|x0 [|x l]]; [congruence| |].
        - destruct RES as (-> & -> & R). split; [reflexivity|]. split; [exact R|]. intros _. unfold vw. cbn [map]. unfold records_of. cbn [map concat snd]. rewrite app_nil_r. apply (no_records hash hash_range decompress transpose_decode [x0] DEC [] x0 [] eq_refl). cbn [map] in SG. rewrite SG. reflexivity.
        - pose proof (second_type file x0 x l FO SF) as T. apply Z.eqb_neq in T. rewrite T in RES. destruct RES as (-> & -> & R). split; [reflexivity|]. split; [exact R|discriminate]. }
      destruct RES2 as (-> & R & BF). destruct (RUN R) as [R1 R2]. split; [exact R1|]. split; [reflexivity|]. split; [intros B; split; [reflexivity|rewrite <- H4; apply BF, B]|exact R2].
  Qed.

  Lemma run_rel F qr : chain hash F 0 (map fst qr) -> Forall (seek_ok hash F) (map fst qr) -> zlen F + 64 <= 2 ^ 64 -> Forall (decodes hash decompress transpose_decode) qr ->
    forall cs i d, Forall (call_ok (vw qr) (zlen F)) cs -> rel hash F qr i d ->
    exists d', reader_run hash decompress transpose_decode F cs d = Some (cursor_run (vw qr) cs i, d') /\ rel hash F qr (cursor_after (vw qr) cs i) d'.
  Proof.
    intros FC FS FL DEC. induction cs as [|c cs IH]; intros i d OK R; cbn [reader_run cursor_run cursor_after]; [eauto|].
    destruct (step_refines hash hash_range decompress transpose_decode F qr FC FS FL DEC c i d (Forall_inv OK) R) as (d1 & -> & R1). destruct (cursor_step (vw qr) c i) as [o i1]. cbn [fst snd] in *.
    destruct (IH i1 d1 (Forall_inv_tail OK) R1) as (d' & -> & O). eauto.
  Qed.

  Lemma check_any ss : Forall session_ok ss -> sessions_size ss <= 2 ^ 62 ->
    exists rs file v, Sessions hash compress transpose_encode ss [] = Some (rs, file) /\
      records_of v = all_written ss /\ map Some (positions_of v) = all_positions ss rs /\
      forall before after, Forall (call_ok v (zlen file)) before -> Forall (call_ok v (zlen file)) after ->
      exists d1 b d2 os d3, reader_run hash decompress transpose_decode file before NewRecordReader = Some (cursor_run v before 0, d1) /\
        RR_CheckFileFormat hash file d1 = Some (b, d2) /\ rd_ok d2 = true /\
        (b = false -> cursor_run v (before ++ [ReadNext]) 0 = cursor_run v before 0 ++ [Rec None None]) /\
        reader_run hash decompress transpose_decode file after d2 = Some (os, d3) /\ rd_ok d3 = true /\
        cursor_run v (before ++ after) 0 = cursor_run v before 0 ++ os.
  Proof.
    intros OK SZ. destruct (sessions_file hash hash_range compress decompress transpose_encode transpose_decode CODECS _ OK SZ) as (rs & file & qr & ps & H1 & FO & _ & _ & _ & H5 & H6 & H4 & _).
    exists rs, file, (vw qr). split; [exact H1|]. split; [exact H4|]. split; [rewrite H6; symmetry; exact H5|].
    destruct (file_chain hash hash_range decompress transpose_decode file qr FO) as [FC FS]. pose proof (f_size _ _ _ _ _ FO) as FL0. pose proof (f_dec _ _ _ _ _ FO) as DEC.
    assert (FLEN : zlen file + 64 <= 2 ^ 64) by lia. intros a b A B.
    destruct (run_rel file qr FC FS FLEN DEC a 0 NewRecordReader A) as (d1 & R1 & L1); [apply initial_rel; assumption|].
    destruct (check hash hash_range decompress transpose_decode file qr FC FS FLEN DEC _ d1 L1) as (r & d2 & CK & L2 & BF & _).
    destruct (run_refines hash hash_range decompress transpose_decode file qr FC FS FLEN DEC b _ d2 B L2) as (d3 & R3 & O3).
    exists d1, r, d2, (cursor_run (vw qr) b (cursor_after (vw qr) a 0)), d3. split; [exact R1|]. split; [exact CK|]. split; [apply base_ok; eapply rel_base; exact L2|].
    split; [|split; [exact R3|split; [exact O3|apply cursor_app]]]. intros E. rewrite cursor_app. f_equal. cbn [cursor_run cursor_step]. rewrite (BF E). reflexivity.
  Qed.

  Lemma layout_boundary p qs out e : file_layout hash p qs out e -> chunk_boundary p -> chunk_boundary e.
  Proof. induction 1 as [|p e k qs o1 o2 E CL FL IH]; intros B; [exact B|]. apply IH. apply CL. Qed.
  Lemma boundary_0 : chunk_boundary 0.
  Proof. apply IsPossibleChunkBoundary_iff. reflexivity. Qed.

  (** Metadata which cannot be decoded. *)
  Lemma bad_metadata file q0 q rest : file_layout hash 0 (map fst ((q0, []) :: (q, []) :: rest)) file (zlen file) -> zlen file <= 2 ^ 62 ->
    Forall (fun q => chunk_ok (q_chunk q)) (map fst ((q0, []) :: (q, []) :: rest)) -> Forall (decodes hash decompress transpose_decode) ((q0, []) :: (q, []) :: rest) ->
    q_chunk q0 = signature_chunk -> k_type (q_chunk q) = kFileMetadata -> transpose_decode (k_data (q_chunk q)) 1 (k_dsize (q_chunk q)) = None ->
    exists d1 d2, RR_ReadSerializedMetadata hash transpose_decode file NewRecordReader = Some (false, [], d1) /\ rd_ok d1 = false /\
      RR_Recover hash file d1 = Some (Some (q_begin q, q_end q), d2) /\ rd_ok d2 = true /\
      forall calls, Forall (call_ok (vw ((q0, []) :: (q, []) :: rest)) (zlen file)) calls ->
        exists d3, reader_run hash decompress transpose_decode file calls d2 = Some (cursor_run (vw ((q0, []) :: (q, []) :: rest)) calls 0, d3) /\ rd_ok d3 = true.
  Proof.
    intros L SZ OK DEC SG T TN. remember ((q0, []) :: (q, []) :: rest) as qr eqn:Q.
    assert (SG' : match map fst qr with [] => True | q :: _ => q_chunk q = signature_chunk end) by (rewrite Q; exact SG).
    assert (FO : file_ok file qr).
    { constructor; try assumption; [|lia]. exact (layout_boundary 0 _ _ _ L boundary_0). }
    destruct (file_chain hash hash_range decompress transpose_decode file qr FO) as [FC FS]. assert (FLEN : zlen file + 64 <= 2 ^ 64) by lia.
    pose proof (start_new hash hash_range file qr FC FS) as SN.
    destruct (metadata hash hash_range decompress transpose_decode file qr FC FS FLEN DEC SG' OK NewRecordReader _ Q SN) as (b & m & d1 & RM & RES).
    assert (RES' : b = false /\ m = [] /\ rd_ok d1 = false /\ rd_rec d1 = RRecoverChunkDecoder /\ exists d', RR_Recover hash file d1 = Some (Some (q_begin q, q_end q), d') /\ rel hash file qr 0 d').
    { cbn [fst] in RES. rewrite T, TN in RES. rewrite Z.eqb_refl in RES. cbn [option_map] in RES. destruct (k_nrec (q_chunk q) =? 0); exact RES. }
    destruct RES' as (-> & -> & K1 & K2 & d2 & RC & L2). exists d1, d2. split; [exact RM|]. split; [exact K1|]. split; [exact RC|]. split; [apply base_ok; eapply rel_base; exact L2|].
    intros calls CO. exact (run_refines hash hash_range decompress transpose_decode file qr FC FS FLEN DEC calls 0 d2 CO L2).
  Qed.
End Files.
