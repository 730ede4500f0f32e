(** Reading a damaged file with recovery loses only chunks near the damage. *)
From Verif Require Import Base.Bytes Model.Endian Model.Block Model.Chunk Model.ChunkWriter Model.ChunkReader
  Spec.BlockSpec Spec.FileSpec Spec.ChunkLink Spec.RecoverSpec Proof.EndianProof Proof.BlockProof Proof.ChunkWriterProof
  Proof.ChunkReaderProof Proof.FileProof Proof.StaticRead Proof.AnyRead Proof.RecoverProof.

Lemma payload_at_pay content p n : 0 <= p -> chunk_boundary p -> 0 <= n -> add_ov p n <= zlen content ->
  payload_at content p n = pay content p (add_ov p n).
Proof.
  intros Hp Hb Hn HL. destruct (add_ov_spec p n Hp Hb Hn) as (A & B & C & _).
  unfold payload_at, pay. rewrite <- (ztake_zdrop (add_ov p n - p) (zdrop p content)). fold (zslice p (add_ov p n - p) content).
  rewrite strip_app. rewrite ztake_app_l.
  - apply ztake_all. rewrite zlen_strip by lia. rewrite zlen_zslice by lia. replace (p + (add_ov p n - p)) with (add_ov p n) by lia. lia.
  - rewrite zlen_strip by lia. rewrite zlen_zslice by lia. replace (p + (add_ov p n - p)) with (add_ov p n) by lia. lia.
Qed.

Lemma pay_eq_of_slice F G p q : zslice p (q - p) F = zslice p (q - p) G -> pay F p q = pay G p q.
Proof. intros H. unfold pay. rewrite H. reflexivity. Qed.

Section Local.
  Variable hash : list Z -> Z.
  Hypothesis hash_range : forall l, 0 <= hash l < 2 ^ 64.

  Definition hdr (q : placed) : list Z := c_header (mk_chunk hash (q_chunk q)).
  Definition dpos (q : placed) : Z := add_ov (q_begin q) (40 + zlen (k_data (q_chunk q))).

  Record placed_ok (F : list Z) (q : placed) : Prop := {
    po_p : 0 <= q_begin q; po_b : chunk_boundary (q_begin q); po_k : chunk_ok (q_chunk q);
    po_e : chunk_boundary (q_end q); po_le : q_end q <= zlen F; po_d : dpos q <= q_end q;
    po_end : q_end q = ChunkEnd (zlen (k_data (q_chunk q))) (k_nrec (q_chunk q)) (q_begin q);
    po_hdr : pay F (q_begin q) (add_ov (q_begin q) 40) = hdr q;
    po_data : pay F (add_ov (q_begin q) 40) (dpos q) = k_data (q_chunk q);
    po_blk : forall K, q_begin q <= K < q_end q -> K mod 65536 = 0 -> 
       K + 24 <= q_end q /\ zslice K 24 F = BlockHeader hash (K - q_begin q) (q_end q - K);
    po_sig : q_begin q = 0 -> q_chunk q = signature_chunk;
    po_lt : q_begin q + 40 <= add_ov (q_begin q) 40 <= dpos q }.

  Inductive chain (F : list Z) : Z -> list placed -> Prop :=
  | chain_nil : chain F (zlen F) []
  | chain_cons q qs : placed_ok F q -> chain F (q_end q) qs -> chain F (q_begin q) (q :: qs).

  Lemma layout_chain : forall qs p pre out E, file_layout hash p qs out E -> zlen pre = p -> E + 64 <= 2 ^ 64 ->
    0 <= p -> chunk_boundary p -> Forall (fun q => chunk_ok (q_chunk q)) qs -> sig_at p qs -> E = zlen (pre ++ out) ->
    chain (pre ++ out) p qs.
  Proof.
    induction qs as [|q qs IH]; intros p pre out E L ZP HE Hp Hb OK SG EE; inversion L as [p0|p0 e k qs0 out1 out2 E0 CL FL]; subst.
    - rewrite app_nil_r. constructor.
    - pose proof (Forall_inv OK) as K. cbn in K. pose proof (Forall_inv_tail OK) as OK'.
      remember (zlen pre) as p. remember (pre ++ out1 ++ out2) as F.
      assert (ZO : zlen out1 = e - p) by apply CL.
      assert (FE : chunk_boundary e).
      { destruct CL as (_ & ((C & _) & _) & _). exact C. }
      assert (PE : p <= e) by (pose proof (zlen_nonneg out1); lia).
      destruct (file_layout_facts hash hash_range e qs out2 _ FL HE ltac:(lia) FE OK') as [FF1 FF2].
      pose proof (zlen_nonneg out2) as ZO2.
      destruct (layout_image hash hash_range p e k out1 CL Hp Hb K ltac:(lia)) as (I1 & I2 & I3).
      destruct (mk_chunk_wf hash hash_range k K) as (W1 & W2 & W3 & W4 & W5 & W6).
      destruct (cend_spec (mk_chunk hash k) p Hp Hb W1 I2) as (C1 & C2 & C3 & C4 & C5 & C6). rewrite <- I1 in *.
      rewrite W3, W6 in C1. cbn [c_data mk_chunk] in C4.
      assert (SL : zslice p (e - p) F = out1).
      { subst F. rewrite zslice_mid by lia. rewrite <- Heqp, Z.sub_diag. unfold zslice. rewrite zdrop_nonpos by lia. apply ztake_all. lia. }
      assert (LF : e <= zlen F) by lia.
      destruct CL as (_ & _ & (pad & ST) & BK).
      assert (PY : pay F p e = hdr (Placed p e k) ++ k_data k ++ zeros pad).
      { unfold pay. rewrite SL, ST. unfold hdr, mk_chunk. cbn [c_header q_chunk]. rewrite ChunkHeader_bytes by assumption. reflexivity. }
      pose proof (zlen_nonneg (k_data k)) as ZD.
      destruct (add_ov_spec p 40 Hp Hb ltac:(lia)) as (H1 & H2 & H3 & _).
      destruct (add_ov_spec p (40 + zlen (k_data k)) Hp Hb ltac:(lia)) as (D1 & D2 & D3 & _).
      assert (HD : add_ov p 40 <= add_ov p (40 + zlen (k_data k))) by (apply boundary_le; try assumption; lia).
      assert (DE : add_ov p (40 + zlen (k_data k)) <= e) by (apply boundary_le; try assumption; lia).
      assert (ZH : zlen (hdr (Placed p e k)) = 40) by apply W1.
      rewrite (pay_split F p (add_ov p 40)) in PY by lia.
      apply app_inv_zlen in PY; [|rewrite zlen_pay by lia; lia]. destruct PY as [PY1 PY2].
      rewrite (pay_split F (add_ov p 40) (add_ov p (40 + zlen (k_data k)))) in PY2 by lia.
      apply app_inv_zlen in PY2; [|rewrite zlen_pay by lia; lia]. destruct PY2 as [PY2 _].
      change p with (q_begin (Placed p e k)) at 1. constructor.
      + constructor; cbn [q_begin q_end q_chunk]; try assumption; unfold dpos; cbn [q_begin q_chunk]; try assumption; try lia.
        intros KK K1 K2. destruct (BK KK K1 K2) as [B1 B2]. split; [assumption|]. rewrite BlockHeader_bytes by assumption.
          rewrite <- B2. rewrite <- SL. unfold zslice at 1 2. unfold zslice. rewrite zdrop_ztake by lia. rewrite ztake_ztake. rewrite zdrop_zdrop by lia.
          f_equal; [lia|]. f_equal. lia.
      + cbn [q_end]. rewrite HeqF, app_assoc. eapply IH; try eassumption; try lia.
        * rewrite zlen_app. lia.
        * apply sig_at_later. lia.
        * rewrite <- app_assoc, <- HeqF. reflexivity.
  Qed.
  
  Lemma valid_chain qs F : valid_file hash 0 qs F -> chain F 0 qs.
  Proof.
    intros [S OK SG (pre & out & E & ZP & L) SZ]. assert (pre = []) as -> by (apply zlen_0_nil; assumption). cbn [app] in E. subst out.
    apply (layout_chain qs 0 [] F (zlen F)); try assumption; try reflexivity; try apply S.
  Qed.
  Lemma sl_same {A} (a b m m' : list A) x n : zlen m = zlen m' -> 0 <= x -> 0 <= n -> x + n <= zlen a \/ zlen a + zlen m <= x ->
    zslice x n (a ++ m' ++ b) = zslice x n (a ++ m ++ b).
  Proof.
    intros L X N [H|H]; unfold zslice.
    - rewrite !zdrop_app_l by lia. rewrite !ztake_app_l by (rewrite zlen_zdrop; lia). reflexivity.
    - pose proof (zlen_nonneg m). rewrite !zdrop_app_r by lia. rewrite L. reflexivity.
  Qed.

  Section Damage.
    Variables F G : list Z.
    Variables P Q : Z.
    Variable qs0 : list placed.
    Hypothesis lenFG : zlen G = zlen F.
    Hypothesis PQ : 0 <= P <= Q.
    Hypothesis same : forall x n, 0 <= x -> 0 <= n -> x + n <= P \/ Q <= x -> zslice x n G = zslice x n F.
    Hypothesis gbytes : bytes G.
    Hypothesis glen : zlen G < 2 ^ 62.
    Hypothesis FC : chain F 0 qs0.
    Hypothesis NF : no_forgery hash F G qs0.

    Lemma chain_le p qs : chain F p qs -> 0 <= p -> p <= zlen F /\ Forall (fun q => p <= q_begin q /\ q_begin q < q_end q /\ q_end q <= zlen F) qs.
    Proof using Type.
      clear. induction 1 as [|q qs [] C IH]; intros Hp; [split; [lia|constructor]|].
      assert (q_begin q < q_end q) by lia. destruct IH as [I1 I2]; [lia|]. split; [lia|]. constructor; [lia|].
      eapply Forall_impl; [|exact I2]. cbv beta. intros; lia.
    Qed.

    Lemma locate K : forall p qs, chain F p qs -> p <= K < zlen F ->
      exists qs1 q qs2, qs = qs1 ++ q :: qs2 /\ q_begin q <= K < q_end q /\ Forall (fun q => q_begin q < K) qs1 /\
        chain F (q_begin q) (q :: qs2) /\ placed_ok F q.
    Proof using Type.
      clear. induction 1 as [|q qs O C IH]; intros HK; [lia|].
      destruct (Z_lt_ge_dec K (q_end q)).
      - exists [], q, qs. split; [reflexivity|]. split; [lia|]. split; [constructor|]. split; [constructor; assumption|assumption].
      - destruct (IH ltac:(lia)) as (qs1 & q' & qs2 & -> & A & B & C' & D). exists (q :: qs1), q', qs2. split; [reflexivity|]. split; [assumption|].
        split; [|split; assumption]. constructor; [destruct O; lia|assumption].
    Qed.

    Lemma valid_form b n : bytes b -> zlen b = n -> 8 <= n -> hash (skipn 8 b) = ReadLittleEndianArray (firstn 8 b) ->
      le64 (hash (zdrop 8 b)) = ztake 8 b.
    Proof using Type.
      clear. intros B L N E. rewrite le64_eq. change (zdrop 8 b) with (skipn 8 b). change (ztake 8 b) with (firstn 8 b). rewrite E.
      apply le8_inv; [apply (bytes_ztake 8); assumption|]. rewrite firstn_length. unfold zlen in L. lia.
    Qed.

    Lemma block_orig K q : placed_ok F q -> q_begin q <= K < q_end q -> K mod 65536 = 0 -> blk_valid hash G K ->
      bh_previous_chunk (blk_at G K) = K - q_begin q /\ bh_next_chunk (blk_at G K) = q_end q - K.
    Proof using All.
      intros O HK K0 V. destruct O. destruct (po_blk0 K HK K0) as [B1 B2].
      assert (E : blk_at G K = BlockHeader hash (K - q_begin q) (q_end q - K)).
      { rewrite <- B2. unfold blk_at. apply (nf_block _ _ _ _ NF K); try lia. eapply valid_form; [|apply zlen_zslice; lia|lia|exact V]. apply bytes_ztake, bytes_zdrop. assumption. }
      rewrite E. destruct (BlockHeader_codec hash hash_range (K - q_begin q) (q_end q - K) ltac:(lia) ltac:(lia)) as (_ & _ & X & Y & _). auto.
    Qed.
    Lemma block_damaged K q : placed_ok F q -> q_begin q <= K < q_end q -> K mod 65536 = 0 -> ~ blk_valid hash G K -> K < Q /\ P < K + 24.
    Proof using All.
      intros O HK K0 V. destruct (Z_lt_ge_dec K Q) as [X|X], (Z_lt_ge_dec P (K + 24)) as [Y|Y]; try (split; assumption); exfalso; apply V;
      destruct O; destruct (po_blk0 K HK K0) as [B1 B2]; unfold blk_valid, blk_at; rewrite same by lia; rewrite B2;
      destruct (BlockHeader_codec hash hash_range (K - q_begin q) (q_end q - K) ltac:(lia) ltac:(lia)) as (_ & _ & _ & _ & X'); symmetry; exact X'.
    Qed.
    Lemma at_block K : 0 <= K -> K mod 65536 = 0 -> K + 24 <= zlen G -> exists q, placed_ok F q /\ q_begin q <= K < q_end q.
    Proof using All.
      intros K1 K2 K3. destruct (locate K 0 qs0 FC ltac:(lia)) as (qs1 & q & qs2 & _ & A & _ & _ & B). exists q. auto.
    Qed.
    Lemma honestG : forall K, 0 <= K -> K mod 65536 = 0 -> K + 24 <= zlen G -> blk_valid hash G K ->
      (bh_previous_chunk (blk_at G K) = 0 \/ 0 < bh_next_chunk (blk_at G K)) /\ K + bh_next_chunk (blk_at G K) + 65536 <= 2 ^ 64.
    Proof using All.
      intros K K1 K2 K3 V. destruct (at_block K K1 K2 K3) as (q & O & B). destruct (block_orig K q O B K2 V) as [E1 E2]. rewrite E1, E2.
      pose proof (po_le _ _ O). lia.
    Qed.

    Lemma lands_chain B o : lands hash G B o -> forall p qs, chain F p qs -> 0 <= p <= B -> B <= rup (Q + 63) -> B mod 65536 = 0 ->
      exists qs1 qs2, qs = qs1 ++ qs2 /\ Forall (fun q => q_begin q < rup (Q + 63)) qs1 /\
        match o with At e => chain F e qs2 | _ => qs2 = [] end.
    Proof using All.
      assert (ALL : forall p qs, chain F p qs -> 0 <= p -> zlen F <= rup (Q + 63) -> Forall (fun q => q_begin q < rup (Q + 63)) qs).
      { intros p qs C Hp HL. destruct (chain_le p qs C Hp) as [_ H]. eapply Forall_impl; [|exact H]. cbv beta. intros. lia. }
      induction 1 as [B H|B H|B o H V L IH|B H V Pv|B H V Pv N L|B H V Pv N L|B o H V Pv N L IH]; intros p qs C HP HB HM.
      - exists qs, []. split; [symmetry; apply app_nil_r|]. split; [|reflexivity]. eapply ALL; [eassumption| |]; lia.
      - exists qs, []. split; [symmetry; apply app_nil_r|]. split; [|reflexivity].
        destruct (Z_lt_ge_dec B (zlen F)) as [X|X].
        + destruct (locate B p qs C ltac:(lia)) as (_ & q & _ & _ & A & _ & _ & O). destruct (po_blk _ _ O B A HM). pose proof (po_le _ _ O). lia.
        + eapply ALL; [eassumption| |]; lia.
      - destruct (at_block B ltac:(lia) HM H) as (q & O & A). destruct (block_damaged B q O A HM V) as [D1 D2].
        assert ((B + 65536) mod 65536 = 0) by (clear - HM; dml).
        apply (IH p); try assumption; try lia. destruct (rup_spec (Q + 63) ltac:(lia)) as [R1 R2].
        assert (B < rup (Q + 63)) by lia. clear - HM R2 H1. dml.
      - destruct (locate B p qs C ltac:(lia)) as (qs1 & q & qs2 & E & A & A2 & C2 & O). destruct (block_orig B q O A HM V) as [E1 E2].
        exists qs1, (q :: qs2). split; [assumption|]. split; [eapply Forall_impl; [|exact A2]; cbv beta; intros; lia|].
        replace B with (q_begin q) by lia. assumption.
      - destruct (locate B p qs C ltac:(lia)) as (qs1 & q & qs2 & E & A & A2 & C2 & O). destruct (block_orig B q O A HM V) as [E1 E2].
        exists (qs1 ++ [q]), qs2. split; [rewrite <- app_assoc; assumption|]. split.
        + apply Forall_app. split; [eapply Forall_impl; [|exact A2]; cbv beta; intros; lia|]. constructor; [|constructor]. lia.
        + rewrite E2. replace (B + (q_end q - B)) with (q_end q) by lia. inversion C2; subst; assumption.
      - destruct (at_block B ltac:(lia) HM H) as (q & O & A). destruct (block_orig B q O A HM V) as [E1 E2]. pose proof (po_le _ _ O). lia.
      - destruct (at_block B ltac:(lia) HM H) as (q & O & A). destruct (block_orig B q O A HM V) as [E1 E2]. exfalso. apply N.
        rewrite E2. replace (B + (q_end q - B)) with (q_end q) by lia. apply O.
    Qed.

    Lemma header_orig q : placed_ok F q -> In q qs0 -> have_header hash G (q_begin q) -> header_at G (q_begin q) = hdr q.
    Proof using All.
      intros O I [H1 H2]. pose proof O as O'. destruct O'. unfold header_at, hend in *.
      rewrite <- payload_at_pay by (try assumption; lia). unfold hdr, mk_chunk. cbn [c_header].
      rewrite ChunkHeader_bytes by assumption. apply (nf_header _ _ _ _ NF q I).
      destruct (hend_spec hash G (q_begin q) po_p0 po_b0) as (A & B & C & _).
      eapply valid_form; [| |exact (ltac:(lia) : 8 <= 40)|]; rewrite payload_at_pay by (try assumption; lia).
      - apply bytes_pay. assumption.
      - rewrite zlen_pay by lia. exact C.
      - exact H2.
    Qed.
    Lemma fields_orig q : placed_ok F q -> In q qs0 -> have_header hash G (q_begin q) ->
      ch_data_size (header_at G (q_begin q)) = zlen (k_data (q_chunk q)) /\ dend G (q_begin q) = dpos q /\ end_at G (q_begin q) = q_end q.
    Proof using All.
      intros O I H. pose proof (header_orig q O I H) as E. unfold dend, end_at. rewrite E.
      destruct (mk_chunk_wf hash hash_range (q_chunk q) (po_k _ _ O)) as (_ & _ & W3 & _ & _ & W6). unfold hdr. rewrite W6, W3.
      split; [reflexivity|]. split; [reflexivity|]. symmetry. apply O.
    Qed.

    Definition lossy (q : placed) : Prop := P < q_end q /\ q_begin q < rup (Q + 63).

    Lemma fail_cases q r : placed_ok F q -> In q qs0 -> failed_at hash G (q_begin q) r ->
      P < q_end q /\ q_begin q < rup (Q + 63) /\
      ((r_rec r = kHaveChunk /\ r_recpos r = q_end q) \/
       (r_rec r = kFindChunk /\ 0 <= r_recpos r /\ q_begin q < rup (r_recpos r) /\ rup (r_recpos r) <= rup (Q + 63))).
    Proof using All.
      intros O I X. destruct X as [_ _ _ R _ _ _]. remember (r_rec r) as k. remember (r_recpos r) as y. clear r Heqk Heqy.
      pose proof (po_p _ _ O) as Hp. pose proof (po_b _ _ O) as Hb. pose proof (po_d _ _ O) as Hd. pose proof (po_lt _ _ O) as Hl. pose proof (po_le _ _ O) as He.
      destruct (hend_spec hash G (q_begin q) Hp Hb) as (H1 & H2 & H3 & H4 & H5). fold (hend (q_begin q)) in Hl.
      destruct (rup_spec (Q + 63) ltac:(lia)) as [R1 R2].
      assert (INS : forall K, inside hash G (q_begin q) K -> K < q_end q).
      { intros K [Y|[Y1 Y2]]; [lia|]. destruct (fields_orig q O I Y1) as (_ & E & _). lia. }
      assert (NXT : forall K, have_header hash G (q_begin q) -> blk_bounds G (q_begin q) K -> K < q_end q -> blk_valid hash G K -> bh_next_chunk (blk_at G K) = u64 (end_at G (q_begin q) - K)).
      { intros K Y1 (B1 & B2 & B3) B4 V. destruct (block_orig K q O ltac:(lia) B2 V) as [_ E]. destruct (fields_orig q O I Y1) as (_ & _ & E'). rewrite E, E'. symmetry. apply u64_small. lia. }
      assert (MONO : forall a, 0 <= a <= Q + 63 -> rup a <= rup (Q + 63)) by (intros a Ha; apply rup_least; lia).
      assert (GE : forall a, 0 <= a -> a <= rup a) by (intros a Ha; destruct (rup_spec a Ha); lia).
      destruct R as [K B In' V|K B In' V Pv N|K B In' V Pv|H V|K H B L V N|H E S|K H B L V N|H L D].
      - pose proof (INS K In') as KE. destruct B as (B1 & B2 & B3). destruct (block_damaged K q O ltac:(lia) B2 V) as [D1 D2].
        destruct (po_blk _ _ O K ltac:(lia) B2) as [B4 _]. split; [lia|]. split; [lia|]. right. split; [reflexivity|]. split; [lia|].
        pose proof (GE (K + 24)). split; [lia|]. apply rup_least; try lia.
      - exfalso. pose proof (INS K In') as KE. destruct B as (B1 & B2 & B3). destruct (block_orig K q O ltac:(lia) B2 V). congruence.
      - exfalso. pose proof (INS K In') as KE. destruct B as (B1 & B2 & B3). destruct (block_orig K q O ltac:(lia) B2 V). congruence.
      - assert (X : q_begin q < Q /\ P < hend (q_begin q)).
        { destruct (Z_lt_ge_dec (q_begin q) Q) as [X|X], (Z_lt_ge_dec P (hend (q_begin q))) as [Y|Y]; try (split; assumption); exfalso; apply V;
          unfold header_at; rewrite <- (pay_eq_of_slice F G) by (symmetry; apply same; lia); unfold hend; rewrite (po_hdr _ _ O); unfold header_valid, hdr;
          destruct (mk_chunk_wf hash hash_range (q_chunk q) (po_k _ _ O)) as (_ & [W _] & _); symmetry; exact W. }
        split; [lia|]. split; [lia|]. right. split; [reflexivity|]. split; [lia|]. pose proof (GE (hend (q_begin q))). split; [lia|]. apply MONO. lia.
      - exfalso. apply N. apply NXT; try assumption. lia.
      - exfalso. apply S. rewrite (header_orig q O I H). pose proof (po_sig _ _ O E) as SC.
        destruct (mk_chunk_wf hash hash_range (q_chunk q) (po_k _ _ O)) as (_ & _ & W1 & W2 & W3 & W4). unfold hdr. rewrite W1, W2, W3, W4, SC. cbn. auto.
      - exfalso. apply N. destruct (fields_orig q O I H) as (_ & E & _). apply NXT; try assumption. lia.
      - destruct (fields_orig q O I H) as (E1 & E2 & E3).
        assert (X : hend (q_begin q) < Q /\ P < dpos q).
        { destruct (Z_lt_ge_dec (hend (q_begin q)) Q) as [X|X], (Z_lt_ge_dec P (dpos q)) as [Y|Y]; try (split; assumption); exfalso; apply D;
          rewrite (header_orig q O I H); unfold data_at; rewrite E2; rewrite <- (pay_eq_of_slice F G) by (symmetry; apply same; lia); unfold hend; rewrite (po_data _ _ O);
          destruct (mk_chunk_wf hash hash_range (q_chunk q) (po_k _ _ O)) as (_ & [_ W] & _); unfold hdr; symmetry; exact W. }
        split; [lia|]. split; [lia|]. left. split; [reflexivity|assumption].
    Qed.

    Lemma good_orig q c : placed_ok F q -> In q qs0 -> good_chunk hash G (q_begin q) c -> c = mk_chunk hash (q_chunk q) /\ end_at G (q_begin q) = q_end q.
    Proof using All.
      intros O I (G1 & G2 & G3 & G4 & G5 & G6 & G7 & G8). destruct G1 as (HH & _ & _).
      destruct (fields_orig q O I HH) as (E1 & E2 & E3). split; [|assumption]. rewrite G2.
      pose proof (header_orig q O I HH) as EH. rewrite EH in *.
      assert (ED : data_at G (q_begin q) = k_data (q_chunk q)); [|rewrite ED; reflexivity].
      pose proof (po_p _ _ O) as Hp. pose proof (po_b _ _ O) as Hb. pose proof (po_d _ _ O) as Hd. pose proof (po_lt _ _ O) as Hl. pose proof (po_le _ _ O) as He.
      destruct (hend_spec hash G (q_begin q) Hp Hb) as (H1 & H2 & H3 & H4 & H5). fold (hend (q_begin q)) in Hl.
      destruct (mk_chunk_wf hash hash_range (q_chunk q) (po_k _ _ O)) as (_ & [_ W] & _).
      pose proof (zlen_nonneg (k_data (q_chunk q))) as ZN.
      assert (EP : zdrop 40 (payload_at G (q_begin q) (40 + zlen (k_data (q_chunk q)))) = data_at G (q_begin q)).
      { rewrite payload_at_pay by (try assumption; try lia; unfold dpos in *; lia). fold (dpos q). unfold data_at. rewrite E2.
        rewrite (pay_split G (q_begin q) (hend (q_begin q))) by lia.
        rewrite zdrop_app_r by (rewrite zlen_pay by lia; lia). rewrite zlen_pay by lia. rewrite H3. apply zdrop_nonpos. lia. }
      rewrite <- EP. apply (nf_data _ _ _ _ NF q I). rewrite EP, G5. exact W.
    Qed.

    Definition gotten (q : placed) : event := Got (q_begin q) (mk_chunk hash (q_chunk q)) (q_end q).

    Lemma selects_all qs : Forall lossy qs -> selects lossy qs [].
    Proof using Type. induction 1; [constructor|apply sel_drop; assumption]. Qed.
    Lemma selects_app qs1 qs2 qs' : Forall lossy qs1 -> selects lossy qs2 qs' -> selects lossy (qs1 ++ qs2) qs'.
    Proof using Type. induction 1; intros; cbn [app]; [assumption|apply sel_drop; auto]. Qed.

    Lemma chain_boundary p qs : chain F p qs -> chunk_boundary p -> chunk_boundary (zlen F).
    Proof using Type. induction 1 as [|q qs O C IH]; intros Hb; [exact Hb|]. apply IH, (po_e _ _ O). Qed.
    Lemma local_static : forall fuel p qs r, chain F p qs -> 0 <= p -> incl qs qs0 -> start hash G p r -> (Z.to_nat (zlen G - p) + 2 <= fuel)%nat ->
      exists es r' qs', ReadAllRecovering hash fuel G r = Some (es, r') /\ selects lossy qs qs' /\ got_events es = map gotten qs' /\ r_ok r' = true /\ tiles p es (zlen G).
    Proof using All.
      induction fuel as [|fuel IH]; intros p qs r C Hp IN S HF; [lia|]. cbn [ReadAllRecovering].
      destruct (ReadChunk_static hash G gbytes glen p r S) as (o & r1 & -> & X). pose proof S as S0. destruct S0.
      destruct C as [|q qs O C].
      { destruct o as [c|].
        - destruct X as [(_ & _ & _ & _ & _ & _ & G7 & G8) _]. lia.
        - destruct X as [X|X]; [|destruct X; lia].
          rewrite recover_none by apply X. eexists _, _, []. split; [reflexivity|]. split; [constructor|]. split; [reflexivity|]. split; [unfold r_ok; destruct X as [-> -> _ _ _]; reflexivity|]. rewrite lenFG. constructor. }
      assert (IQ : In q qs0) by (apply IN; left; reflexivity).
      assert (IN' : incl qs qs0) by (intros z Hz; apply IN; right; assumption).
      pose proof (po_d _ _ O) as Hd. pose proof (po_lt _ _ O) as Hl. pose proof (po_le _ _ O) as He. pose proof (po_e _ _ O) as Hbe.
      destruct o as [c|].
      - destruct X as [GC FR]. destruct (good_orig q c O IQ GC) as [EC EE]. rewrite EE in FR.
        assert (S1 : start hash G (q_end q) r1).
        { destruct FR. constructor; try assumption; [lia|]. left. assumption. }
        destruct (IH _ _ _ C ltac:(lia) IN' S1 ltac:(lia)) as (es & r' & qs' & -> & T1 & T2 & T3 & T4).
        eexists _, _, (q :: qs'). split; [reflexivity|]. split; [apply sel_keep; assumption|]. split; [|split; [assumption|]].
        2:{ rewrite s_pos, (f_pos _ _ FR). apply tiles_got; [lia|assumption]. }
        cbn [got_events filter map]. fold (got_events es). rewrite T2, s_pos, (f_pos _ _ FR), EC. reflexivity.
      - destruct X as [X|X].
        + exfalso. destruct X as [_ _ _ _ [W|[HH W]]]; unfold hend in *; [lia|]. destruct (fields_orig q O IQ HH) as (_ & E2 & E3). lia.
        + pose proof (failed_recov hash G gbytes glen honestG (q_begin q) r S r1 X) as RV. destruct (fail_cases q r1 O IQ X) as (L1 & L2 & FC').
          destruct (Recover_static hash G gbytes glen honestG (q_begin q) r1 RV) as (o & e & r2 & -> & T & L).
          pose proof (target_after hash G honestG (q_begin q) r1 o RV T) as TA. rewrite (landed_pos _ _ _ _ _ L) in *.
          assert (SPLIT : exists qs1 qs2, q :: qs = qs1 ++ qs2 /\ Forall lossy qs1 /\ match o with At e => chain F e qs2 | _ => qs2 = [] end).
          { destruct FC' as [[K1 K2]|(K1 & K2 & K3 & K4)].
            - destruct T as [(T1 & T2 & [[T3 ->]|[T3 ->]])|[[[T1|(T1 & T2 & T4)] T3]|(T1 & T2 & ->)]]; try congruence; rewrite ?K2 in *; try lia; try contradiction.
              exists [q], qs. split; [reflexivity|]. split; [|assumption]. constructor; [split; assumption|constructor].
            - destruct T as [(T1 & T2 & _)|[[[T1|(T1 & T2 & T4)] T3]|(T1 & T2 & ->)]]; try congruence.
              destruct (rup_spec (r_recpos r1) K2) as [RR1 RR2].
              destruct (lands_chain _ _ T3 (q_begin q) (q :: qs) ltac:(constructor; assumption) ltac:(lia) K4 RR2) as (qs1 & qs2 & E & A & B).
              exists qs1, qs2. split; [assumption|]. split; [|assumption].
              destruct (chain_le _ _ C ltac:(lia)) as [_ CL].
              assert (ALL : Forall (fun z => P < q_end z) (q :: qs)).
              { constructor; [assumption|]. eapply Forall_impl; [|exact CL]. cbv beta. intros; lia. }
              rewrite E in ALL. apply Forall_app in ALL as [ALL _]. rewrite Forall_forall in *. intros z Hz. split; auto. }
          destruct SPLIT as (qs1 & qs2 & E & A & B). destruct fuel as [|fuel]; [lia|].
          destruct o as [e'|e'|].
          * destruct L as [_ L]. cbn [lpos] in *. 
            assert (IN2 : incl qs2 qs0) by (intros z Hz; apply IN; rewrite E; apply in_or_app; right; assumption).
            destruct (IH _ _ _ B ltac:(lia) IN2 L ltac:(lia)) as (es & r' & qs' & -> & T1 & T2 & T3 & T4).
            eexists _, _, qs'. split; [reflexivity|]. split; [|split; [exact T2|split; [assumption|apply tiles_skip; [lia|assumption]]]]. rewrite E. apply selects_app; assumption.
          * destruct L as [_ L]. cbn [lpos] in *. destruct (read_tail hash G glen honestG _ _ L) as (r3 & E3 & E4 & E5 & E6). cbn [ReadAllRecovering]. rewrite E3, recover_none by assumption.
            assert (EG : e' = zlen G).
            { pose proof (chain_boundary _ _ (chain_cons _ _ _ O C) (po_b _ _ O)) as CB. destruct L as [_ _ _ _ _ (L5 & L6 & L7)]. rewrite lenFG in *. unfold chunk_boundary in CB. clear - CB L5 L6 L7. dml. }
            eexists _, _, []. split; [reflexivity|]. split; [|split; [reflexivity|split; [assumption|apply tiles_skip; [lia|rewrite EG; constructor]]]]. rewrite E, B. apply selects_app; [assumption|constructor].
          * destruct L as [_ L]. cbn [lpos] in *. destruct (read_over hash G _ L) as (r3 & E3 & E4 & E5 & E6). cbn [ReadAllRecovering]. rewrite E3, recover_none by assumption.
            eexists _, _, []. split; [reflexivity|]. split; [|split; [reflexivity|split; [assumption|apply tiles_skip; [lia|constructor]]]]. rewrite E, B. apply selects_app; [assumption|constructor].
    Qed.
  End Damage.

  Theorem local_damage qs a m m' b fuel : valid_file hash 0 qs (a ++ m ++ b) -> zlen m' = zlen m -> bytes (a ++ m' ++ b) ->
    zlen (a ++ m' ++ b) < 2 ^ 62 -> no_forgery hash (a ++ m ++ b) (a ++ m' ++ b) qs -> (length (a ++ m' ++ b) + 3 <= fuel)%nat ->
    exists es r' qs', ReadAllRecovering hash fuel (a ++ m' ++ b) (InitializeReader 0) = Some (es, r') /\
      tiles 0 es (zlen (a ++ m' ++ b)) /\ r_ok r' = true /\
      got_events es = map (fun q => Got (q_begin q) (mk_chunk hash (q_chunk q)) (q_end q)) qs' /\
      selects (fun q => zlen a < q_end q /\ q_begin q < rup (zlen a + zlen m + 63)) qs qs'.
  Proof.
    intros V L B N NF HF. pose proof (valid_chain _ _ V) as C.
    assert (LL : zlen (a ++ m' ++ b) = zlen (a ++ m ++ b)) by (rewrite !zlen_app; lia).
    pose proof (zlen_nonneg a) as ZA. pose proof (zlen_nonneg m) as ZM.
    assert (SM : forall x n, 0 <= x -> 0 <= n -> x + n <= zlen a \/ zlen a + zlen m <= x -> zslice x n (a ++ m' ++ b) = zslice x n (a ++ m ++ b)).
    { intros. apply sl_same; try assumption; lia. }
    remember (a ++ m ++ b) as F. remember (a ++ m' ++ b) as G.
    assert (H := honestG F G (zlen a) (zlen a + zlen m) qs LL ltac:(lia) SM B N C NF).
    assert (ZN : zlen G = Z.of_nat (length G)) by reflexivity.
    assert (S : start hash G 0 (InitializeReader 0)).
    { constructor; cbn; try reflexivity; try lia; try (left; reflexivity). }
    destruct (local_static F G (zlen a) (zlen a + zlen m) qs LL ltac:(lia) SM B N C NF fuel 0 qs (InitializeReader 0) C ltac:(lia) (incl_refl qs) S ltac:(lia)) as (es & r' & qs' & E & E1 & E2 & E3 & E4).
    exists es, r', qs'. repeat split; assumption.
  Qed.
End Local.
