(** Records of a file which has been damaged. *)
From Verif Require Import Base.Bytes Model.Endian Model.Block Model.Chunk Model.SimpleChunk Model.ChunkReader Model.ChunkDecoder Model.RecordWriter Model.RecordReader Model.RecordRecovery
  Spec.BlockSpec Spec.FileSpec Spec.ChunkLink Spec.RecoverSpec Spec.RecordsSpec Spec.CursorSpec Spec.SessionSpec Spec.RecordRecoverSpec
  Proof.BlockProof Proof.ChunkReaderProof Proof.StaticRead Proof.RecoverProof Proof.RecoverLemmas Proof.LocalProof Proof.SimpleChunkProof Proof.DecoderProof
  Proof.RecordReaderProof Proof.RecordWriterProof Proof.SessionProof Proof.RecordLemmas Proof.RecordRecoverProof.

Lemma selects_map {A B} (f : A -> B) P l : forall l', selects P (map f l) l' -> exists k, l' = map f k /\ selects (fun x => P (f x)) l k.
Proof.
  induction l as [|x l IH]; intros l' S; cbn [map] in S; inversion S; subst.
  - exists []. split; [reflexivity|constructor].
  - match goal with H : selects _ (map f l) _ |- _ => destruct (IH _ H) as (k & -> & K) end. exists (x :: k). split; [reflexivity|constructor; exact K].
  - match goal with H : selects _ (map f l) _ |- _ => destruct (IH _ H) as (k & -> & K) end. exists k. split; [reflexivity|apply sel_drop; assumption].
Qed.
Lemma selects_incl {A} (P : A -> Prop) l l' : selects P l l' -> incl l' l.
Proof.
  induction 1 as [|q l l' S IH|q l l' D S IH]; intros x H; [exact H| |right; apply IH, H].
  destruct H as [<-|H]; [left; reflexivity|right; apply IH, H].
Qed.
Lemma numbered_in b x rs : forall i j, 0 <= j -> nth_error rs (Z.to_nat j) = Some x -> In (Read (b, i + j) x) (numbered b i rs).
Proof.
  induction rs as [|r rs IH]; intros i j J N; [destruct (Z.to_nat j); discriminate N|]. cbn [numbered].
  destruct (Z.eq_dec j 0) as [->|]; [injection N as ->; left; f_equal; f_equal; lia|].
  right. replace (i + j) with (i + 1 + (j - 1)) by lia. apply IH; [lia|]. replace (Z.to_nat j) with (S (Z.to_nat (j - 1))) in N by lia. exact N.
Qed.
Lemma reads_numbered b rs : forall i, reads (numbered b i rs) = numbered b i rs.
Proof. induction rs as [|r rs IH]; intros i; [reflexivity|]. cbn [numbered reads filter]. f_equal. apply IH. Qed.
Lemma reads_app a b : reads (a ++ b) = reads a ++ reads b.
Proof. apply filter_app. Qed.
Lemma tiles_cover es : forall p q n, tiles p es q -> p <= n < q ->
  (exists b e, In (Skipped b e) es /\ b <= n < e) \/ (exists b c e, In (Got b c e) es /\ b <= n < e).
Proof.
  intros p q n T. induction T as [p|p e c es q L T IH|p e es q L T IH]; intros N; [lia| |].
  - destruct (Z_lt_ge_dec n e) as [H|H]; [right; exists p, c, e; split; [left; reflexivity|lia]|].
    destruct (IH ltac:(lia)) as [(b & e' & H1 & H2)|(b & c' & e' & H1 & H2)].
    + left. exists b, e'. split; [right; exact H1|exact H2].
    + right. exists b, c', e'. split; [right; exact H1|exact H2].
  - destruct (Z_lt_ge_dec n e) as [H|H]; [left; exists p, e; split; [left; reflexivity|lia]|].
    destruct (IH ltac:(lia)) as [(b & e' & H1 & H2)|(b & c' & e' & H1 & H2)].
    + left. exists b, e'. split; [right; exact H1|exact H2].
    + right. exists b, c', e'. split; [right; exact H1|exact H2].
Qed.
Lemma tiles_det es : forall p q q', tiles p es q -> tiles p es q' -> q = q'.
Proof.
  intros p q q' T. revert q'. induction T as [p|p e c es q L T IH|p e es q L T IH]; intros q' T'; inversion T'; subst; [reflexivity| |]; apply IH; assumption.
Qed.

Section Local.
  Variable hash : list Z -> Z.
  Hypothesis hash_range : forall l, 0 <= hash l < 2 ^ 64.
  Variable decompress : Z -> list Z -> option (list Z).
  Variable transpose_decode : list Z -> Z -> Z -> option (list Z * list Z).
  Hypothesis decompress_bytes : forall t l l', decompress t l = Some l' -> bytes l'.
  Hypothesis transposed_sound : sound_transposed transpose_decode.
  Notation file_ok := (file_ok hash decompress transpose_decode).
  Notation events_of := (events_of decompress transpose_decode).
  Notation decodes := (decodes hash decompress transpose_decode).

  Lemma layout_after qs : forall p out E, file_layout hash p qs out E -> Forall (fun q => p <= q_begin q /\ q_begin q <= q_end q <= E) qs /\ p <= E.
  Proof.
    induction qs as [|q qs IH]; intros p out E L; inversion L as [|? e k ? o1 o2 ? CL FL]; subst; [split; [constructor|lia]|].
    destruct (IH _ _ _ FL) as [F PE]. assert (PP : p <= e) by apply CL. split; [|lia]. constructor; [cbn; lia|]. eapply Forall_impl; [|exact F]. cbv beta. intros z Hz. lia.
  Qed.
  Lemma disjoint (qr : list (placed * list (list Z))) : forall p out E, file_layout hash p (map fst qr) out E -> forall x y n, In x qr -> In y qr ->
    q_begin (fst x) <= n < q_end (fst x) -> q_begin (fst y) <= n < q_end (fst y) -> x = y.
  Proof.
    induction qr as [|[z zr] qr IH]; intros p out E L x y n IX IY X Y; [contradiction|]. cbn [map fst] in L. inversion L as [|? e k ? o1 o2 ? CL FL]; subst.
    destruct (layout_after _ _ _ _ FL) as [F _]. rewrite Forall_map, Forall_forall in F.
    destruct IX as [<-|IX], IY as [<-|IY].
    - reflexivity.
    - specialize (F y IY). cbn in F, X, Y. lia.
    - specialize (F x IX). cbn in F, X, Y. lia.
    - eapply IH; eassumption.
  Qed.
  Lemma decodes_events x : decodes x -> chunk_ok (q_chunk (fst x)) -> events_of (Got (q_begin (fst x)) (mk_chunk hash (q_chunk (fst x))) (q_end (fst x))) = numbered (q_begin (fst x)) 0 (snd x).
  Proof.
    intros [D N] _. cbn [RecordRecoverSpec.events_of]. unfold decoded. rewrite D. rewrite ReadAllRecords_holds; [reflexivity|pose proof (zlen_nonneg (snd x)); lia|].
    unfold dc_num_records. cbn [dc_limits holds]. rewrite zlen_ends. lia.
  Qed.

  Definition chunk_events (x : placed * list (list Z)) : list record_event := numbered (q_begin (fst x)) 0 (snd x).
  Lemma local_records F qr a m m' b : file_ok F qr -> F = a ++ m ++ b -> zlen m' = zlen m -> bytes (a ++ m' ++ b) ->
    zlen F < 2 ^ 62 -> no_forgery hash F (a ++ m' ++ b) (map fst qr) ->
    exists E kept, (forall fuel, (length F < fuel)%nat ->
        (exists d, RR_ReadAllRecovering hash decompress transpose_decode fuel (a ++ m' ++ b) NewRecordReader = Some (E, d) /\ rd_ok d = true) /\
        (forall recovery, exists d, ReadAllWith hash decompress transpose_decode recovery fuel (a ++ m' ++ b) NewRecordReader = Some (until recovery E, d) /\ rd_ok d = true)) /\
      forward 0 E (zlen F) /\ reads E = flat_map chunk_events kept /\
      selects (fun x => zlen a < q_end (fst x) /\ q_begin (fst x) < rup (zlen a + zlen m + 63)) qr kept /\
      (forall x i r, In x qr -> 0 <= i -> nth_error (snd x) (Z.to_nat i) = Some r ->
         In (Read (q_begin (fst x), i) r) E \/ exists b e, In (Lost b e) E /\ b <= q_begin (fst x) + i < e).
  Proof.
    intros FO EF LM BG ZF NF. assert (V := file_valid hash hash_range decompress transpose_decode F qr FO). rewrite EF in V.
    assert (LL : zlen (a ++ m' ++ b) = zlen F) by (rewrite EF, !zlen_app; lia).
    destruct (local_damage hash hash_range (map fst qr) a m m' b (length (a ++ m' ++ b) + 3) V LM BG ltac:(lia)) as (es & r' & qs' & RA & T & K & GE & SEL); [rewrite <- EF; exact NF|lia|].
    set (G := a ++ m' ++ b) in *.
    assert (HG : forall K, 0 <= K -> K mod 65536 = 0 -> K + 24 <= zlen G -> blk_valid hash G K ->
      (bh_previous_chunk (blk_at G K) = 0 \/ 0 < bh_next_chunk (blk_at G K)) /\ K + bh_next_chunk (blk_at G K) + 65536 <= 2 ^ 64).
    { pose proof (zlen_nonneg a). pose proof (zlen_nonneg m). pose proof (valid_chain hash hash_range _ _ V) as C. rewrite <- EF in C.
      refine (honestG hash hash_range F G (zlen a) (zlen a + zlen m) (map fst qr) LL ltac:(lia) _ BG ltac:(lia) C NF).
      intros x n X N Y. rewrite EF. apply sl_same; try assumption; lia. }
    destruct (any_records hash decompress transpose_decode decompress_bytes transposed_sound G BG ltac:(lia) HG) as (es2 & rf & q & T2 & Q & RA2 & FW & RD).
    assert (es2 = es) as ->. { specialize (RA2 (length G + 3 + length es2)%nat ltac:(lia)).
      assert (R3 : ReadAllRecovering hash (length G + 3 + length es2) G (InitializeReader 0) = Some (es, r')); [|congruence].
      clear - RA. assert (M : forall n k r es r', ReadAllRecovering hash n G r = Some (es, r') -> ReadAllRecovering hash (n + k) G r = Some (es, r')).
      { clear. induction n as [|n IH]; intros k r es r' H; [discriminate H|]. cbn [ReadAllRecovering Nat.add] in *. destruct (ReadChunk hash G r) as [[[c|] r1]|]; [| |discriminate H].
        - destruct (ReadAllRecovering hash n G r1) as [[es1 r2]|] eqn:X; [|discriminate H]. rewrite (IH _ _ _ _ X). exact H.
        - destruct (Recover hash G r1) as [[[[b9 e9]|] r2]|]; [|exact H|discriminate H]. destruct (ReadAllRecovering hash n G r2) as [[es1 r3]|] eqn:X; [|discriminate H]. rewrite (IH _ _ _ _ X). exact H. }
      apply M, RA. }
    assert (q = zlen F) as -> by (rewrite LL in T; exact (tiles_det es 0 q (zlen F) T2 T)).
    destruct (selects_map fst _ qr qs' SEL) as (kept & -> & SK). clear SEL.
    destruct FO as [FL FK FD _ _ _]. pose proof (selects_incl _ _ _ SK) as IK.
    assert (GM : forall x, In x kept -> events_of (Got (q_begin (fst x)) (mk_chunk hash (q_chunk (fst x))) (q_end (fst x))) = chunk_events x).
    { intros x X. apply decodes_events; [rewrite Forall_forall in FD; apply FD, IK, X|]. rewrite Forall_map, Forall_forall in FK. apply (FK x), IK, X. }
    exists (flat_map events_of es), kept.
    assert (LG : length G = length F) by (unfold zlen in LL; lia). rewrite LG in RD. split; [exact RD|]. split; [exact FW|]. split; [|split; [exact SK|]].
    - clear - GE GM. revert kept GE GM. induction es as [|ev es IH]; intros kept GE GM.
      + destruct kept; [reflexivity|discriminate GE].
      + destruct ev as [b c e|b e]; cbn [got_events filter] in GE; fold (got_events es) in GE.
        * destruct kept as [|x kept]; [discriminate GE|]. cbn [map] in GE. injection GE as -> -> -> GE. cbn [flat_map]. rewrite GM by (left; reflexivity). rewrite reads_app.
          f_equal; [apply reads_numbered|]. apply IH; [exact GE|]. intros y Y. apply GM. right. exact Y.
        * cbn [flat_map RecordRecoverSpec.events_of app reads filter]. apply IH; assumption.
    - intros x i r X I N. set (n := q_begin (fst x) + i).
      destruct (layout_after _ _ _ _ FL) as [FA _]. rewrite Forall_map, Forall_forall in FA. specialize (FA x X). cbv beta in FA.
      assert (XE : q_begin (fst x) + zlen (snd x) <= q_end (fst x)).
      { rewrite Forall_forall in FD. destruct (FD x X) as [_ ->]. clear - FL X. revert FL. generalize 0, F, (zlen F). induction qr as [|[z zr] qr IH]; intros p out E L; [contradiction|].
        cbn [map fst] in L. inversion L as [|? e k ? o1 o2 ? CL FL']; subst. destruct X as [<-|X]; [|eapply IH; eassumption]. cbn. apply CL. }
      assert (NI : i < zlen (snd x)) by (assert (Z.to_nat i < length (snd x))%nat by (apply nth_error_Some; congruence); unfold zlen; lia).
      rewrite LL in T. destruct (tiles_cover es 0 (zlen F) n T ltac:(unfold n; lia)) as [(b0 & e0 & H1 & H2)|(b0 & c0 & e0 & H1 & H2)].
      + right. exists b0, e0. split; [|exact H2]. apply in_flat_map. exists (Skipped b0 e0). split; [exact H1|left; reflexivity].
      + left. assert (IG : In (Got b0 c0 e0) (got_events es)) by (apply filter_In; split; [exact H1|reflexivity]). rewrite GE in IG. apply in_map_iff in IG as (z & EZ & IZ).
        apply in_map_iff in IZ as (y & <- & IY). injection EZ as <- <- <-.
        assert (x = y) as <- by (apply (disjoint qr 0 F (zlen F) FL x y n X (IK y IY)); unfold n; lia).
        apply in_flat_map. eexists. split; [exact H1|]. rewrite GM by exact IY. apply (numbered_in _ r (snd x) 0 i I N).
  Qed.
End Local.

Lemma recovering_records hash decompress transpose_decode content :
  (forall t l l', decompress t l = Some l' -> bytes l') -> sound_transposed transpose_decode ->
  bytes content -> zlen content < 2 ^ 62 -> credible hash content ->
  exists es rf q, ReadAllRecovering hash (length es + 1) content (InitializeReader 0) = Some (es, rf) /\ tiles 0 es q /\ q <= zlen content /\
    let records := flat_map (events_of decompress transpose_decode) es in
    forward 0 records q /\
    forall fuel, (length content < fuel)%nat ->
    (exists d, RR_ReadAllRecovering hash decompress transpose_decode fuel content NewRecordReader = Some (records, d) /\ rd_ok d = true) /\
    (forall recovery, exists d, ReadAllWith hash decompress transpose_decode recovery fuel content NewRecordReader = Some (until recovery records, d) /\ rd_ok d = true).
Proof.
  intros DB TS B L C. destruct (any_records hash decompress transpose_decode DB TS content B L (credible_honest hash content B C)) as (es & rf & q & T & Q & R & F & X).
  exists es, rf, q. split; [apply R; lia|]. split; [exact T|]. split; [exact Q|]. split; [exact F|exact X].
Qed.

Lemma damaged_sessions hash compress decompress transpose_encode transpose_decode :
  (forall l, 0 <= hash l < 2 ^ 64) -> codecs compress decompress transpose_encode transpose_decode ->
  (forall t l l', decompress t l = Some l' -> bytes l') -> sound_transposed transpose_decode ->
  forall ss, Forall session_ok ss -> sessions_size ss < 2 ^ 62 ->
  exists rs file (qr : list (placed * list (list Z))), Sessions hash compress transpose_encode ss [] = Some (rs, file) /\
    valid_file hash 0 (map fst qr) file /\ concat (map snd qr) = all_written ss /\
    all_positions ss rs = map Some (positions_of (map (fun x => (q_begin (fst x), snd x)) qr)) /\
    forall a m m' b, file = a ++ m ++ b -> zlen m' = zlen m -> bytes (a ++ m' ++ b) -> no_forgery hash file (a ++ m' ++ b) (map fst qr) ->
    exists es kept, (forall fuel, (length file < fuel)%nat ->
        (exists d, RR_ReadAllRecovering hash decompress transpose_decode fuel (a ++ m' ++ b) NewRecordReader = Some (es, d) /\ rd_ok d = true) /\
        (forall recovery, exists d, ReadAllWith hash decompress transpose_decode recovery fuel (a ++ m' ++ b) NewRecordReader = Some (until recovery es, d) /\ rd_ok d = true)) /\
      forward 0 es (zlen file) /\ reads es = flat_map (fun x => numbered (q_begin (fst x)) 0 (snd x)) kept /\
      selects (fun x => zlen a < q_end (fst x) /\ q_begin (fst x) < rup (zlen a + zlen m + 63)) qr kept /\
      (forall x i r, In x qr -> 0 <= i -> nth_error (snd x) (Z.to_nat i) = Some r ->
         In (Read (q_begin (fst x), i) r) es \/ exists b e, In (Lost b e) es /\ b <= q_begin (fst x) + i < e).
Proof.
  intros HR CD DB TS ss OK SZ. destruct (sessions_file hash HR compress decompress transpose_encode transpose_decode CD ss OK ltac:(lia)) as (rs & file & qr & ps & H1 & FO & H2 & H3 & H4 & H5 & H6 & H7 & _).
  exists rs, file, qr. split; [exact H1|]. split; [exact (file_valid hash HR decompress transpose_decode file qr FO)|].
  split; [rewrite <- H7; symmetry; apply records_vw|]. split; [rewrite H5, <- H6; reflexivity|]. intros a m m' b EF LM BG NF.
  exact (local_records hash HR decompress transpose_decode DB TS file qr a m m' b FO EF LM BG ltac:(lia) NF).
Qed.
