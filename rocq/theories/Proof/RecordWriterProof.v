(** The RecordWriter: each call appends chunks to a valid file. *)
From Verif Require Import Base.Bytes Model.Varint Model.Endian Model.Block Model.Chunk Model.ChunkWriter Model.ChunkReader Model.SimpleChunk Model.ChunkDecoder
  Model.RecordWriter Spec.BlockSpec Spec.FileSpec Spec.ChunkLink Spec.RecordsSpec Spec.CursorSpec Spec.SessionSpec
  Proof.CodecLemmas Proof.BlockProof Proof.ChunkWriterProof Proof.FileProof Proof.ChunkPropsLemmas Proof.SimpleChunkProof Proof.DecoderProof Proof.RecordReaderProof.

Lemma andthen_true w f : andthen (Some (true, w)) f = f w.
Proof. reflexivity. Qed.
Lemma varint_len v : 0 <= v < 2 ^ 64 -> zlen (WriteVarint V64 v) <= 10.
Proof. intros H. destruct (varint64_round_trip true v [] H (Forall_nil _)) as (_ & _ & R & _). lia. Qed.

Definition so_far (rs : list (list Z)) : Z := total rs + 8 * zlen rs.
Lemma so_far_nonneg rs : 0 <= so_far rs.
Proof. unfold so_far. pose proof (total_nonneg rs). pose proof (zlen_nonneg rs). lia. Qed.
Lemma so_far_pos rs : rs <> [] -> 0 < so_far rs.
Proof. intros N. unfold so_far. pose proof (total_nonneg rs). destruct rs; [congruence|]. rewrite zlen_cons. pose proof (zlen_nonneg rs). lia. Qed.
Lemma padding_nonneg p : padding_ok p -> 0 <= p.
Proof. unfold padding_ok. lia. Qed.

Section Writer.
  Variable hash : list Z -> Z.
  Hypothesis hash_range : forall l, 0 <= hash l < 2 ^ 64.
  Variable compress : Z -> list Z -> list Z.
  Variable decompress : Z -> list Z -> option (list Z).
  Variable transpose_encode : options -> list (list Z) -> list Z.
  Variable transpose_decode : list Z -> Z -> Z -> option (list Z * list Z).
  Hypothesis CODECS : codecs compress decompress transpose_encode transpose_decode.

  Notation decodes := (decodes hash decompress transpose_decode).
  Notation chunks := (list (placed * list (list Z))).

  Record file_ok (dest : list Z) (qr : chunks) : Prop := {
    f_layout : file_layout hash 0 (map fst qr) dest (zlen dest);
    f_ok : Forall (fun q => chunk_ok (q_chunk q)) (map fst qr);
    f_dec : Forall decodes qr;
    f_sig : match map fst qr with [] => True | q :: _ => q_chunk q = signature_chunk end;
    f_b : chunk_boundary (zlen dest);
    f_size : zlen dest <= 2 ^ 63 }.

  Lemma layout_snoc : forall qs p out e k out2 E, file_layout hash p qs out e -> chunk_layout hash e E k out2 ->
    file_layout hash p (qs ++ [Placed e E k]) (out ++ out2) E.
  Proof.
    induction qs as [|q qs IH]; intros p out e k out2 E L C; inversion L; subst; cbn [app].
    - rewrite <- (app_nil_r out2). econstructor; [exact C|constructor].
    - rewrite <- app_assoc. econstructor; [eassumption|]. apply IH with (e := e); assumption.
  Qed.

  Lemma snoc_ok dest qr k rs out e : file_ok dest qr -> chunk_ok k -> (qr = [] -> k = signature_chunk) ->
    Decode decompress transpose_decode (mk_chunk hash k) = (true, holds rs 0) -> zlen rs = k_nrec k ->
    chunk_layout hash (zlen dest) e k out -> e <= 2 ^ 63 ->
    e = zlen (dest ++ out) /\ file_ok (dest ++ out) (qr ++ [(Placed (zlen dest) e k, rs)]).
  Proof.
    intros [L OK D SG B SZ] K S DE N C H. pose proof C as (C1 & ((C2 & _) & _) & _).
    assert (EE : e = zlen (dest ++ out)) by (rewrite zlen_app; lia). split; [exact EE|]. constructor.
    - rewrite map_app, <- EE. cbn [map fst]. apply layout_snoc; assumption.
    - rewrite map_app. apply Forall_app. split; [exact OK|]. constructor; [exact K|constructor].
    - apply Forall_app. split; [exact D|]. constructor; [|constructor]. split; assumption.
    - rewrite map_app. destruct qr as [|x qr]; cbn in *; [apply S; reflexivity|exact SG].
    - rewrite <- EE. exact C2.
    - lia.
  Qed.

  Lemma append_chunk dest qr k rs : file_ok dest qr -> chunk_ok k -> (qr = [] -> k = signature_chunk) ->
    Decode decompress transpose_decode (mk_chunk hash k) = (true, holds rs 0) -> zlen rs = k_nrec k ->
    zlen dest + room k <= 2 ^ 63 ->
    exists out, WriteChunk hash (mk_chunk hash k) (zlen dest) = Some (out, zlen (dest ++ out)) /\
      zlen (dest ++ out) <= zlen dest + room k /\
      file_ok (dest ++ out) (qr ++ [(Placed (zlen dest) (zlen (dest ++ out)) k, rs)]).
  Proof.
    intros FO K S DE N R. pose proof (zlen_nonneg dest) as Z0.
    destruct (WriteChunks_layout hash hash_range [k] (zlen dest)) as (qs & out & e & W & Q & L & E & LE & B).
    - assumption.
    - apply FO.
    - constructor; [assumption|constructor].
    - cbn [rooms fold_right]. lia.
    - cbn [map WriteChunks] in W. destruct (WriteChunk hash (mk_chunk hash k) (zlen dest)) as [[o1 p1]|]; [|discriminate W].
      injection W as E1 E2. rewrite app_nil_r in E1. subst o1 p1. exists out.
      inversion L as [|p0 e0 k0 qs0 o1 o2 E0 CL FL]; subst; cbn [map q_chunk] in Q; [discriminate Q|]. injection Q as -> Q.
      destruct qs0; [|discriminate Q]. inversion FL; subst. rewrite app_nil_r in *. cbn [rooms fold_right] in LE.
      destruct (snoc_ok dest qr k rs o1 _ FO K S DE N CL ltac:(lia)) as [E1 F1]. rewrite E1 in *. split; [reflexivity|]. split; [lia|exact F1].
  Qed.

  (** Records in one chunk. *)
  Definition enc (o : options) (rs : list (list Z)) : chunk_encoder := if o_transpose o then CTransposed rs true else CSimple (enc_of rs).
  Definition cost (rs : list (list Z)) : Z := 2 ^ 22 + 8193 * zlen rs + 8192 * total rs.
  Definition tsmall (o : options) (rs : list (list Z)) : Prop := o_transpose o = true -> zlen rs + 2 * total rs < 2 ^ 29.
  Lemma encode_ok o rs : options_ok o -> tsmall o rs -> Forall bytes rs -> zlen rs <= kMaxNumRecords -> total rs < 2 ^ 56 ->
    exists data ct, ce_EncodeAndClose compress transpose_encode o (enc o rs) = Some (data, ct, zlen rs, total rs) /\
      chunk_ok (Chunk ct (zlen rs) (total rs) data) /\
      Decode decompress transpose_decode (mk_chunk hash (Chunk ct (zlen rs) (total rs) data)) = (true, holds rs 0) /\
      room (Chunk ct (zlen rs) (total rs) data) <= cost rs.
  Proof.
    intros O SM B N T. pose proof (total_nonneg rs) as T0. pose proof (zlen_nonneg rs) as N0. unfold kMaxNumRecords in N. unfold enc. unfold tsmall in SM. destruct (o_transpose o); cbn [ce_EncodeAndClose].
    - exists (transpose_encode o rs), kTransposed. split; [reflexivity|].
      pose proof (ct_size _ _ _ _ CODECS o rs (oo_compression o O) B (SM eq_refl)) as TS. fold (total rs) in TS. pose proof (zlen_nonneg (transpose_encode o rs)).
      assert (K : chunk_ok (Chunk kTransposed (zlen rs) (total rs) (transpose_encode o rs))).
      { unfold chunk_ok. cbn [k_type k_nrec k_dsize k_data]. unfold kTransposed. lia. }
      split; [exact K|]. split.
      + destruct (mk_chunk_wf hash hash_range _ K) as (_ & _ & E1 & E2 & E3 & _). unfold Decode, Parse. rewrite E1, E2, E3. cbn [mk_chunk c_data k_type k_nrec k_dsize k_data].
        change (kTransposed =? kFileSignature) with false. change (kTransposed =? kFileMetadata) with false. change (kTransposed =? kPadding) with false.
        change (kTransposed =? kSimple) with false. change (kTransposed =? kTransposed) with true. cbv iota. unfold total. rewrite (ct_inverse _ _ _ _ CODECS o rs (oo_compression o O) B (SM eq_refl)). reflexivity.
      + unfold room, cost. cbn [k_nrec k_data]. lia.
    - remember (EncodeAndClose compress (o_compression o) (enc_of rs)) as E eqn:EE. 
      pose proof EE as EE0. unfold EncodeAndClose, enc_of in EE0. cbn [e_ok e_num e_size e_sizes e_values negb] in EE0.
      remember (byte_cast (o_compression o) :: Compressor_LengthPrefixed compress (o_compression o) (size_bytes rs) ++ Compressor_EncodeAndClose compress (o_compression o) (concat rs)) as data eqn:ED.
      assert (ZS : zlen (size_bytes rs) <= 10 * zlen rs) by (apply zlen_size_bytes; lia).
      assert (LC : forall l, bytes l -> zlen l < 2 ^ 62 -> zlen (compressed compress (o_compression o) l) <= 2 * zlen l + 2 ^ 7).
      { intros l Bl Hl. pose proof (zlen_nonneg l). unfold compressed. destruct (o_compression o =? kNone); [lia|]. apply (cc_size _ _ _ _ CODECS), Bl. }
      assert (DL : zlen data <= 20 * zlen rs + 2 * total rs + 2 ^ 18).
      { rewrite ED. rewrite zlen_cons, zlen_app. unfold Compressor_LengthPrefixed, Compressor_EncodeAndClose. rewrite !zlen_app.
        pose proof (LC (size_bytes rs) ltac:(apply size_bytes_bytes; lia) ltac:(lia)) as L1. pose proof (LC (concat rs) ltac:(clear - B; induction B; cbn [concat]; [constructor|apply bytes_app; auto])) as L2. fold (total rs) in L2 |- *. specialize (L2 ltac:(lia)). pose proof (zlen_nonneg (size_bytes rs)).
        match goal with |- context [WriteVarint V64 (u64 ?a)] => pose proof (varint_len (u64 a) (u64_range a)) end.
        pose proof (varint_len (zlen (size_bytes rs)) ltac:(lia)). pose proof (varint_len (total rs) ltac:(lia)).
        destruct (o_compression o =? kNone); change (zlen (@nil Z)) with 0; lia. }
      exists data, kSimple. rewrite EE0. split; [reflexivity|].
      destruct (decode_simple hash hash_range compress decompress transpose_decode (cc_bytes _ _ _ _ CODECS) (cc_inverse _ _ _ _ CODECS) (o_compression o) rs data kSimple (zlen rs) (total rs)) as (K1 & _ & K2);
        try assumption; try lia; try (unfold kMaxNumRecords; lia); [apply O|congruence|].
      split; [exact K1|]. split; [exact K2|]. unfold room, cost. cbn [k_nrec k_data]. lia.
  Qed.

  (** A writer between calls. *)
  Definition desired (o : options) : Z := Z.min (effective_chunk_size o) (kMaxNumRecords * 8).
  Definition wst (o : options) (dest : list Z) (pend : list (list Z)) (last : last_record) : writer :=
    MkWriter o dest (zlen dest) (enc o pend) (desired o) (so_far pend) last true.
  Lemma desired_range o : options_ok o -> 0 <= desired o < 2 ^ 59.
  Proof.
    intros O. unfold desired, effective_chunk_size, kMaxNumRecords. pose proof (oo_chunk_size o O). destruct (o_chunk_size o); [lia|]. destruct (o_compression o =? kNone); lia.
  Qed.

  Lemma tsmall_pend o pend : options_ok o -> pend = [] \/ so_far pend + 8 <= desired o -> tsmall o pend.
  Proof.
    intros O PO T. pose proof (oo_transpose o O T) as X. pose proof (zlen_nonneg pend). pose proof (total_nonneg pend).
    destruct PO as [->|PO]; [change (zlen (@nil (list Z))) with 0; change (total []) with 0; lia|]. unfold so_far, desired in PO. lia.
  Qed.
  Lemma tsmall_snoc o pend r : options_ok o -> record_ok o r -> pend = [] \/ so_far pend + zlen r + 8 <= desired o -> tsmall o (pend ++ [r]).
  Proof.
    intros O [_ RO] PO T. pose proof (oo_transpose o O T) as X. specialize (RO T). pose proof (zlen_nonneg pend). pose proof (total_nonneg pend). pose proof (zlen_nonneg r).
    rewrite zlen_app, total_app, total_cons. change (zlen [r]) with 1. change (total []) with 0.
    destruct PO as [->|PO]; [change (zlen (@nil (list Z))) with 0; change (total []) with 0; lia|]. unfold so_far, desired in PO. lia.
  Qed.

  Lemma clear_close o rs : ce_clear (ce_close (enc o rs)) = enc o [].
  Proof. unfold enc. destruct (o_transpose o); reflexivity. Qed.
  Lemma num_enc o rs : ce_num_records (enc o rs) = zlen rs.
  Proof. unfold enc. destruct (o_transpose o); reflexivity. Qed.

  (** CloseChunk *)
  Lemma close_chunk o dest qr pend last sf : options_ok o -> tsmall o pend -> file_ok dest qr -> qr <> [] -> pend <> [] -> Forall bytes pend ->
    zlen pend <= kMaxNumRecords -> total pend < 2 ^ 56 -> zlen dest + cost pend <= 2 ^ 63 ->
    exists out k, 
      CloseChunk hash compress transpose_encode (MkWriter o dest (zlen dest) (enc o pend) (desired o) sf last true)
        = Some (true, MkWriter o (dest ++ out) (zlen (dest ++ out)) (ce_close (enc o pend)) (desired o) sf last true) /\
      zlen (dest ++ out) <= zlen dest + cost pend /\
      file_ok (dest ++ out) (qr ++ [(Placed (zlen dest) (zlen (dest ++ out)) k, pend)]).
  Proof.
    intros O SM FO NE P B N T SZ. destruct (encode_ok o pend O SM B N T) as (data & ct & E1 & E2 & E3 & E4).
    destruct (append_chunk dest qr _ pend FO E2 ltac:(congruence) E3 eq_refl ltac:(lia)) as (out & W & L & F2).
    exists out. eexists. unfold CloseChunk. cbn [w_ok negb w_options w_encoder]. rewrite E1. unfold put_chunk, set_encoder. cbn [w_pos w_dest w_options w_desired w_so_far w_last w_ok].
    change (MkChunk (ChunkHeader hash data ct (zlen pend) (total pend)) data) with (mk_chunk hash (Chunk ct (zlen pend) (total pend) data)). rewrite W.
    split; [reflexivity|]. split; [lia|exact F2].
  Qed.

  (** Padding *)
  Lemma decode_padding n : 0 <= n < 2 ^ 63 -> chunk_ok (Chunk kPadding 0 0 (zeros n)) /\
    Decode decompress transpose_decode (mk_chunk hash (Chunk kPadding 0 0 (zeros n))) = (true, holds [] 0).
  Proof.
    intros H. assert (K : chunk_ok (Chunk kPadding 0 0 (zeros n))).
    { unfold chunk_ok. cbn [k_type k_nrec k_dsize k_data]. rewrite zlen_zeros. unfold kPadding. lia. }
    split; [exact K|]. destruct (mk_chunk_wf hash hash_range _ K) as (_ & _ & E1 & E2 & E3 & _). unfold Decode, Parse. rewrite E1, E2, E3. reflexivity.
  Qed.
  Lemma put_padding dest qr padding : file_ok dest qr -> qr <> [] -> padding_ok padding -> zlen dest + 60 * padding + 200 <= 2 ^ 63 ->
    exists out new, WritePadding hash padding (zlen dest) = Some (out, zlen (dest ++ out)) /\
      zlen (dest ++ out) <= zlen dest + 25 * padding + 40 /\ file_ok (dest ++ out) (qr ++ new) /\ Forall (fun x => snd x = []) new.
  Proof.
    intros FO NE PO SZ. pose proof (zlen_nonneg dest) as Z0.
    assert (NONE : WritePadding hash padding (zlen dest) = Some ([], zlen dest) -> 0 <= padding ->
      exists out new, WritePadding hash padding (zlen dest) = Some (out, zlen (dest ++ out)) /\
      zlen (dest ++ out) <= zlen dest + 25 * padding + 40 /\ file_ok (dest ++ out) (qr ++ new) /\ Forall (fun x => snd x = []) new).
    { intros E PP. exists [], []. rewrite !app_nil_r. split; [exact E|]. split; [lia|]. split; [exact FO|constructor]. }
    destruct PO as [PO|PO]; [apply NONE; [|lia]; apply WritePadding_none; lia|].
    destruct (Z.eq_dec (zlen dest mod padding) 0) as [M|M]; [apply NONE; [|lia]; apply WritePadding_none; auto|].
    destruct (WritePadding_spec hash hash_range padding (zlen dest) Z0 (f_b _ _ FO) PO ltac:(lia) M) as (out & e & n & W & _ & LT & N0 & CL).
    pose proof CL as (C1 & ((_ & _ & _ & C2) & _) & (pad & C3) & _).
    assert (NB : n <= e - zlen dest).
    { cbn [k_data] in C2. rewrite zlen_zeros in C2. rewrite payload_closed in C2 by lia. clear - C2 LT Z0 N0. unfold pos_payload in C2. dml. }
    destruct (decode_padding n ltac:(lia)) as [K D].
    destruct (snoc_ok dest qr _ [] out e FO K ltac:(congruence) D eq_refl CL ltac:(lia)) as [E F2].
    exists out. eexists. rewrite W, <- E. split; [reflexivity|]. split; [lia|]. split; [rewrite E; rewrite <- E; exact F2|]. constructor; [reflexivity|constructor].
  Qed.
  Lemma PutPadding_ok o dest qr e s last padding sf : file_ok dest qr -> qr <> [] -> padding_ok padding -> zlen dest + 60 * padding + 200 <= 2 ^ 63 ->
    exists out new, PutPadding hash padding (MkWriter o dest (zlen dest) e s sf last true)
        = Some (true, MkWriter o (dest ++ out) (zlen (dest ++ out)) e s sf last true) /\
      zlen (dest ++ out) <= zlen dest + 25 * padding + 40 /\ file_ok (dest ++ out) (qr ++ new) /\ Forall (fun x => snd x = []) new.
  Proof.
    intros FO NE PO SZ. destruct (put_padding dest qr padding FO NE PO SZ) as (out & new & W & R). exists out, new. split; [|exact R].
    unfold PutPadding. cbn [w_ok negb w_pos w_dest]. rewrite W. reflexivity.
  Qed.

  (** ** Calls *)
  Definition bcost (pend : list (list Z)) : Z := match pend with [] => 0 | _ => cost pend end.
  Definition pview (qr : chunks) (dest : list Z) (pend : list (list Z)) : view := vw qr ++ [(zlen dest, pend)].
  Record winv (o : options) (qr : chunks) (dest : list Z) (pend : list (list Z)) (last : last_record) (S : Z) : Prop := {
    wi_o : options_ok o; wi_f : file_ok dest qr; wi_ne : qr <> []; wi_b : Forall bytes pend;
    wi_p : pend = [] \/ so_far pend + 8 <= desired o;
    wi_s : zlen dest + bcost pend <= S; wi_l : last = LastRecordIsValid -> pend <> [] }.

  Lemma positions_nil qr (dest : list Z) : positions_of (pview qr dest []) = positions_of (vw qr).
  Proof. unfold pview. rewrite positions_app. cbn. rewrite app_nil_r. reflexivity. Qed.
  Lemma records_nil qr (dest : list Z) : records_of (pview qr dest []) = records_of (vw qr).
  Proof. unfold pview. rewrite records_app. cbn. rewrite app_nil_r. reflexivity. Qed.
  Lemma zseq_snoc n : 0 <= n -> zseq 0 (n + 1) = zseq 0 n ++ [n].
  Proof. intros H. unfold zseq. replace (Z.to_nat (n + 1)) with (Z.to_nat n + 1)%nat by lia. rewrite seq_app, map_app. cbn. f_equal. f_equal. lia. Qed.
  Lemma positions_one (b : Z) (rs : list (list Z)) r : positions_of [(b, rs ++ [r])] = positions_of [(b, rs)] ++ [(b, zlen rs)].
  Proof. unfold positions_of. cbn [flat_map fst snd]. rewrite !app_nil_r, zlen_app. change (zlen [r]) with 1. rewrite zseq_snoc by apply zlen_nonneg. rewrite map_app. reflexivity. Qed.
  Lemma records_one (b : Z) (rs : list (list Z)) r : records_of [(b, rs ++ [r])] = records_of [(b, rs)] ++ [r].
  Proof. unfold records_of. cbn. rewrite !app_nil_r. reflexivity. Qed.
  Lemma pview_chunk qr (dest : list Z) e k rs (dest' : list Z) : pview (qr ++ [(Placed (zlen dest) e k, rs)]) dest' [] = vw qr ++ [(zlen dest, rs)] ++ [(zlen dest', [])].
  Proof. unfold pview. rewrite vw_app, <- app_assoc. reflexivity. Qed.
  Lemma pview_closed qr (dest : list Z) e k rs (dest' : list Z) :
    positions_of (pview (qr ++ [(Placed (zlen dest) e k, rs)]) dest' []) = positions_of (pview qr dest rs) /\
    records_of (pview (qr ++ [(Placed (zlen dest) e k, rs)]) dest' []) = records_of (pview qr dest rs).
  Proof.
    rewrite positions_nil, records_nil. unfold pview. rewrite vw_app. split; reflexivity.
  Qed.
  Lemma pview_padding qr new dest dest' : Forall (fun x => snd x = []) new ->
    positions_of (pview (qr ++ new) dest' []) = positions_of (pview qr dest []) /\
    records_of (pview (qr ++ new) dest' []) = records_of (pview qr dest []).
  Proof.
    intros F. rewrite !positions_nil, !records_nil, vw_app, positions_app, records_app.
    assert (positions_of (vw new) = [] /\ records_of (vw new) = []) as [-> ->].
    { clear - F. induction F as [|x l E F [IH1 IH2]]; [split; reflexivity|]. change (vw (x :: l)) with ([(q_begin (fst x), snd x)] ++ vw l). rewrite positions_app, records_app, E, IH1, IH2. split; reflexivity. }
    rewrite !app_nil_r. auto.
  Qed.
  Lemma cost_snoc pend r : cost (pend ++ [r]) <= bcost pend + 2 ^ 22 + 8193 + 8192 * zlen r.
  Proof.
    unfold cost, bcost. rewrite zlen_app, total_app, total_cons. change (zlen [r]) with 1. change (total []) with 0.
    destruct pend; [change (zlen (@nil (list Z))) with 0; change (total []) with 0; lia|]. unfold cost. lia.
  Qed.
  Lemma bcost_nonneg pend : 0 <= bcost pend.
  Proof. unfold bcost, cost. destruct pend; [lia|]. pose proof (zlen_nonneg (l :: pend)). pose proof (total_nonneg (l :: pend)). lia. Qed.

  (** The end of WriteRecord: adding the record to the open chunk. *)
  Definition add_tail (r : list Z) (w : writer) : option (bool * writer) :=
    let w := set_so_far (u64 (w_so_far w + u64 (zlen r + 8))) w in
    andthen (Worker_AddRecord r w)
      (fun w =>
         if w_desired w <? u64 (w_so_far w + 8) then
           let w := set_last (LastRecordIsValidAt (Worker_LastPos w)) w in
           andthen (CloseChunk hash compress transpose_encode w) (fun w => Some (true, set_so_far 0 (OpenChunk w)))
         else Some (true, set_last LastRecordIsValid w)).
  Lemma add_step o dest qr pend r last S : options_ok o -> file_ok dest qr -> qr <> [] -> Forall bytes pend -> record_ok o r ->
    (pend = [] \/ so_far pend + zlen r + 8 <= desired o) -> zlen dest + cost (pend ++ [r]) <= S -> S <= 2 ^ 62 ->
    exists out new pend' last', add_tail r (wst o dest pend last) = Some (true, wst o (dest ++ out) pend' last') /\
      winv o (qr ++ new) (dest ++ out) pend' last' S /\
      LastPos (wst o (dest ++ out) pend' last') = Some (zlen dest, zlen pend) /\
      positions_of (pview (qr ++ new) (dest ++ out) pend') = positions_of (pview qr dest pend) ++ [(zlen dest, zlen pend)] /\
      records_of (pview (qr ++ new) (dest ++ out) pend') = records_of (pview qr dest pend) ++ [r].
  Proof.
    intros O FO NE BP RO PO SZ S62. pose proof (tsmall_snoc o pend r O RO PO) as SM. pose proof (proj1 RO) as BR. pose proof (desired_range o O) as DR. pose proof (zlen_nonneg dest) as D0. pose proof (zlen_nonneg pend) as P0. pose proof (zlen_nonneg r) as R0.
    pose proof (total_nonneg pend) as T0. pose proof (so_far_nonneg pend) as F0.
    assert (CE : cost (pend ++ [r]) = 2 ^ 22 + 8193 * (zlen pend + 1) + 8192 * (total pend + zlen r)).
    { unfold cost. rewrite zlen_app, total_app, total_cons. change (zlen [r]) with 1. change (total []) with 0. lia. }
    assert (ZA : zlen (pend ++ [r]) = zlen pend + 1) by (rewrite zlen_app; reflexivity).
    assert (TA : total (pend ++ [r]) = total pend + zlen r) by (rewrite total_app, total_cons; change (total []) with 0; lia).
    assert (NR : zlen pend + 1 <= kMaxNumRecords).
    { destruct PO as [->|PO]; [unfold kMaxNumRecords; cbn; lia|]. unfold so_far, desired in PO. lia. }
    assert (SF : so_far (pend ++ [r]) = so_far pend + (zlen r + 8)) by (unfold so_far; rewrite ZA, TA; lia).
    assert (SB : so_far (pend ++ [r]) + 8 < 2 ^ 62) by (unfold so_far in *; rewrite ZA, TA in *; unfold kMaxNumRecords in *; lia).
    unfold add_tail, wst, set_so_far. cbn [w_options w_dest w_pos w_encoder w_desired w_so_far w_last w_ok].
    rewrite (u64_small (zlen r + 8)) by lia. rewrite (u64_small (so_far pend + (zlen r + 8))) by lia. rewrite <- SF.
    unfold Worker_AddRecord. cbn [w_options w_dest w_pos w_encoder w_desired w_so_far w_last w_ok negb].
    assert (AR : ce_AddRecord r (enc o pend) = (true, enc o (pend ++ [r]))).
    { unfold enc. destruct (o_transpose o); cbn [ce_AddRecord negb].
      - destruct (Z.eqb_spec (zlen pend) kMaxNumRecords); [lia|]. fold (total pend). destruct (Z.ltb_spec (2 ^ 64 - 1 - total pend) (zlen r)); [lia|]. reflexivity.
      - rewrite AddRecord_ok by lia. reflexivity. }
    rewrite AR. unfold set_encoder. cbn [w_options w_dest w_pos w_encoder w_desired w_so_far w_last w_ok]. rewrite andthen_true.
    cbn [w_options w_dest w_pos w_encoder w_desired w_so_far w_last w_ok]. rewrite (u64_small (so_far (pend ++ [r]) + 8)) by (pose proof (so_far_nonneg (pend ++ [r])); lia).
    assert (BA : Forall bytes (pend ++ [r])) by (apply Forall_app; split; [assumption|constructor; [assumption|constructor]]).
    assert (NA : pend ++ [r] <> []) by (destruct pend; discriminate).
    destruct (Z.ltb_spec (desired o) (so_far (pend ++ [r]) + 8)) as [H|H].
    - unfold set_last, Worker_LastPos. cbn [w_options w_dest w_pos w_encoder w_desired w_so_far w_last w_ok]. rewrite num_enc, ZA, Z.add_simpl_r.
      destruct (close_chunk o dest qr (pend ++ [r]) (LastRecordIsValidAt (zlen dest, zlen pend)) (so_far (pend ++ [r])) O SM FO NE NA BA ltac:(lia) ltac:(lia) ltac:(lia)) as (out & k & C1 & C2 & C3).
      rewrite C1, andthen_true. unfold OpenChunk, set_encoder, set_so_far. cbn [w_options w_dest w_pos w_encoder w_desired w_so_far w_last w_ok]. rewrite clear_close.
      exists out. eexists. exists [], (LastRecordIsValidAt (zlen dest, zlen pend)). split; [reflexivity|].
      destruct (pview_closed qr dest (zlen (dest ++ out)) k (pend ++ [r]) (dest ++ out)) as [V1 V2].
      split; [|split; [reflexivity|split]].
      + constructor; [assumption|exact C3|destruct qr; discriminate|constructor|left; reflexivity|cbn [bcost]; lia|discriminate].
      + rewrite V1. unfold pview. rewrite !positions_app, positions_one, app_assoc. reflexivity.
      + rewrite V2. unfold pview. rewrite !records_app, records_one, app_assoc. reflexivity.
    - exists [], [], (pend ++ [r]), LastRecordIsValid. rewrite !app_nil_r. split; [reflexivity|]. split; [|split; [|split]].
      + constructor; try assumption; try (right; assumption); try (intros _; assumption). destruct (pend ++ [r]) eqn:E; [congruence|]. cbn [bcost]. lia.
      + unfold LastPos, Worker_LastPos. cbn [w_options w_dest w_pos w_encoder w_desired w_so_far w_last w_ok]. rewrite num_enc, ZA, Z.add_simpl_r. reflexivity.
      + unfold pview. rewrite !positions_app, positions_one, app_assoc. reflexivity.
      + unfold pview. rewrite !records_app, records_one, app_assoc. reflexivity.
  Qed.

  Lemma pend_bounds o qr dest pend last S : winv o qr dest pend last S -> zlen pend <= kMaxNumRecords /\ so_far pend <= 2 ^ 59 /\ total pend < 2 ^ 56 + 2 ^ 59.
  Proof.
    intros [O FO NE BP PO SZ LV]. pose proof (desired_range o O) as DR. pose proof (total_nonneg pend). pose proof (zlen_nonneg pend). destruct PO as [->|PO].
    - unfold kMaxNumRecords, so_far. change (zlen (@nil (list Z))) with 0. change (total []) with 0. lia.
    - unfold so_far, desired in *. lia.
  Qed.

  Lemma write_step o qr dest pend last S r : winv o qr dest pend last S -> record_ok o r -> S + call_size o (CallWrite r) <= 2 ^ 62 ->
    exists out new pend' last' p, WriteRecord hash compress transpose_encode r (wst o dest pend last) = Some (true, wst o (dest ++ out) pend' last') /\
      winv o (qr ++ new) (dest ++ out) pend' last' (S + call_size o (CallWrite r)) /\
      LastPos (wst o (dest ++ out) pend' last') = Some p /\
      positions_of (pview (qr ++ new) (dest ++ out) pend') = positions_of (pview qr dest pend) ++ [p] /\
      records_of (pview (qr ++ new) (dest ++ out) pend') = records_of (pview qr dest pend) ++ [r].
  Proof.
    intros W BR SZ. destruct (pend_bounds _ _ _ _ _ _ W) as (B1 & B2 & B3). destruct W as [O FO NE BP PO WS LV]. cbn [call_size] in *. pose proof (desired_range o O) as DR.
    pose proof (zlen_nonneg dest) as D0. pose proof (zlen_nonneg r) as R0. pose proof (bcost_nonneg pend) as C0. pose proof (so_far_nonneg pend) as F0.
    unfold WriteRecord. cbn [wst w_ok negb]. change (set_last LastRecordIsInvalid (wst o dest pend last)) with (wst o dest pend LastRecordIsInvalid). cbv zeta.
    change (fun w : writer => andthen (Worker_AddRecord r (set_so_far (u64 (w_so_far w + u64 (zlen r + 8))) w)) _) with (add_tail r).
    cbn [wst w_desired w_so_far]. rewrite (u64_small (zlen r + 8)) by lia. rewrite (u64_small (so_far pend + (zlen r + 8))) by lia.
    destruct ((desired o <? so_far pend + (zlen r + 8)) && (0 <? so_far pend)) eqn:CLOSE.
    - apply andb_true_iff in CLOSE as [CL1 CL2]. apply Z.ltb_lt in CL1, CL2.
      assert (NP : pend <> []) by (intros ->; cbn in CL2; lia).
      assert (BC : bcost pend = cost pend) by (destruct pend; [congruence|reflexivity]).
      assert (TP : total pend < 2 ^ 56) by (rewrite BC in WS; unfold cost in WS; pose proof (zlen_nonneg pend); lia).
      destruct (close_chunk o dest qr pend LastRecordIsInvalid (so_far pend) O (tsmall_pend o pend O PO) FO NE NP BP B1 TP ltac:(lia)) as (out & k & C1 & C2 & C3).
      unfold wst at 1. rewrite C1, andthen_true. unfold OpenChunk, set_encoder, set_so_far at 1. cbn [w_options w_dest w_pos w_encoder w_desired w_so_far w_last w_ok]. rewrite clear_close.
      rewrite andthen_true. change (MkWriter o (dest ++ out) (zlen (dest ++ out)) (enc o []) (desired o) 0 LastRecordIsInvalid true) with (wst o (dest ++ out) [] LastRecordIsInvalid).
      destruct (add_step o (dest ++ out) (qr ++ [(Placed (zlen dest) (zlen (dest ++ out)) k, pend)]) [] r LastRecordIsInvalid (S + (2 ^ 23 + 8192 * zlen r))) as (out2 & new & pend' & last' & A1 & A2 & A3 & A4 & A5); try assumption; try (left; reflexivity); try (constructor).
      { destruct qr; discriminate. }
      { pose proof (cost_snoc [] r). cbn [bcost app] in *. lia. }
      rewrite A1. destruct (pview_closed qr dest (zlen (dest ++ out)) k pend (dest ++ out)) as [V1 V2].
      exists (out ++ out2), ([(Placed (zlen dest) (zlen (dest ++ out)) k, pend)] ++ new), pend', last'. eexists. rewrite !app_assoc.
      split; [reflexivity|]. split; [exact A2|]. split; [exact A3|]. rewrite <- V1, <- V2. split; [exact A4|exact A5].
    - rewrite andthen_true.
      destruct (add_step o dest qr pend r LastRecordIsInvalid (S + (2 ^ 23 + 8192 * zlen r))) as (out2 & new & pend' & last' & A1 & A2 & A3 & A4 & A5); try assumption.
      { apply andb_false_iff in CLOSE as [CL|CL]; apply Z.ltb_ge in CL; [right; lia|left]. destruct pend as [|x pend]; [reflexivity|]. pose proof (so_far_pos (x :: pend) ltac:(discriminate)). lia. }
      { pose proof (cost_snoc pend r). lia. }
      exists out2, new, pend', last'. eexists. split; [exact A1|]. split; [exact A2|]. split; [exact A3|]. split; [exact A4|exact A5].
  Qed.

  (** Closing the open chunk and padding: Flush and Done. *)
  Lemma close_open o qr dest pend last S : winv o qr dest pend last S -> S <= 2 ^ 62 ->
    exists out new e' last', close_open_chunk hash compress transpose_encode (wst o dest pend last) =
        Some (true, MkWriter o (dest ++ out) (zlen (dest ++ out)) e' (desired o) (so_far pend) last' true) /\
      (if 0 <? so_far pend then ce_clear e' = enc o [] else e' = enc o []) /\
      file_ok (dest ++ out) (qr ++ new) /\ qr ++ new <> [] /\ zlen (dest ++ out) <= S /\
      last' <> LastRecordIsValid /\ (forall e s b, LastPos (MkWriter o (dest ++ out) (zlen (dest ++ out)) e (desired o) s last' b) = LastPos (wst o dest pend last)) /\
      positions_of (pview (qr ++ new) (dest ++ out) []) = positions_of (pview qr dest pend) /\
      records_of (pview (qr ++ new) (dest ++ out) []) = records_of (pview qr dest pend).
  Proof.
    intros W S62. destruct (pend_bounds _ _ _ _ _ _ W) as (B1 & B2 & B3). destruct W as [O FO NE BP PO WS LV]. pose proof (zlen_nonneg dest) as D0. pose proof (bcost_nonneg pend) as C0.
    unfold close_open_chunk. cbn [wst w_so_far w_last].
    destruct (Z.ltb_spec 0 (so_far pend)) as [SP|SP].
    - assert (NP : pend <> []) by (intros ->; cbn in SP; lia).
      assert (BC : bcost pend = cost pend) by (destruct pend; [congruence|reflexivity]).
      assert (TP : total pend < 2 ^ 56) by (rewrite BC in WS; unfold cost in WS; pose proof (zlen_nonneg pend); lia).
      remember (match last with LastRecordIsValid => LastRecordIsValidAt (zlen dest, zlen pend - 1) | l => l end) as last' eqn:EL.
      assert (EW : (match last with LastRecordIsValid => set_last (LastRecordIsValidAt (Worker_LastPos (wst o dest pend last))) (wst o dest pend last) | _ => wst o dest pend last end)
                   = wst o dest pend last').
      { subst last'. destruct last; try reflexivity. unfold set_last, Worker_LastPos, wst. cbn [w_options w_dest w_pos w_encoder w_desired w_so_far w_last w_ok]. rewrite num_enc. reflexivity. }
      rewrite EW. destruct (close_chunk o dest qr pend last' (so_far pend) O (tsmall_pend o pend O PO) FO NE NP BP B1 TP ltac:(lia)) as (out & k & C1 & C2 & C3).
      exists out. eexists _, _, _. split; [unfold wst; exact C1|]. destruct (pview_closed qr dest (zlen (dest ++ out)) k pend (dest ++ out)) as [V1 V2].
      split; [apply clear_close|]. split; [exact C3|]. split; [destruct qr; discriminate|]. split; [lia|]. split; [subst last'; destruct last; discriminate|]. split; [|split; [exact V1|exact V2]].
      intros e s b. subst last'. unfold LastPos, Worker_LastPos, wst. cbn [w_options w_dest w_pos w_encoder w_desired w_so_far w_last w_ok]. rewrite num_enc. destruct last; reflexivity.
    - assert (pend = []) as -> by (destruct pend as [|x pend]; [reflexivity|]; pose proof (so_far_pos (x :: pend) ltac:(discriminate)); lia).
      exists [], [], (enc o []), last. rewrite !app_nil_r. split; [reflexivity|]. split; [reflexivity|]. split; [exact FO|]. split; [exact NE|]. split; [lia|].
      split; [intros ->; apply (LV eq_refl); reflexivity|]. split; [|split; reflexivity].
      intros e s b. unfold LastPos, Worker_LastPos, wst. cbn [w_options w_dest w_pos w_encoder w_desired w_so_far w_last w_ok]. destruct last; try reflexivity. exfalso. apply (LV eq_refl). reflexivity.
  Qed.

  Lemma flush_step o qr dest pend last S : winv o qr dest pend last S -> S + call_size o CallFlush <= 2 ^ 62 ->
    exists out new last', Flush hash compress transpose_encode (wst o dest pend last) = Some (true, wst o (dest ++ out) [] last') /\
      winv o (qr ++ new) (dest ++ out) [] last' (S + call_size o CallFlush) /\
      LastPos (wst o (dest ++ out) [] last') = LastPos (wst o dest pend last) /\
      positions_of (pview (qr ++ new) (dest ++ out) []) = positions_of (pview qr dest pend) /\
      records_of (pview (qr ++ new) (dest ++ out) []) = records_of (pview qr dest pend).
  Proof.
    intros W SZ. cbn [call_size] in *. pose proof (padding_nonneg _ (oo_final o (wi_o _ _ _ _ _ _ W))) as P0.
    destruct (close_open o qr dest pend last S W ltac:(lia)) as (out & new & e' & last' & C1 & C2 & C3 & C4 & C5 & C6 & C7 & C8 & C9).
    unfold Flush. cbn [wst w_ok negb]. fold (wst o dest pend last). rewrite C1, andthen_true. cbn [w_options].
    destruct (PutPadding_ok o (dest ++ out) (qr ++ new) e' (desired o) last' (o_final_padding o) (so_far pend) C3 C4 (oo_final o (wi_o _ _ _ _ _ _ W)) ltac:(lia)) as (out2 & new2 & P1 & P2 & P3 & P4).
    rewrite P1, andthen_true. cbn [w_so_far]. destruct (pview_padding (qr ++ new) new2 (dest ++ out) ((dest ++ out) ++ out2) P4) as [V1 V2].
    exists (out ++ out2), (new ++ new2), last'. rewrite !app_assoc.
    assert (R : winv o ((qr ++ new) ++ new2) ((dest ++ out) ++ out2) [] last' (S + (2 ^ 23 + 60 * o_final_padding o))).
    { destruct W. constructor; try assumption; try constructor; try reflexivity; [|cbn [bcost]; lia|intros; congruence]. intros E. apply app_eq_nil in E as [E _]. congruence. }
    split; [|split; [exact R|split; [|split; [rewrite V1; exact C8|rewrite V2; exact C9]]]].
    - destruct (0 <? so_far pend) eqn:SP.
      + unfold OpenChunk, set_encoder, set_so_far. cbn [w_options w_dest w_pos w_encoder w_desired w_so_far w_last w_ok]. rewrite C2. reflexivity.
      + rewrite C2. apply Z.ltb_ge in SP. pose proof (so_far_nonneg pend). replace (so_far pend) with 0 by lia. reflexivity.
    - rewrite <- (C7 (enc o []) 0 true). unfold LastPos. cbn [wst w_last]. destruct last'; try reflexivity. congruence.
  Qed.

  Lemma close_step o qr dest pend last S : winv o qr dest pend last S -> S + call_size o CallFlush <= 2 ^ 62 ->
    exists out new w', CloseWriter hash compress transpose_encode (wst o dest pend last) = Some (true, w') /\ w_dest w' = dest ++ out /\
      file_ok (dest ++ out) (qr ++ new) /\ qr ++ new <> [] /\ zlen (dest ++ out) <= S + call_size o CallFlush /\
      positions_of (vw (qr ++ new)) = positions_of (pview qr dest pend) /\
      records_of (vw (qr ++ new)) = records_of (pview qr dest pend).
  Proof.
    intros W SZ. cbn [call_size] in *. pose proof (padding_nonneg _ (oo_final o (wi_o _ _ _ _ _ _ W))) as P0.
    destruct (close_open o qr dest pend last S W ltac:(lia)) as (out & new & e' & last' & C1 & C2 & C3 & C4 & C5 & C6 & C7 & C8 & C9).
    unfold CloseWriter. rewrite C1. unfold set_so_far. cbn [w_options w_dest w_pos w_encoder w_desired w_so_far w_last w_ok].
    destruct (PutPadding_ok o (dest ++ out) (qr ++ new) e' (desired o) last' (o_final_padding o) 0 C3 C4 (oo_final o (wi_o _ _ _ _ _ _ W)) ltac:(lia)) as (out2 & new2 & P1 & P2 & P3 & P4).
    rewrite P1. destruct (pview_padding (qr ++ new) new2 (dest ++ out) ((dest ++ out) ++ out2) P4) as [V1 V2].
    rewrite positions_nil in V1. rewrite records_nil in V2.
    exists (out ++ out2), (new ++ new2). eexists. split; [reflexivity|]. cbn [w_dest]. rewrite !app_assoc. split; [reflexivity|]. split; [exact P3|].
    split; [intros E; apply app_eq_nil in E as [E _]; congruence|]. split; [lia|]. rewrite V1, V2. split; assumption.
  Qed.
End Writer.
