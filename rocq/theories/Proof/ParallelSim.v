(** The program of the user thread, with requests performed at once, does what the serial writer does. *)
From Verif Require Import Base.Bytes Model.Varint Model.Endian Model.Block Model.Chunk Model.ChunkWriter Model.ChunkReader Model.SimpleChunk Model.ChunkDecoder
  Model.RecordWriter Model.ParallelWriter Spec.BlockSpec Spec.FileSpec Spec.ChunkLink Spec.RecordsSpec Spec.CursorSpec Spec.SessionSpec Spec.ParallelSpec
  Proof.CodecLemmas Proof.BlockProof Proof.ChunkWriterProof Proof.FileProof Proof.ChunkPropsLemmas Proof.SimpleChunkProof Proof.DecoderProof Proof.RecordReaderProof
  Proof.RecordWriterProof Proof.SeqReadProof Proof.SessionProof Proof.ParallelProof.

Lemma cut_ends rs : forall pre, cut_records (zlen pre) (ends (zlen pre) rs) (pre ++ concat rs) = rs.
Proof.
  induction rs as [|r rs IH]; intros pre; cbn [ends cut_records concat]; [reflexivity|]. f_equal.
  - unfold zslice. rewrite zdrop_app_exact. replace (zlen pre + zlen r - zlen pre) with (zlen r) by lia. apply ztake_app_exact.
  - specialize (IH (pre ++ r)). rewrite zlen_app, <- app_assoc in IH. exact IH.
Qed.

Section Sim.
  Variable hash : list Z -> Z.
  Hypothesis hash_range : forall l, 0 <= hash l < 2 ^ 64.
  Variable compress : Z -> list Z -> list Z.
  Variable decompress : Z -> list Z -> option (list Z).
  Variable transpose_encode : options -> list (list Z) -> list Z.
  Variable transpose_decode : list Z -> Z -> Z -> option (list Z * list Z).
  Hypothesis CODECS : codecs compress decompress transpose_encode transpose_decode.

  Notation file_ok := (file_ok hash decompress transpose_decode).
  Notation winv := (winv hash decompress transpose_decode).
  Variable o : options.
  Notation encode := (encode_job hash compress transpose_encode o).
  Notation direct := (direct hash encode).

  Lemma put_sim dest k images out p : chunk_boundary (zlen dest) -> chunk_ok k -> zlen dest + room k < 2 ^ 64 ->
    WriteChunk hash (mk_chunk hash k) (zlen dest) = Some (out, p) -> put hash (mk_chunk hash k) (dest, zlen dest, images) = Some (dest ++ out, p, images).
  Proof.
    intros B K R W. pose proof (zlen_nonneg dest) as D0. unfold put. rewrite W.
    destruct (fits_room (zlen dest) k D0 B K R) as [F _]. pose proof (proj2 (cfits_mk hash hash_range k (zlen dest) K) F) as CF. destruct (mk_chunk_wf hash hash_range k K) as (WF & _).
    rewrite (WriteChunk_spec hash hash_range (mk_chunk hash k) (zlen dest) D0 B WF CF) in W. injection W as _ <-.
    destruct (cend_spec (mk_chunk hash k) (zlen dest) D0 B WF CF) as (-> & _). rewrite Z.eqb_refl. reflexivity.
  Qed.
  Lemma pad_sim dest padding images out p : chunk_boundary (zlen dest) -> padding_ok padding -> zlen dest + 60 * padding + 200 <= 2 ^ 63 ->
    WritePadding hash padding (zlen dest) = Some (out, p) -> pad hash padding (dest, zlen dest, images) = Some (dest ++ out, p, images).
  Proof.
    intros B PO SZ W. pose proof (zlen_nonneg dest) as D0. unfold pad. rewrite W.
    assert (E : PosAfterPadding (zlen dest) padding = Some p); [|rewrite E, Z.eqb_refl; reflexivity].
    assert (NONE : padding <= 1 \/ zlen dest mod padding = 0 -> PosAfterPadding (zlen dest) padding = Some (zlen dest)).
    { intros H. unfold PosAfterPadding. destruct (Z.leb_spec padding 1); [reflexivity|]. destruct H as [H|H]; [lia|]. rewrite H. reflexivity. }
    destruct PO as [PO|PO].
    - rewrite (WritePadding_none hash padding (zlen dest)) in W by lia. injection W as _ <-. apply NONE. lia.
    - destruct (Z.eq_dec (zlen dest mod padding) 0) as [M|M].
      + rewrite (WritePadding_none hash padding (zlen dest)) in W by auto. injection W as _ <-. apply NONE. auto.
      + destruct (WritePadding_after hash hash_range padding (zlen dest) D0 B PO ltac:(lia) M) as (out' & e & n & E & W' & _). rewrite W in W'. injection W' as <- <-. exact E.
  Qed.

  Lemma encode_def pend : zlen pend <= kMaxNumRecords -> total pend < 2 ^ 64 ->
    encode (JobChunk (def_of pend)) =
      match ce_EncodeAndClose compress transpose_encode o (enc o pend) with
      | None => None
      | Some (data, t, n, s) => Some (MkChunk (ChunkHeader hash data t n s) data)
      end.
  Proof.
    intros N T. unfold encode_job, enc. destruct (o_transpose o).
    - cbn [def_of d_ok d_limits d_records negb ce_EncodeAndClose]. rewrite zlen_ends. destruct (Z.ltb_spec kMaxNumRecords (zlen pend)); [lia|].
      pose proof (cut_ends pend []) as CE. change (zlen (@nil Z)) with 0 in CE. cbn [app] in CE. rewrite CE. reflexivity.
    - cbn [ce_EncodeAndClose]. unfold Deferred_EncodeAndClose. cbn [def_of d_ok d_limits d_records negb]. change NewEncoder with (enc_of []). rewrite AddRecords_ok by assumption. reflexivity.
  Qed.

  Lemma direct_pthen m f d : direct (pthen m f) d =
    match direct m d with Some ((b, l), d) => if b then direct (f l) d else Some ((false, l_set_ok false l), d) | None => None end.
  Proof.
    unfold pthen. rewrite direct_bind. destruct (direct m d) as [[[b l] d']|]; [|reflexivity]. destruct b; [reflexivity|]. destruct d'. reflexivity.
  Qed.
  Lemma direct_ret {X} (a : X) d : direct (Ret a) d = Some (a, d).
  Proof. destruct d. reflexivity. Qed.

  Lemma sim_close dest qr pend last sf pl images G bs n : options_ok o -> tsmall o pend -> file_ok dest qr -> qr <> [] -> pend <> [] -> Forall bytes pend ->
    zlen pend <= kMaxNumRecords -> total pend < 2 ^ 56 -> zlen dest + cost pend <= 2 ^ 63 ->
    exists out k c,
      CloseChunk hash compress transpose_encode (MkWriter o dest (zlen dest) (enc o pend) (desired o) sf last true)
        = Some (true, MkWriter o (dest ++ out) (zlen (dest ++ out)) (ce_close (enc o pend)) (desired o) sf last true) /\
      zlen (dest ++ out) <= zlen dest + cost pend /\
      file_ok (dest ++ out) (qr ++ [(Placed (zlen dest) (zlen (dest ++ out)) k, pend)]) /\
      direct (P_CloseChunk (MkLocal true (Some (def_of pend)) (desired o) sf pl)) (MkD (dest, zlen dest, images) G bs n)
        = Some ((true, MkLocal true None (desired o) sf pl), MkD (dest ++ out, zlen (dest ++ out), images) (G ++ [c]) bs n).
  Proof.
    intros O SM FO NE P B N T SZ. destruct (encode_ok hash hash_range compress decompress transpose_encode transpose_decode CODECS o pend O SM B N T) as (data & ct & E1 & E2 & E3 & E4).
    destruct (append_chunk hash hash_range decompress transpose_decode dest qr _ pend FO E2 ltac:(congruence) E3 eq_refl ltac:(lia)) as (out & W & L & F2).
    exists out. eexists _, (mk_chunk hash (Chunk ct (zlen pend) (total pend) data)). split; [|split; [|split; [exact F2|]]].
    - unfold CloseChunk. cbn [w_ok negb w_options w_encoder]. rewrite E1. unfold put_chunk, set_encoder. cbn [w_pos w_dest w_options w_desired w_so_far w_last w_ok].
      change (MkChunk (ChunkHeader hash data ct (zlen pend) (total pend)) data) with (mk_chunk hash (Chunk ct (zlen pend) (total pend) data)). rewrite W. reflexivity.
    - lia.
    - unfold P_CloseChunk. cbn [ParallelProof.direct negb l_encoder]. rewrite encode_def by lia. rewrite E1.
      change (MkChunk (ChunkHeader hash data ct (zlen pend) (total pend)) data) with (mk_chunk hash (Chunk ct (zlen pend) (total pend) data)).
      rewrite (put_sim dest _ images out (zlen (dest ++ out)) (f_b _ _ _ _ _ FO) E2 ltac:(lia) W). reflexivity.
  Qed.

  (** The last record. *)
  Definition lrel (bs : list Z) (pl : plast) (last : last_record) : Prop :=
    match pl, last with
    | PInvalid, LastRecordIsInvalid => True
    | PValid, LastRecordIsValid => True
    | PValidAt (m, i), LastRecordIsValidAt (z, j) => i = j /\ nth_error bs m = Some z
    | _, _ => False
    end.
  Lemma lrel_more bs more pl last : lrel bs pl last -> lrel (bs ++ more) pl last.
  Proof. unfold lrel. destruct pl as [| |[m i]], last as [| |[z j]]; auto. intros [-> N]. split; [reflexivity|]. apply nth_error_app_some, N. Qed.
  Definition loc (pend : list (list Z)) (pl : plast) : local := MkLocal true (Some (def_of pend)) (desired o) (so_far pend) pl.

  Lemma AddRecord_sim pend r : zlen pend + 1 <= kMaxNumRecords -> total pend + zlen r < 2 ^ 64 -> Deferred_AddRecord r (def_of pend) = (true, def_of (pend ++ [r])).
  Proof.
    intros N T. apply (add_deferred_ok (One r) pend); cbn [added].
    - rewrite zlen_app. exact N.
    - rewrite total_app, total_cons. change (total []) with 0. lia.
  Qed.

  Definition P_add_tail (r : list Z) (l : local) : prog (bool * local) :=
    let l := l_set_so_far (u64 (l_so_far l + u64 (zlen r + 8))) l in
    pthen (P_AddRecord r l)
      (fun l =>
         if l_desired l <? u64 (l_so_far l + 8) then
           p <- P_WorkerLastPos l ;;
           let l := l_set_last (PValidAt p) l in
           pthen (P_CloseChunk l) (fun l => Ret (true, l_set_so_far 0 (P_OpenChunk l)))
         else Ret (true, l_set_last PValid l)).
  Lemma sim_add dest qr pend r last pl images G bs n S : options_ok o -> file_ok dest qr -> qr <> [] -> Forall bytes pend -> record_ok o r ->
    (pend = [] \/ so_far pend + zlen r + 8 <= desired o) -> zlen dest + cost (pend ++ [r]) <= S -> S <= 2 ^ 62 ->
    exists out new pend' last' pl' G' more,
      add_tail hash compress transpose_encode r (wst o dest pend last) = Some (true, wst o (dest ++ out) pend' last') /\
      winv o (qr ++ new) (dest ++ out) pend' last' S /\
      direct (P_add_tail r (loc pend pl)) (MkD (dest, zlen dest, images) G bs n) = Some ((true, loc pend' pl'), MkD (dest ++ out, zlen (dest ++ out), images) G' (bs ++ more) n) /\
      lrel (bs ++ more) pl' last'.
  Proof.
    intros O FO NE BP RO PO SZ S62. assert (SM : tsmall o (pend ++ [r])) by (eapply tsmall_snoc; eassumption). pose proof (proj1 RO) as BR. pose proof (desired_range o O) as DR. pose proof (zlen_nonneg dest) as D0. pose proof (zlen_nonneg pend) as P0. pose proof (zlen_nonneg r) as R0.
    pose proof (total_nonneg pend) as T0. pose proof (so_far_nonneg pend) as F0.
    assert (CE : cost (pend ++ [r]) = 2 ^ 22 + 8193 * (zlen pend + 1) + 8192 * (total pend + zlen r)).
    { unfold cost. rewrite zlen_app, total_app, total_cons. change (zlen [r]) with 1. change (total []) with 0. lia. }
    assert (ZA : zlen (pend ++ [r]) = zlen pend + 1) by (rewrite zlen_app; reflexivity).
    assert (TA : total (pend ++ [r]) = total pend + zlen r) by (rewrite total_app, total_cons; change (total []) with 0; lia).
    assert (NR : zlen pend + 1 <= kMaxNumRecords).
    { destruct PO as [->|PO]; [unfold kMaxNumRecords; cbn; lia|]. unfold so_far, desired in PO. lia. }
    assert (SF : so_far (pend ++ [r]) = so_far pend + (zlen r + 8)) by (unfold so_far; rewrite ZA, TA; lia).
    assert (SB : so_far (pend ++ [r]) + 8 < 2 ^ 62) by (unfold so_far in *; rewrite ZA, TA in *; unfold kMaxNumRecords in *; lia).
    unfold add_tail, P_add_tail, loc, wst, set_so_far, l_set_so_far. cbn [w_options w_dest w_pos w_encoder w_desired w_so_far w_last w_ok l_ok l_encoder l_desired l_so_far l_last].
    rewrite (u64_small (zlen r + 8)) by lia. rewrite (u64_small (so_far pend + (zlen r + 8))) by lia. rewrite <- SF.
    unfold Worker_AddRecord. cbn [w_options w_dest w_pos w_encoder w_desired w_so_far w_last w_ok negb].
    assert (AR : ce_AddRecord r (enc o pend) = (true, enc o (pend ++ [r]))).
    { unfold enc. destruct (o_transpose o); cbn [ce_AddRecord negb].
      - destruct (Z.eqb_spec (zlen pend) kMaxNumRecords); [lia|]. fold (total pend). destruct (Z.ltb_spec (2 ^ 64 - 1 - total pend) (zlen r)); [lia|]. reflexivity.
      - rewrite AddRecord_ok by lia. reflexivity. }
    rewrite AR. unfold set_encoder. cbn [w_options w_dest w_pos w_encoder w_desired w_so_far w_last w_ok]. rewrite andthen_true.
    rewrite direct_pthen. unfold P_AddRecord. cbn [ParallelProof.direct negb l_encoder]. rewrite AddRecord_sim by lia.
    unfold l_set_encoder. cbn [ParallelProof.direct l_ok l_encoder l_desired l_so_far l_last].
    cbn [w_options w_dest w_pos w_encoder w_desired w_so_far w_last w_ok]. rewrite (u64_small (so_far (pend ++ [r]) + 8)) by (pose proof (so_far_nonneg (pend ++ [r])); lia).
    assert (BA : Forall bytes (pend ++ [r])) by (apply Forall_app; split; [assumption|constructor; [assumption|constructor]]).
    assert (NA : pend ++ [r] <> []) by (destruct pend; discriminate).
    destruct (Z.ltb_spec (desired o) (so_far (pend ++ [r]) + 8)) as [H|H].
    - unfold set_last, Worker_LastPos. cbn [w_options w_dest w_pos w_encoder w_desired w_so_far w_last w_ok]. rewrite num_enc, ZA, Z.add_simpl_r.
      destruct (sim_close dest qr (pend ++ [r]) (LastRecordIsValidAt (zlen dest, zlen pend)) (so_far (pend ++ [r])) (PValidAt (length bs, zlen pend)) images G (bs ++ [zlen dest]) n O SM FO NE NA BA ltac:(lia) ltac:(lia) ltac:(lia)) as (out & k & c & C1 & C2 & C3 & C4).
      rewrite C1, andthen_true. unfold OpenChunk, set_encoder, set_so_far. cbn [w_options w_dest w_pos w_encoder w_desired w_so_far w_last w_ok]. rewrite clear_close.
      exists out. eexists. exists [], (LastRecordIsValidAt (zlen dest, zlen pend)), (PValidAt (length bs, zlen pend)), (G ++ [c]), [zlen dest]. split; [reflexivity|].
      split; [|split].
      + constructor; [assumption|exact C3|destruct qr; discriminate|constructor|left; reflexivity|cbn [bcost]; lia|discriminate].
      + rewrite direct_bind. unfold P_WorkerLastPos. cbn [l_encoder ParallelProof.direct w_at fst snd]. unfold l_set_last. cbn [l_ok l_encoder l_desired l_so_far l_last def_of d_num].
        rewrite direct_pthen, ZA, Z.add_simpl_r. change (w_at (dest, zlen dest, images)) with (zlen dest). rewrite C4. reflexivity.
      + split; [reflexivity|]. apply nth_snoc.
    - exists [], [], (pend ++ [r]), LastRecordIsValid, PValid, G, []. rewrite !app_nil_r. split; [reflexivity|]. split; [|split; [reflexivity|exact Logic.I]].
      constructor; try assumption; try (right; assumption); try (intros _; assumption). destruct (pend ++ [r]) eqn:E; [congruence|]. cbn [bcost]. lia.
  Qed.

  Lemma sim_write qr dest pend last S r pl images G bs n : winv o qr dest pend last S -> record_ok o r -> S + call_size o (CallWrite r) <= 2 ^ 62 ->
    exists out new pend' last' pl' G' more,
      WriteRecord hash compress transpose_encode r (wst o dest pend last) = Some (true, wst o (dest ++ out) pend' last') /\
      winv o (qr ++ new) (dest ++ out) pend' last' (S + call_size o (CallWrite r)) /\
      direct (P_WriteRecord r (loc pend pl)) (MkD (dest, zlen dest, images) G bs n) = Some ((true, loc pend' pl'), MkD (dest ++ out, zlen (dest ++ out), images) G' (bs ++ more) n) /\
      lrel (bs ++ more) pl' last'.
  Proof.
    intros W BR SZ. destruct (pend_bounds hash hash_range _ _ _ _ _ _ _ _ W) as (B1 & B2 & B3). destruct W as [O FO NE BP PO WS LV]. cbn [call_size] in *. pose proof (desired_range o O) as DR.
    pose proof (zlen_nonneg dest) as D0. pose proof (zlen_nonneg r) as R0. pose proof (bcost_nonneg hash hash_range pend) as C0. pose proof (so_far_nonneg pend) as F0.
    unfold WriteRecord. cbn [wst w_ok negb]. change (set_last LastRecordIsInvalid (wst o dest pend last)) with (wst o dest pend LastRecordIsInvalid). cbv zeta.
    change (fun w : writer => andthen (Worker_AddRecord r (set_so_far (u64 (w_so_far w + u64 (zlen r + 8))) w)) _) with (add_tail hash compress transpose_encode r).
    unfold P_WriteRecord. cbn [loc l_ok negb]. change (l_set_last PInvalid (loc pend pl)) with (loc pend PInvalid). cbv zeta.
    change (fun l : local => pthen (P_AddRecord r (l_set_so_far (u64 (l_so_far l + u64 (zlen r + 8))) l)) _) with (P_add_tail r).
    cbn [wst w_desired w_so_far loc l_desired l_so_far]. rewrite (u64_small (zlen r + 8)) by lia. rewrite (u64_small (so_far pend + (zlen r + 8))) by lia.
    rewrite direct_pthen. destruct ((desired o <? so_far pend + (zlen r + 8)) && (0 <? so_far pend)) eqn:CLOSE.
    - apply andb_true_iff in CLOSE as [CL1 CL2]. apply Z.ltb_lt in CL1, CL2.
      assert (NP : pend <> []) by (intros ->; cbn in CL2; lia).
      assert (BC : bcost pend = cost pend) by (destruct pend; [congruence|reflexivity]).
      assert (TP : total pend < 2 ^ 56) by (rewrite BC in WS; unfold cost in WS; pose proof (zlen_nonneg pend); lia).
      destruct (sim_close dest qr pend LastRecordIsInvalid (so_far pend) PInvalid images G bs n O ltac:(eapply tsmall_pend; eassumption) FO NE NP BP B1 TP ltac:(lia)) as (out & k & c & C1 & C2 & C3 & C4).
      unfold wst at 1. rewrite C1, andthen_true. unfold OpenChunk, set_encoder, set_so_far at 1. cbn [w_options w_dest w_pos w_encoder w_desired w_so_far w_last w_ok]. rewrite clear_close.
      rewrite andthen_true. change (MkWriter o (dest ++ out) (zlen (dest ++ out)) (enc o []) (desired o) 0 LastRecordIsInvalid true) with (wst o (dest ++ out) [] LastRecordIsInvalid).
      unfold loc at 1. rewrite direct_pthen, C4. cbn [ParallelProof.direct]. unfold P_OpenChunk, l_set_encoder, l_set_so_far at 1. cbn [l_ok l_encoder l_desired l_so_far l_last].
      change (MkLocal true (Some NewDeferred) (desired o) 0 PInvalid) with (loc [] PInvalid).
      destruct (sim_add (dest ++ out) (qr ++ [(Placed (zlen dest) (zlen (dest ++ out)) k, pend)]) [] r LastRecordIsInvalid PInvalid images (G ++ [c]) bs n (S + (2 ^ 23 + 8192 * zlen r)))
        as (out2 & new & pend' & last' & pl' & G' & more & A1 & A2 & A3 & A4); try assumption; try (left; reflexivity); try (constructor).
      { destruct qr; discriminate. }
      { pose proof (cost_snoc hash hash_range [] r). cbn [bcost app] in *. lia. }
      rewrite A1, A3. exists (out ++ out2), ([(Placed (zlen dest) (zlen (dest ++ out)) k, pend)] ++ new), pend', last', pl', G', more. rewrite !app_assoc.
      split; [reflexivity|]. split; [exact A2|]. split; [reflexivity|exact A4].
    - rewrite andthen_true. cbn [ParallelProof.direct].
      destruct (sim_add dest qr pend r LastRecordIsInvalid PInvalid images G bs n (S + (2 ^ 23 + 8192 * zlen r))) as (out2 & new & pend' & last' & pl' & G' & more & A1 & A2 & A3 & A4); try assumption.
      { apply andb_false_iff in CLOSE as [CL|CL]; apply Z.ltb_ge in CL; [right; lia|left]. destruct pend as [|x pend]; [reflexivity|]. pose proof (so_far_pos (x :: pend) ltac:(discriminate)). lia. }
      { pose proof (cost_snoc hash hash_range pend r). lia. }
      exists out2, new, pend', last', pl', G', more. split; [exact A1|]. split; [exact A2|]. split; [exact A3|exact A4].
  Qed.

  Lemma sim_close_open qr dest pend last S pl images G bs n : winv o qr dest pend last S -> S <= 2 ^ 62 -> lrel bs pl last ->
    exists out new e' last' enc' pl' G' more, close_open_chunk hash compress transpose_encode (wst o dest pend last) =
        Some (true, MkWriter o (dest ++ out) (zlen (dest ++ out)) e' (desired o) (so_far pend) last' true) /\
      (if 0 <? so_far pend then ce_clear e' = enc o [] else e' = enc o []) /\
      file_ok (dest ++ out) (qr ++ new) /\ qr ++ new <> [] /\ zlen (dest ++ out) <= S /\ last' <> LastRecordIsValid /\
      direct (P_close_open_chunk (loc pend pl)) (MkD (dest, zlen dest, images) G bs n)
        = Some ((true, MkLocal true enc' (desired o) (so_far pend) pl'), MkD (dest ++ out, zlen (dest ++ out), images) G' (bs ++ more) n) /\
      (if 0 <? so_far pend then enc' = None else enc' = Some (def_of [])) /\ lrel (bs ++ more) pl' last'.
  Proof.
    intros W S62 LR. destruct (pend_bounds hash hash_range _ _ _ _ _ _ _ _ W) as (B1 & B2 & B3). destruct W as [O FO NE BP PO WS LV]. pose proof (zlen_nonneg dest) as D0. pose proof (bcost_nonneg hash hash_range pend) as C0.
    unfold close_open_chunk, P_close_open_chunk. cbn [wst w_so_far w_last loc l_so_far l_last].
    destruct (Z.ltb_spec 0 (so_far pend)) as [SP|SP].
    - assert (NP : pend <> []) by (intros ->; cbn in SP; lia).
      assert (BC : bcost pend = cost pend) by (destruct pend; [congruence|reflexivity]).
      assert (TP : total pend < 2 ^ 56) by (rewrite BC in WS; unfold cost in WS; pose proof (zlen_nonneg pend); lia).
      remember (match last with LastRecordIsValid => LastRecordIsValidAt (zlen dest, zlen pend - 1) | l => l end) as last' eqn:EL.
      assert (EW : (match last with LastRecordIsValid => set_last (LastRecordIsValidAt (Worker_LastPos (wst o dest pend last))) (wst o dest pend last) | _ => wst o dest pend last end)
                   = wst o dest pend last').
      { subst last'. destruct last; try reflexivity. unfold set_last, Worker_LastPos, wst. cbn [w_options w_dest w_pos w_encoder w_desired w_so_far w_last w_ok]. rewrite num_enc. reflexivity. }
      rewrite EW.
      assert (EP : exists pl' more, direct (match pl with PValid => p <- P_WorkerLastPos (loc pend pl) ;; Ret (l_set_last (PValidAt p) (loc pend pl)) | _ => Ret (loc pend pl) end) (MkD (dest, zlen dest, images) G bs n)
                   = Some (loc pend pl', MkD (dest, zlen dest, images) G (bs ++ more) n) /\ lrel (bs ++ more) pl' last').
      { subst last'. unfold lrel in LR. destruct pl as [| |[m i]], last as [| |[z j]]; try contradiction.
        - exists PInvalid, []. rewrite app_nil_r. split; [reflexivity|exact Logic.I].
        - exists (PValidAt (length bs, zlen pend - 1)), [zlen dest]. split; [reflexivity|]. split; [reflexivity|]. apply nth_snoc.
        - exists (PValidAt (m, i)), []. rewrite app_nil_r. split; [reflexivity|exact LR]. }
      destruct EP as (pl' & more & EP & LR').
      destruct (sim_close dest qr pend last' (so_far pend) pl' images G (bs ++ more) n O ltac:(eapply tsmall_pend; eassumption) FO NE NP BP B1 TP ltac:(lia)) as (out & k & c & C1 & C2 & C3 & C4).
      exists out. eexists _, _, _. exists None, pl', (G ++ [c]), more. split; [unfold wst; exact C1|].
      split; [apply clear_close|]. split; [exact C3|]. split; [destruct qr; discriminate|]. split; [lia|]. split; [subst last'; destruct last; discriminate|].
      split; [|split; [reflexivity|exact LR']].
      rewrite direct_bind. unfold loc at 1 2 3. fold (loc pend pl). rewrite EP. unfold loc. exact C4.
    - assert (pend = []) as -> by (destruct pend as [|x pend]; [reflexivity|]; pose proof (so_far_pos (x :: pend) ltac:(discriminate)); lia).
      exists [], [], (enc o []), last, (Some (def_of [])), pl, G, []. rewrite !app_nil_r. split; [reflexivity|]. split; [reflexivity|]. split; [exact FO|]. split; [exact NE|]. split; [lia|].
      split; [intros ->; apply (LV eq_refl); reflexivity|]. split; [reflexivity|]. split; [reflexivity|exact LR].
  Qed.

  Lemma sim_pad dest qr padding images G bs n : file_ok dest qr -> qr <> [] -> padding_ok padding -> zlen dest + 60 * padding + 200 <= 2 ^ 63 ->
    exists out new, WritePadding hash padding (zlen dest) = Some (out, zlen (dest ++ out)) /\
      zlen (dest ++ out) <= zlen dest + 25 * padding + 40 /\ file_ok (dest ++ out) (qr ++ new) /\ Forall (fun x => snd x = []) new /\
      direct (P_WritePadding padding) (MkD (dest, zlen dest, images) G bs n) = Some (true, MkD (dest ++ out, zlen (dest ++ out), images) G bs n).
  Proof.
    intros FO NE PO SZ. destruct (put_padding hash hash_range decompress transpose_decode dest qr padding FO NE PO SZ) as (out & new & W & L & F & Z0).
    exists out, new. split; [exact W|]. split; [exact L|]. split; [exact F|]. split; [exact Z0|].
    unfold P_WritePadding. cbn [ParallelProof.direct negb]. rewrite (pad_sim dest padding images out _ (f_b _ _ _ _ _ FO) PO SZ W). reflexivity.
  Qed.

  (** Flush() and FutureFlush() *)
  Lemma sim_flush qr dest pend last S pl images G bs n : winv o qr dest pend last S -> S + call_size o CallFlush <= 2 ^ 62 -> lrel bs pl last ->
    exists out new last' pl' G' more,
      Flush hash compress transpose_encode (wst o dest pend last) = Some (true, wst o (dest ++ out) [] last') /\
      winv o (qr ++ new) (dest ++ out) [] last' (S + call_size o CallFlush) /\
      direct (P_Flush o (loc pend pl)) (MkD (dest, zlen dest, images) G bs n)
        = Some ((true, loc [] pl'), MkD (dest ++ out, zlen (dest ++ out), images ++ [dest ++ out]) G' (bs ++ more) (Datatypes.S n)) /\
      direct (P_FutureFlush o (loc pend pl)) (MkD (dest, zlen dest, images) G bs n)
        = Some ((inr n, loc [] pl'), MkD (dest ++ out, zlen (dest ++ out), images ++ [dest ++ out]) G' (bs ++ more) (Datatypes.S n)) /\
      lrel (bs ++ more) pl' last'.
  Proof.
    intros W SZ LR. cbn [call_size] in *. pose proof (padding_nonneg _ (oo_final o (wi_o _ _ _ _ _ _ _ _ _ W))) as P0.
    destruct (sim_close_open qr dest pend last S pl images G bs n W ltac:(lia) LR) as (out & new & e' & last' & enc' & pl' & G' & more & C1 & C2 & C3 & C4 & C5 & C6 & C7 & C8 & C9).
    unfold Flush. cbn [wst w_ok negb]. fold (wst o dest pend last). rewrite C1, andthen_true. cbn [w_options].
    destruct (sim_pad (dest ++ out) (qr ++ new) (o_final_padding o) images G' (bs ++ more) n C3 C4 (oo_final o (wi_o _ _ _ _ _ _ _ _ _ W)) ltac:(lia)) as (out2 & new2 & P1 & P2 & P3 & P4 & P5).
    unfold PutPadding. cbn [w_ok negb w_pos w_dest]. rewrite P1, andthen_true. unfold set_dest. cbn [w_options w_dest w_pos w_encoder w_desired w_so_far w_last w_ok].
    exists (out ++ out2), (new ++ new2), last', pl', G', more. rewrite !app_assoc.
    assert (R : winv o ((qr ++ new) ++ new2) ((dest ++ out) ++ out2) [] last' (S + (2 ^ 23 + 60 * o_final_padding o))).
    { destruct W. constructor; try assumption; try constructor; try reflexivity; [|cbn [bcost]; lia|intros; congruence]. intros E. apply app_eq_nil in E as [E _]. congruence. }
    assert (RE : P_reopen (MkLocal true enc' (desired o) (so_far pend) pl') = loc [] pl').
    { unfold P_reopen. cbn [l_so_far]. destruct (0 <? so_far pend) eqn:SP; [reflexivity|]. rewrite C8. apply Z.ltb_ge in SP. pose proof (so_far_nonneg pend). unfold loc. replace (so_far pend) with 0 by lia. reflexivity. }
    split; [|split; [exact R|split; [|split; [|exact C9]]]].
    - destruct (0 <? so_far pend) eqn:SP.
      + unfold OpenChunk, set_encoder, set_so_far. cbn [w_options w_dest w_pos w_encoder w_desired w_so_far w_last w_ok]. rewrite C2. reflexivity.
      + rewrite C2. apply Z.ltb_ge in SP. pose proof (so_far_nonneg pend). replace (so_far pend) with 0 by lia. reflexivity.
    - unfold P_Flush. cbn [loc l_ok negb]. rewrite direct_pthen. fold (loc pend pl). rewrite C7. rewrite direct_pthen. unfold P_pad. rewrite direct_bind, P5. cbn [ParallelProof.direct].
      rewrite direct_pthen. cbn [ParallelProof.direct]. rewrite Nat.ltb_irrefl || idtac. destruct (Nat.ltb_spec n (Datatypes.S n)); [|lia]. cbn [ParallelProof.direct flush]. rewrite RE. reflexivity.
    - unfold P_FutureFlush. cbn [loc l_ok negb]. rewrite direct_bind. fold (loc pend pl). rewrite C7. cbn [negb]. unfold P_pad. rewrite direct_bind, direct_bind, P5. cbn [ParallelProof.direct negb flush]. rewrite RE. reflexivity.
  Qed.

  Lemma sim_Close qr dest pend last S pl images G bs n : winv o qr dest pend last S -> S + call_size o CallFlush <= 2 ^ 62 -> lrel bs pl last ->
    exists out new w' d', CloseWriter hash compress transpose_encode (wst o dest pend last) = Some (true, w') /\ w_dest w' = dest ++ out /\
      file_ok (dest ++ out) (qr ++ new) /\
      direct (P_Close o (loc pend pl)) (MkD (dest, zlen dest, images) G bs n) = Some (true, d') /\ fst (fst (d_world d')) = dest ++ out /\ snd (d_world d') = images.
  Proof.
    intros W SZ LR. cbn [call_size] in *. pose proof (padding_nonneg _ (oo_final o (wi_o _ _ _ _ _ _ _ _ _ W))) as P0.
    destruct (sim_close_open qr dest pend last S pl images G bs n W ltac:(lia) LR) as (out & new & e' & last' & enc' & pl' & G' & more & C1 & C2 & C3 & C4 & C5 & C6 & C7 & C8 & C9).
    unfold CloseWriter. rewrite C1. unfold set_so_far. cbn [w_options w_dest w_pos w_encoder w_desired w_so_far w_last w_ok].
    destruct (sim_pad (dest ++ out) (qr ++ new) (o_final_padding o) images G' (bs ++ more) n C3 C4 (oo_final o (wi_o _ _ _ _ _ _ _ _ _ W)) ltac:(lia)) as (out2 & new2 & P1 & P2 & P3 & P4 & P5).
    unfold PutPadding. cbn [w_ok negb w_pos w_dest w_options]. rewrite P1. unfold set_dest. cbn [w_options w_dest w_pos w_encoder w_desired w_so_far w_last w_ok andb].
    exists (out ++ out2), (new ++ new2). eexists. eexists. split; [reflexivity|]. cbn [w_dest]. rewrite !app_assoc. split; [reflexivity|]. split; [exact P3|].
    split; [|split].
    - unfold P_Close. rewrite direct_bind, C7, direct_bind, P5, direct_bind. unfold P_CloseWorker. cbn [ParallelProof.direct l_ok andb]. reflexivity.
    - reflexivity.
    - reflexivity.
  Qed.

  (** Opening *)
  Lemma sim_open_empty : options_ok o -> opening_size o <= 2 ^ 62 ->
    exists dest qr G, NewRecordWriter hash transpose_encode o [] = Some (true, wst o dest [] LastRecordIsInvalid) /\
      winv o qr dest [] LastRecordIsInvalid (opening_size o) /\
      direct (P_New hash o 0) (MkD ([], 0, []) [] [] 0) = Some (loc [] PInvalid, MkD (dest, zlen dest, []) G [] 0).
  Proof.
    intros O SZ. unfold NewRecordWriter. change (InitializeWriter (zlen (@nil Z))) with (@nil Z, 0). cbn [app Z.eqb].
    unfold WriteSignature. cbn [w_ok negb]. unfold put_chunk. cbn [w_pos w_dest].
    destruct (signature_ok hash hash_range decompress transpose_decode) as [K D]. unfold opening_size in *. pose proof (padding_nonneg _ (oo_initial o O)) as P0.
    destruct (append_chunk hash hash_range decompress transpose_decode [] [] signature_chunk [] (file_nil_ok hash decompress transpose_decode) K ltac:(reflexivity) D ltac:(reflexivity) ltac:(cbn; lia)) as (out & W & L & F1).
    change (MkChunk (ChunkHeader hash [] kFileSignature 0 0) []) with (mk_chunk hash signature_chunk). change (zlen (@nil Z)) with 0 in W at 1. rewrite W. rewrite andthen_true.
    unfold set_dest. cbn [w_options w_dest w_pos w_encoder w_desired w_so_far w_last w_ok app] in *. 
    unfold WriteMetadata. cbn [w_ok negb w_options].
    change (room signature_chunk) with 144 in L. change (zlen (@nil Z)) with 0 in L.
    assert (EE : (if o_transpose o then CTransposed [] true else CSimple NewEncoder) = enc o []) by (unfold enc; destruct (o_transpose o); reflexivity). rewrite EE.
    pose proof (put_sim [] signature_chunk [] out (zlen out) ltac:(left; reflexivity) K ltac:(cbn; lia) W) as PS. cbn [app] in PS. change (zlen (@nil Z)) with 0 in PS.
    unfold P_New. cbn [Z.eqb]. rewrite direct_bind, direct_bind. unfold P_WriteSignature. cbn [ParallelProof.direct negb].
    change (MkChunk (ChunkHeader hash [] kFileSignature 0 0) []) with (mk_chunk hash signature_chunk). rewrite PS. cbn [ParallelProof.direct app].
    unfold P_WriteMetadata. cbn [ParallelProof.direct negb].
    pose proof (oo_metadata o O) as MB0.
    destruct (o_metadata o) as [m|].
    - destruct MB0 as [MB MB1]. pose proof (zlen_nonneg m) as M0. pose proof (ct_size _ _ _ _ CODECS o [m] (oo_compression o O) ltac:(constructor; [exact MB|constructor]) ltac:(cbn [concat]; rewrite app_nil_r; change (zlen [m]) with 1; lia)) as TS. change (zlen [m]) with 1 in TS. cbn [concat] in TS. rewrite app_nil_r in TS.
      destruct (metadata_ok hash hash_range decompress transpose_decode (transpose_encode o [m]) (zlen m) ltac:(lia) ltac:(lia)) as [K2 D2].
      destruct (append_chunk hash hash_range decompress transpose_decode out _ (Chunk kFileMetadata 0 (zlen m) (transpose_encode o [m])) [] F1 K2 ltac:(discriminate) D2 ltac:(reflexivity)) as (out2 & W2 & L2 & F2).
      { unfold room. cbn [k_nrec k_data]. lia. }
      unfold put_chunk. cbn [w_pos w_dest]. change (MkChunk (ChunkHeader hash (transpose_encode o [m]) kFileMetadata 0 (zlen m)) (transpose_encode o [m])) with (mk_chunk hash (Chunk kFileMetadata 0 (zlen m) (transpose_encode o [m]))).
      rewrite W2, andthen_true. unfold set_dest. cbn [w_options w_dest w_pos w_encoder w_desired w_so_far w_last w_ok].
      exists (out ++ out2). eexists. eexists. split; [reflexivity|]. split.
      + constructor; [exact O|exact F2|discriminate|constructor|left; reflexivity| |discriminate]. cbn [bcost]. unfold room in L2. cbn [k_nrec k_data] in L2. lia.
      + cbn [ParallelProof.direct encode_job].
        change (MkChunk (ChunkHeader hash (transpose_encode o [m]) kFileMetadata 0 (zlen m)) (transpose_encode o [m])) with (mk_chunk hash (Chunk kFileMetadata 0 (zlen m) (transpose_encode o [m]))).
        rewrite (put_sim out (Chunk kFileMetadata 0 (zlen m) (transpose_encode o [m])) [] out2 _ (f_b _ _ _ _ _ F1) K2 ltac:(unfold room; cbn [k_nrec k_data]; lia) W2). reflexivity.
    - rewrite andthen_true. exists out. eexists. eexists. split; [reflexivity|]. split.
      + constructor; [exact O|exact F1|discriminate|constructor|left; reflexivity| |discriminate]. cbn [bcost]. lia.
      + cbn [ParallelProof.direct]. reflexivity.
  Qed.
  Lemma sim_open_append dest qr S : options_ok o -> file_ok dest qr -> qr <> [] -> zlen dest <= S -> S + opening_size o <= 2 ^ 62 ->
    exists out new G, NewRecordWriter hash transpose_encode o dest = Some (true, wst o (dest ++ out) [] LastRecordIsInvalid) /\
      winv o (qr ++ new) (dest ++ out) [] LastRecordIsInvalid (S + opening_size o) /\
      InitializeWriter (zlen dest) = ([], zlen dest) /\
      direct (P_New hash o (zlen dest)) (MkD (dest, zlen dest, []) [] [] 0) = Some (loc [] PInvalid, MkD (dest ++ out, zlen (dest ++ out), []) G [] 0).
  Proof.
    intros O FO NE DS SZ. pose proof (file_nonempty hash hash_range decompress transpose_decode dest qr FO NE) as Z0. unfold NewRecordWriter, InitializeWriter.
    pose proof (f_b _ _ _ _ _ FO) as FB. apply IsPossibleChunkBoundary_iff in FB. rewrite FB. rewrite app_nil_r. destruct (Z.eqb_spec (zlen dest) 0) as [|NZ]; [lia|].
    assert (EE : (if o_transpose o then CTransposed [] true else CSimple NewEncoder) = enc o []) by (unfold enc; destruct (o_transpose o); reflexivity). rewrite EE.
    unfold opening_size in *. pose proof (padding_nonneg _ (oo_initial o O)) as P0.
    assert (M0 : 0 <= match o_metadata o with Some m => zlen m | None => 0 end) by (destruct (o_metadata o); [apply zlen_nonneg|lia]).
    destruct (sim_pad dest qr (o_initial_padding o) [] [] [] 0%nat FO NE (oo_initial o O) ltac:(lia)) as (out & new & P1 & P2 & P3 & P4 & P5).
    exists out, new, []. unfold PutPadding. cbn [w_ok negb w_pos w_dest]. rewrite P1. split; [reflexivity|]. split; [|split; [reflexivity|]].
    - constructor; [exact O|exact P3|intros E; apply app_eq_nil in E as [E _]; congruence|constructor|left; reflexivity| |discriminate]. cbn [bcost]. lia.
    - unfold P_New. destruct (Z.eqb_spec (zlen dest) 0); [lia|]. rewrite direct_bind, P5. reflexivity.
  Qed.
End Sim.
