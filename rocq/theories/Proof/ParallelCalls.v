(** Sessions with a parallel writer: calls, what the user thread may do, faultless runs. *)
From Verif Require Import Base.Bytes Model.Varint Model.Endian Model.Block Model.Chunk Model.ChunkWriter Model.ChunkReader Model.SimpleChunk Model.ChunkDecoder
  Model.RecordWriter Model.ParallelWriter Spec.BlockSpec Spec.FileSpec Spec.ChunkLink Spec.RecordsSpec Spec.CursorSpec Spec.SessionSpec Spec.ParallelSpec
  Proof.CodecLemmas Proof.BlockProof Proof.ChunkWriterProof Proof.FileProof Proof.ChunkPropsLemmas Proof.SimpleChunkProof Proof.DecoderProof Proof.RecordReaderProof
  Proof.RecordWriterProof Proof.SeqReadProof Proof.SessionProof Proof.ParallelProof Proof.ParallelLive Proof.ParallelSim.

Definition prel (bs : list Z) (a : option (nat * Z)) (b : option (Z * Z)) : Prop :=
  match a, b with
  | None, None => True
  | Some (m, i), Some (z, j) => i = j /\ nth_error bs m = Some z
  | _, _ => False
  end.
Definition frel (n : nat) (a : bool + nat) (b : bool) : Prop := match a with inl c => c = b | inr m => b = true /\ (m < n)%nat end.
Definition hrel (bs : list Z) (n : nat) (h : held) (ps : list (option (Z * Z))) (fs : list bool) : Prop :=
  Forall2 (prel bs) (h_positions h) ps /\ Forall2 (frel n) (h_flushes h) fs.
Lemma prel_more bs more a b : prel bs a b -> prel (bs ++ more) a b.
Proof. unfold prel. destruct a as [[m i]|], b as [[z j]|]; auto. intros [-> N]. split; [reflexivity|]. apply nth_error_app_some, N. Qed.
Lemma Forall2_impl {X Y} (P Q : X -> Y -> Prop) l l' : (forall x y, P x y -> Q x y) -> Forall2 P l l' -> Forall2 Q l l'.
Proof. intros H F. induction F; constructor; auto. Qed.
Lemma hrel_more bs more n m h ps fs : (n <= m)%nat -> hrel bs n h ps fs -> hrel (bs ++ more) m h ps fs.
Proof.
  intros L [A B]. split.
  - eapply Forall2_impl; [|exact A]. intros a b. apply prel_more.
  - eapply Forall2_impl; [|exact B]. intros [c|k] b; cbn; [auto|]. intros [-> H]. split; [reflexivity|lia].
Qed.
Lemma Forall2_nth_some {X Y} (P : X -> Y -> Prop) l : forall l' n, Forall2 P l l' ->
  match nth_error l n, nth_error l' n with Some x, Some y => P x y | None, None => True | _, _ => False end.
Proof. induction l as [|x l IH]; intros l' n F; inversion F; subst; destruct n; cbn; auto. apply IH. assumption. Qed.

Lemma padding_total_ok p : padding_ok p -> p <= 2 ^ 62 -> padding_total p.
Proof.
  intros PO PB pos IR. unfold PosAfterPadding. destruct (Z.leb_spec p 1) as [P1|P1]; [exists pos; auto|]. cbv zeta.
  destruct (Z.eqb_spec (pos mod p) 0) as [M|M]; [exists pos; auto|].
  pose proof (Z.mod_pos_bound pos p ltac:(lia)) as MB.
  assert (P64 : 64 <= p) by (destruct PO as [PO|[PO|PO]]; lia).
  destruct (pad_length_spec p ltac:(lia) 64 (p - pos mod p) ltac:(lia) ltac:(lia) ltac:(lia) ltac:(lia)) as (k & K0 & -> & K2 & K3).
  pose proof (u64_range (pos + (p - pos mod p + k * p))) as UR.
  exists (u64 (pos + (p - pos mod p + k * p))). split; [|exact UR]. cbn [pad_end_loop].
  assert (B : chunk_boundary (u64 (pos + (p - pos mod p + k * p)))); [|apply IsPossibleChunkBoundary_iff in B; rewrite B; reflexivity].
  pose proof (Z.div_mod pos p ltac:(lia)) as D. replace (pos + (p - pos mod p + k * p)) with (p * (pos / p + 1 + k)) by lia. clear - PO P1.
  unfold chunk_boundary, u64. change (2 ^ 64) with (65536 * 2 ^ 48). rewrite Z.rem_mul_r by lia.
  set (c := pos / p + 1 + k). rewrite <- Z.add_mod_idemp_r, (Z.mul_comm 65536), Z.mod_mul, Z.add_0_r, Z.mod_mod by lia.
  destruct PO as [PO|[[L PO]|[L PO]]]; [lia| |].
  - apply Z.mod_divide in PO as [d PO]; [|lia]. assert (0 < d) by nia. rewrite PO, (Z.mul_comm d p), Z.mul_mod_distr_l by lia.
    pose proof (Z.mod_pos_bound c d ltac:(lia)). destruct (Z.eq_dec (c mod d) 0) as [->|]; [left; lia|right; nia].
  - left. apply Z.mod_divide in PO as [d PO]; [|lia]. rewrite PO, <- Z.mul_assoc, (Z.mul_comm 65536), Z.mul_assoc. apply Z.mod_mul. lia.
Qed.

Lemma Forall_nth_error {X} (P : X -> Prop) l n x : Forall P l -> nth_error l n = Some x -> P x.
Proof. intros F N. apply nth_error_In in N. rewrite Forall_forall in F. auto. Qed.

(** ** What the user thread may do *)
Section Safe.
  Variable hash : list Z -> Z.
  Variable encode : job -> option chunk.
  Variable o : options.
  Hypothesis metadata : forall m, encode (JobMetadata m) <> None.
  Hypothesis initial_padding : padding_total (o_initial_padding o).
  Hypothesis final_padding : padding_total (o_final_padding o).
  Notation wp := (wp encode).

  Definition hx (h : held) (x : wx) : Prop :=
    Forall (fun p => match p with Some (n, _) => (n < x_begins x)%nat | None => True end) (h_positions h) /\
    Forall (fun f => match f with inr n => (n < x_flushes x)%nat | inl _ => True end) (h_flushes h).
  Record lx (l : local) (x : wx) : Prop := {
    lx_open : x_phase x = Open;
    lx_at : match l_last l with PValidAt (n, _) => (n < x_begins x)%nat | _ => True end;
    lx_valid : l_last l = PValid -> l_encoder l <> None;
    lx_none : l_encoder l = None -> x_failed x = true }.
  Definition later (x y : wx) : Prop := (x_begins x <= x_begins y)%nat /\ (x_flushes x <= x_flushes y)%nat.
  Lemma hx_later h x y : later x y -> hx h x -> hx h y.
  Proof.
    intros [L1 L2] [H1 H2]. split.
    - eapply Forall_impl; [|exact H1]. intros [[n i]|]; [lia|auto].
    - eapply Forall_impl; [|exact H2]. intros [b|n]; [auto|lia].
  Qed.

  Ltac xs := unfold x_fail, x_go, later; cbn [x_failed x_phase x_flushes x_begins x_annotations].
  Ltac fin := repeat split; cbn; try reflexivity; try lia; try discriminate; try congruence; auto.
  Ltac go := repeat first
    [ progress cbn [bind ParallelLive.wp pthen negb x_phase x_fail x_go x_failed x_flushes x_begins x_annotations l_ok l_encoder l_desired l_so_far l_last
        l_set_ok l_set_encoder l_set_so_far l_set_last P_OpenChunk fst snd job_ok]
    | match goal with
      | |- context [if ?b then _ else _] => lazymatch b with true => fail | false => fail | context [if _ then _ else _] => fail | _ => destruct b eqn:? end
      | |- _ /\ _ => split
      | |- _ -> _ => intro
      | |- context [let '(_, _) := ?e in _] => lazymatch e with (_, _) => fail | _ => destruct e end
      end ].

  Lemma wp_write r l x : lx l x -> wp (P_WriteRecord r l) (fun y x' => lx (snd y) x' /\ later x x') x.
  Proof.
    intros [L1 L2 L3 L4]. destruct l as [ok e des sf last], x as [xf ph nf nb na]. cbn in L1, L2, L3, L4. subst ph.
    unfold P_WriteRecord, P_CloseChunk, P_AddRecord, P_WorkerLastPos. destruct e as [e|].
    - go. all: try (destruct (Deferred_AddRecord r e) as [b e']; destruct b); try (destruct (Deferred_AddRecord r NewDeferred) as [b e']; destruct b); go. all: fin.
    - specialize (L4 eq_refl). subst xf. go; try discriminate. all: fin.
  Qed.
  Lemma wp_flush l x : lx l x -> wp (P_Flush o l) (fun y x' => lx (snd y) x' /\ later x x') x.
  Proof.
    intros [L1 L2 L3 L4]. destruct l as [ok e des sf last], x as [xf ph nf nb na]. cbn in L1, L2, L3, L4. subst ph.
    unfold P_Flush, P_close_open_chunk, P_CloseChunk, P_WorkerLastPos, P_pad, P_WritePadding, P_reopen. destruct e as [e|].
    - destruct last as [| |[n i]]; go. all: fin.
    - specialize (L4 eq_refl). subst xf. destruct last as [| |[n i]]; [|exfalso; apply (L3 eq_refl); reflexivity|]; go; try discriminate. all: fin.
  Qed.
  Lemma wp_future_flush l x : lx l x ->
    wp (P_FutureFlush o l) (fun y x' => lx (snd y) x' /\ later x x' /\ match fst y with inr n => (n < x_flushes x')%nat | inl _ => True end) x.
  Proof.
    intros [L1 L2 L3 L4]. destruct l as [ok e des sf last], x as [xf ph nf nb na]. cbn in L1, L2, L3, L4. subst ph.
    unfold P_FutureFlush, P_close_open_chunk, P_CloseChunk, P_WorkerLastPos, P_pad, P_WritePadding, P_reopen. destruct e as [e|].
    - destruct last as [| |[n i]]; go. all: fin.
    - specialize (L4 eq_refl). subst xf. destruct last as [| |[n i]]; [|exfalso; apply (L3 eq_refl); reflexivity|]; go; try discriminate. all: fin.
  Qed.
  Lemma wp_close l x : lx l x -> wp (P_Close o l) (fun b x' => b = true -> x_phase x' = Verified) x.
  Proof.
    intros [L1 L2 L3 L4]. destruct l as [ok e des sf last], x as [xf ph nf nb na]. cbn in L1, L2, L3, L4. subst ph.
    unfold P_Close, P_close_open_chunk, P_CloseChunk, P_WorkerLastPos, P_WritePadding, P_CloseWorker. destruct e as [e|].
    - destruct last as [| |[n i]]; go; try reflexivity; try discriminate; try assumption; try (rewrite ?andb_false_r in *; discriminate).
    - specialize (L4 eq_refl). subst xf. destruct last as [| |[n i]]; [|exfalso; apply (L3 eq_refl); reflexivity|]; go; try reflexivity; try discriminate; try assumption; try (rewrite ?andb_false_r in *; discriminate).
  Qed.
  Lemma wp_new pos : wp (P_New hash o pos) (fun l x => lx l x) (MkX false Open 0 0 0).
  Proof.
    unfold P_New, P_WriteSignature, P_WriteMetadata, P_WritePadding. destruct (pos =? 0).
    - go. all: try (destruct (o_metadata o) eqn:OM); go. all: fin. all: try apply metadata.
    - go. all: fin.
  Qed.
  Lemma wp_call c h l x : lx l x -> hx h x -> wp (P_Call o c h l) (fun y x' => lx (snd y) x' /\ hx (snd (fst y)) x') x.
  Proof.
    intros L H. destruct c as [r| | | | |i|i]; cbn [P_Call].
    - apply wp_bind. eapply wp_mono; [|apply (wp_write r l x L)]. intros y x' [A B]. cbn [ParallelLive.wp fst snd]. split; [exact A|exact (hx_later _ _ _ B H)].
    - apply wp_bind. eapply wp_mono; [|apply (wp_flush l x L)]. intros y x' [A B]. cbn [ParallelLive.wp fst snd]. split; [exact A|exact (hx_later _ _ _ B H)].
    - apply wp_bind. eapply wp_mono; [|apply (wp_future_flush l x L)]. intros y x' (A & B & C). cbn [ParallelLive.wp fst snd]. split; [exact A|].
      destruct (hx_later _ _ _ B H) as [H1 H2]. split; [exact H1|]. cbn [h_flushes]. apply Forall_app. split; [exact H2|]. constructor; [exact C|constructor].
    - destruct L as [L1 L2 L3 L4], x as [xf ph nf nb na]. cbn in L1, L2, L3, L4. subst ph. unfold P_Pos. go; [reflexivity| |].
      + constructor; cbn; auto. destruct (l_last l) as [| |[n i]]; auto.
      + destruct H as [H1 H2]. split; [|exact H2]. cbn [h_positions]. apply Forall_app. split; [|constructor; [cbn; lia|constructor]].
        eapply Forall_impl; [|exact H1]. intros [[n i]|]; cbn; [lia|auto].
    - destruct L as [L1 L2 L3 L4], x as [xf ph nf nb na]. cbn in L1, L2, L3, L4. subst ph. destruct H as [H1 H2]. cbn [x_begins x_flushes] in *. unfold P_LastPos, P_WorkerLastPos.
      destruct (l_last l) as [| |[n i]] eqn:EL.
      + go; [constructor; rewrite ?EL; cbn; auto; discriminate|]. split; [|exact H2]. cbn [h_positions]. apply Forall_app. split; [exact H1|repeat constructor].
      + destruct (l_encoder l) as [e|] eqn:EE; [|exfalso; apply (L3 eq_refl); reflexivity]. go; [reflexivity| |].
        * constructor; rewrite ?EL, ?EE; cbn; auto.
        * split; [|exact H2]. cbn [h_positions]. apply Forall_app. split; [|constructor; [cbn; lia|constructor]]. eapply Forall_impl; [|exact H1]. intros [[n i]|]; cbn; [lia|auto].
      + go; [constructor; rewrite ?EL; cbn; auto; discriminate|]. split; [|exact H2]. cbn [h_positions]. apply Forall_app. split; [exact H1|repeat constructor; exact L2].
    - pose proof L as [L1 _ _ _]. pose proof H as [H1 H2]. destruct (nth_error (h_positions h) i) as [[[n j]|]|] eqn:N; cbn [ParallelLive.wp fst snd]; auto.
      split; [exact L1|]. split; [|auto]. exact (Forall_nth_error _ _ _ _ H1 N).
    - pose proof L as [L1 L2 L3 L4]. pose proof H as [H1 H2]. destruct (nth_error (h_flushes h) i) as [[b|n]|] eqn:N; cbn [ParallelLive.wp fst snd]; auto.
      split; [exact L1|]. split; [exact (Forall_nth_error _ _ _ _ H2 N)|]. split; [auto|]. split; [|exact H]. constructor; cbn; auto.
  Qed.
  Lemma wp_calls cs : forall h l x, lx l x -> hx h x -> wp (P_Calls o cs h l) (fun y x' => lx (snd y) x') x.
  Proof.
    induction cs as [|c cs IH]; intros h l x L H; cbn [P_Calls]; [exact L|]. apply wp_bind. eapply wp_mono; [|apply (wp_call c h l x L H)].
    intros [[s h'] l'] x' [A B]. cbn [fst snd] in *. apply wp_bind. eapply wp_mono; [|apply (IH h' l' x' A B)]. intros y x2 L2. exact L2.
  Qed.
  Lemma wp_session cs pos : wp (P_Session hash o cs pos) (fun y x => snd y = true -> x_phase x = Verified) (MkX false Open 0 0 0).
  Proof.
    unfold P_Session. apply wp_bind. eapply wp_mono; [|apply wp_new]. intros l x L. cbv beta. apply wp_bind. eapply wp_mono; [|apply (wp_calls cs (MkHeld [] []) l x L)].
    - intros y x' L'. cbv beta. apply wp_bind. eapply wp_mono; [|apply (wp_close _ _ L')]. intros b x2 H. exact H.
    - split; constructor.
  Qed.
End Safe.

Section Calls.
  Variable hash : list Z -> Z.
  Hypothesis hash_range : forall l, 0 <= hash l < 2 ^ 64.
  Variable compress : Z -> list Z -> list Z.
  Variable decompress : Z -> list Z -> option (list Z).
  Variable transpose_encode : options -> list (list Z) -> list Z.
  Variable transpose_decode : list Z -> Z -> Z -> option (list Z * list Z).
  Hypothesis CODECS : codecs compress decompress transpose_encode transpose_decode.
  Notation file_ok := (file_ok hash decompress transpose_decode).
  Notation winv := (winv hash decompress transpose_decode).
  Variable o : options.
  Notation encode := (encode_job hash compress transpose_encode o).
  Notation direct := (direct hash encode).
  Notation loc := (loc o).

  Lemma sim_calls cs : forall qr dest pend last S pl images G bs n h ps fs, winv o qr dest pend last S -> Forall (ucall_ok o) cs -> S + calls_size o (plain cs) <= 2 ^ 62 ->
    lrel bs pl last -> hrel bs n h ps fs ->
    exists ss im os out new pend' last' pl' G' more n',
      serial_calls hash compress transpose_encode cs ps fs (wst o dest pend last) = Some (ss, im, wst o (dest ++ out) pend' last') /\
      RunCalls hash compress transpose_encode (plain cs) (wst o dest pend last) = Some (os, wst o (dest ++ out) pend' last') /\
      winv o (qr ++ new) (dest ++ out) pend' last' (S + calls_size o (plain cs)) /\
      direct (P_Calls o cs h (loc pend pl)) (MkD (dest, zlen dest, images) G bs n)
        = Some ((ss, loc pend' pl'), MkD (dest ++ out, zlen (dest ++ out), images ++ im) G' (bs ++ more) n') /\
      lrel (bs ++ more) pl' last'.
  Proof.
    induction cs as [|c cs IH]; intros qr dest pend last S pl images G bs n h ps fs W CB SZ LR HR.
    - exists [], [], [], [], [], pend, last, pl, G, [], n. cbn [plain flat_map calls_size fold_right serial_calls RunCalls P_Calls] in *. rewrite !app_nil_r, Z.add_0_r.
      split; [reflexivity|]. split; [reflexivity|]. split; [exact W|]. split; [reflexivity|exact LR].
    - inversion CB as [|? ? CB1 CB2]; subst.
      (* A call which writes nothing. *)
      assert (IDLE : forall h' ps' fs' bs' s, plain (c :: cs) = plain cs ->
        hrel bs' n h' ps' fs' -> (exists more, bs' = bs ++ more) ->
        serial_calls hash compress transpose_encode (c :: cs) ps fs (wst o dest pend last) =
          match serial_calls hash compress transpose_encode cs ps' fs' (wst o dest pend last) with Some (ss, images', w) => Some (s :: ss, [] ++ images', w) | None => None end ->
        direct (P_Call o c h (loc pend pl)) (MkD (dest, zlen dest, images) G bs n) = Some ((s, h', loc pend pl), MkD (dest, zlen dest, images) G bs' n) ->
        exists ss im os out new pend' last' pl' G' more n',
          serial_calls hash compress transpose_encode (c :: cs) ps fs (wst o dest pend last) = Some (ss, im, wst o (dest ++ out) pend' last') /\
          RunCalls hash compress transpose_encode (plain (c :: cs)) (wst o dest pend last) = Some (os, wst o (dest ++ out) pend' last') /\
          winv o (qr ++ new) (dest ++ out) pend' last' (S + calls_size o (plain (c :: cs))) /\
          direct (P_Calls o (c :: cs) h (loc pend pl)) (MkD (dest, zlen dest, images) G bs n)
            = Some ((ss, loc pend' pl'), MkD (dest ++ out, zlen (dest ++ out), images ++ im) G' (bs ++ more) n') /\
          lrel (bs ++ more) pl' last').
      { intros h' ps' fs' bs' s PL HR' [m0 EB] ES ED. rewrite PL in *.
        destruct (IH qr dest pend last S pl images G bs' n h' ps' fs' W CB2 SZ ltac:(rewrite EB; apply lrel_more; exact LR) HR')
          as (ss & im & os & out & new & pend' & last' & pl' & G' & more & n' & A1 & A2 & A3 & A4 & A5).
        exists (s :: ss), im, os, out, new, pend', last', pl', G', (m0 ++ more), n'. rewrite ES, A1. split; [reflexivity|]. split; [exact A2|]. split; [exact A3|].
        rewrite app_assoc, <- EB. split; [|exact A5]. cbn [P_Calls]. rewrite direct_bind, ED, direct_bind, A4. reflexivity. }
      destruct c as [r| | | | |i|i].
      + clear IDLE. change (plain (Write r :: cs)) with (CallWrite r :: plain cs) in *. change (calls_size o (CallWrite r :: plain cs)) with (call_size o (CallWrite r) + calls_size o (plain cs)) in *.
        assert (0 <= calls_size o (plain cs)) as CN by (apply (calls_size_nonneg hash hash_range); exact (wi_o _ _ _ _ _ _ _ _ _ W)).
        destruct (sim_write hash hash_range compress decompress transpose_encode transpose_decode CODECS o qr dest pend last S r pl images G bs n W CB1 ltac:(lia))
          as (out & new & pend' & last' & pl' & G' & more & B1 & B2 & B3 & B4).
        destruct (IH (qr ++ new) (dest ++ out) pend' last' _ pl' images G' (bs ++ more) n h ps fs B2 CB2 ltac:(lia) B4 (hrel_more _ _ _ _ _ _ _ (le_n _) HR))
          as (ss & im & os & out2 & new2 & pend2 & last2 & pl2 & G2 & more2 & n2 & A1 & A2 & A3 & A4 & A5).
        exists (SawFlag true :: ss), im. eexists. exists (out ++ out2), (new ++ new2), pend2, last2, pl2, G2, (more ++ more2), n2. rewrite !app_assoc.
        cbn [serial_calls RunCalls RunCall P_Calls P_Call]. rewrite B1, A1, A2. split; [reflexivity|]. split; [reflexivity|].
        split; [rewrite Z.add_assoc; exact A3|]. split; [|exact A5]. rewrite !direct_bind, B3, direct_ret. cbn [fst snd]. rewrite direct_bind, A4. reflexivity.
      + clear IDLE. change (plain (FlushNow :: cs)) with (CallFlush :: plain cs) in *. change (calls_size o (CallFlush :: plain cs)) with (call_size o CallFlush + calls_size o (plain cs)) in *.
        assert (0 <= calls_size o (plain cs)) as CN by (apply (calls_size_nonneg hash hash_range); exact (wi_o _ _ _ _ _ _ _ _ _ W)).
        destruct (sim_flush hash hash_range compress decompress transpose_encode transpose_decode CODECS o qr dest pend last S pl images G bs n W ltac:(lia) LR)
          as (out & new & last' & pl' & G' & more & B1 & B2 & B3 & _ & B4).
        destruct (IH (qr ++ new) (dest ++ out) [] last' _ pl' (images ++ [dest ++ out]) G' (bs ++ more) (Datatypes.S n) h ps fs B2 CB2 ltac:(lia) B4 (hrel_more _ _ _ _ _ _ _ (le_S _ _ (le_n _)) HR))
          as (ss & im & os & out2 & new2 & pend2 & last2 & pl2 & G2 & more2 & n2 & A1 & A2 & A3 & A4 & A5).
        exists (SawFlag true :: ss), ([dest ++ out] ++ im). eexists. exists (out ++ out2), (new ++ new2), pend2, last2, pl2, G2, (more ++ more2), n2. rewrite !app_assoc.
        cbn [serial_calls RunCalls RunCall P_Calls P_Call]. rewrite B1, A1, A2. split; [reflexivity|]. split; [reflexivity|].
        split; [rewrite Z.add_assoc; exact A3|]. split; [|exact A5]. rewrite !direct_bind, B3, direct_ret. cbn [fst snd]. rewrite direct_bind, A4. reflexivity.
      + clear IDLE. change (plain (StartFlush :: cs)) with (CallFlush :: plain cs) in *. change (calls_size o (CallFlush :: plain cs)) with (call_size o CallFlush + calls_size o (plain cs)) in *.
        assert (0 <= calls_size o (plain cs)) as CN by (apply (calls_size_nonneg hash hash_range); exact (wi_o _ _ _ _ _ _ _ _ _ W)).
        destruct (sim_flush hash hash_range compress decompress transpose_encode transpose_decode CODECS o qr dest pend last S pl images G bs n W ltac:(lia) LR)
          as (out & new & last' & pl' & G' & more & B1 & B2 & _ & B3 & B4).
        assert (HR2 : hrel (bs ++ more) (Datatypes.S n) (MkHeld (h_positions h) (h_flushes h ++ [inr n])) ps (fs ++ [true])).
        { destruct (hrel_more bs more n (Datatypes.S n) h ps fs (le_S _ _ (le_n _)) HR) as [H1 H2]. split; [exact H1|]. cbn [h_flushes]. apply Forall2_snoc; [exact H2|]. split; [reflexivity|lia]. }
        destruct (IH (qr ++ new) (dest ++ out) [] last' _ pl' (images ++ [dest ++ out]) G' (bs ++ more) (Datatypes.S n) _ ps _ B2 CB2 ltac:(lia) B4 HR2)
          as (ss & im & os & out2 & new2 & pend2 & last2 & pl2 & G2 & more2 & n2 & A1 & A2 & A3 & A4 & A5).
        exists (SawNothing :: ss), ([dest ++ out] ++ im). eexists. exists (out ++ out2), (new ++ new2), pend2, last2, pl2, G2, (more ++ more2), n2. rewrite !app_assoc.
        cbn [serial_calls RunCalls RunCall P_Calls P_Call]. rewrite B1, A1, A2. split; [reflexivity|]. split; [reflexivity|].
        split; [rewrite Z.add_assoc; exact A3|]. split; [|exact A5]. rewrite !direct_bind, B3, direct_ret. cbn [fst snd]. rewrite direct_bind, A4. reflexivity.
      + apply (IDLE (MkHeld (h_positions h ++ [Some (length bs, zlen pend)]) (h_flushes h)) (ps ++ [Some (Pos (wst o dest pend last))]) fs (bs ++ [zlen dest]) SawNothing); try reflexivity.
        * destruct (hrel_more bs [zlen dest] n n h ps fs (le_n _) HR) as [H1 H2]. split; [|exact H2]. cbn [h_positions]. apply Forall2_snoc; [exact H1|].
          unfold Pos. cbn [prel wst w_pos w_encoder]. rewrite num_enc. split; [reflexivity|apply nth_snoc].
        * eexists; reflexivity.
      + assert (EX : exists bs' p, direct (P_LastPos (loc pend pl)) (MkD (dest, zlen dest, images) G bs n) = Some (p, MkD (dest, zlen dest, images) G bs' n) /\
          (exists more, bs' = bs ++ more) /\ prel bs' p (LastPos (wst o dest pend last))).
        { unfold lrel in LR. destruct pl as [| |[m j]], last as [| |[z j']]; try contradiction.
          - exists bs, None. split; [reflexivity|]. split; [exists []; rewrite app_nil_r; reflexivity|exact Logic.I].
          - exists (bs ++ [zlen dest]), (Some (length bs, zlen pend - 1)). split; [reflexivity|]. split; [eexists; reflexivity|].
            unfold LastPos, Worker_LastPos. cbn [wst w_last w_pos w_encoder prel]. rewrite num_enc. split; [reflexivity|apply nth_snoc].
          - exists bs, (Some (m, j)). split; [reflexivity|]. split; [exists []; rewrite app_nil_r; reflexivity|exact LR]. }
        destruct EX as (bs' & p & E1 & [m0 E2] & E3).
        apply (IDLE (MkHeld (h_positions h ++ [p]) (h_flushes h)) (ps ++ [LastPos (wst o dest pend last)]) fs bs' SawNothing); try reflexivity.
        * rewrite E2 in E3 |- *. destruct (hrel_more bs m0 n n h ps fs (le_n _) HR) as [H1 H2]. split; [|exact H2]. cbn [h_positions]. apply Forall2_snoc; assumption.
        * exists m0. exact E2.
        * cbn [P_Call]. rewrite direct_bind, E1. reflexivity.
      + destruct HR as [H1 H2]. pose proof (Forall2_nth_some _ _ _ i H1) as N.
        apply (IDLE h ps fs bs (match nth_error ps i with Some (Some p) => SawPos p | _ => SawNothing end)); try reflexivity; [split; assumption|exists []; rewrite app_nil_r; reflexivity|].
        cbn [P_Call]. destruct (nth_error (h_positions h) i) as [[[m j]|]|], (nth_error ps i) as [[[z j']|]|]; try contradiction; try reflexivity.
        destruct N as [-> N]. cbn [ParallelProof.direct]. rewrite N. reflexivity.
      + destruct HR as [H1 H2]. pose proof (Forall2_nth_some _ _ _ i H2) as N.
        apply (IDLE h ps fs bs (match nth_error fs i with Some b => SawFlag b | None => SawNothing end)); try reflexivity; [split; assumption|exists []; rewrite app_nil_r; reflexivity|].
        cbn [P_Call]. destruct (nth_error (h_flushes h) i) as [[b|m]|], (nth_error fs i) as [b'|]; try contradiction; try reflexivity.
        * cbn [frel] in N. subst. reflexivity.
        * destruct N as [-> N]. cbn [ParallelProof.direct]. destruct (Nat.ltb_spec m n); [reflexivity|lia].
  Qed.

  Lemma sim_session cs dest qr S : file_ok dest qr -> zlen dest <= S -> options_ok o -> Forall (ucall_ok o) cs -> S + session_size (o, plain cs) <= 2 ^ 62 ->
    exists ss im out os d',
      serial_session hash compress transpose_encode o cs dest = Some (ss, im, true, dest ++ out) /\
      Session hash compress transpose_encode o (plain cs) dest = Some (os, true, dest ++ out) /\
      InitializeWriter (zlen dest) = ([], zlen dest) /\
      direct (P_Session hash o cs (zlen dest)) (MkD (dest, zlen dest, []) [] [] 0) = Some ((ss, true), d') /\
      fst (fst (d_world d')) = dest ++ out /\ snd (d_world d') = im.
  Proof.
    intros FO DS O CB SZ. unfold session_size in SZ. cbn [fst snd] in SZ. pose proof (padding_nonneg _ (oo_final o O)) as P0.
    pose proof (calls_size_nonneg hash hash_range o (plain cs) O) as CN. pose proof (zlen_nonneg dest) as D0.
    assert (OPEN : exists out new G, NewRecordWriter hash transpose_encode o dest = Some (true, wst o (dest ++ out) [] LastRecordIsInvalid) /\
      winv o (qr ++ new) (dest ++ out) [] LastRecordIsInvalid (S + opening_size o) /\
      InitializeWriter (zlen dest) = ([], zlen dest) /\
      direct (P_New hash o (zlen dest)) (MkD (dest, zlen dest, []) [] [] 0) = Some (loc [] PInvalid, MkD (dest ++ out, zlen (dest ++ out), []) G [] 0)).
    { destruct qr as [|q qr].
      - assert (dest = []) as ->.
        { pose proof (f_layout _ _ _ _ _ FO) as L. inversion L. reflexivity. }
        destruct (sim_open_empty hash hash_range compress decompress transpose_encode transpose_decode CODECS o O ltac:(lia)) as (d1 & qr1 & G1 & E1 & E2 & E3).
        exists d1, qr1, G1. cbn [app]. split; [exact E1|]. split; [|split; [reflexivity|exact E3]]. destruct E2; constructor; try assumption. lia.
      - destruct (sim_open_append hash hash_range compress decompress transpose_encode transpose_decode o dest (q :: qr) S O FO ltac:(discriminate) DS ltac:(lia)) as (out & new & G & E1 & E2 & E3 & E4).
        exists out, new, G. auto. }
    destruct OPEN as (out0 & new0 & G0 & N1 & N2 & N3 & N4).
    destruct (sim_calls cs (qr ++ new0) (dest ++ out0) [] LastRecordIsInvalid _ PInvalid [] G0 [] 0 (MkHeld [] []) [] [] N2 CB ltac:(lia) Logic.I ltac:(split; constructor))
      as (ss & im & os & out & new & pend' & last' & pl' & G' & more & n' & A1 & A2 & A3 & A4 & A5).
    destruct (sim_Close hash hash_range compress decompress transpose_encode transpose_decode CODECS o _ _ pend' last' _ pl' ([] ++ im) G' ([] ++ more) n' A3 ltac:(cbn [call_size]; lia) A5)
      as (out2 & new2 & w' & d' & C1 & C2 & C3 & C4 & C5 & C6).
    exists ss, im, (out0 ++ out ++ out2), os, d'. rewrite !app_assoc.
    unfold serial_session, Session. rewrite N1, A1, A2, C1, C2. split; [reflexivity|]. split; [reflexivity|]. split; [exact N3|].
    split; [|split; [exact C5|exact C6]]. unfold P_Session. rewrite direct_bind, N4, direct_bind, A4. cbn [snd fst]. rewrite direct_bind, C4. destruct d'. reflexivity.
  Qed.
End Calls.
