(** Sessions of writing followed by reading. *)
From Coq Require Import Sorted.
From Verif Require Import Base.Bytes Model.Varint Model.Endian Model.Block Model.Chunk Model.ChunkWriter Model.ChunkReader Model.SimpleChunk Model.ChunkDecoder
  Model.RecordWriter Model.RecordReader Spec.BlockSpec Spec.FileSpec Spec.ChunkLink Spec.RecordsSpec Spec.CursorSpec Spec.CursorLink Spec.SessionSpec Spec.ReadSpec
  Proof.CodecLemmas Proof.BlockProof Proof.ChunkWriterProof Proof.ChunkReaderProof Proof.FileProof Proof.LocalProof Proof.SeekProof Proof.ChunkPropsLemmas Proof.SimpleChunkProof Proof.DecoderProof Proof.RecordReaderProof
  Proof.RecordWriterProof Proof.SeqReadProof.

Lemma last_cons {X} (l : list X) : forall x d, List.last (x :: l) d = List.last l x.
Proof. induction l as [|y l IH]; intros x d; [reflexivity|]. change (List.last (x :: y :: l) d) with (List.last (y :: l) d). rewrite !IH. reflexivity. Qed.
Lemma last_last {X} (a b : list X) : forall d, List.last b (List.last a d) = List.last (a ++ b) d.
Proof. induction a as [|x a IH]; intros d; [reflexivity|]. cbn [app]. rewrite !last_cons. apply IH. Qed.

Lemma split_at n (qr : chunks) : exists B C, qr = B ++ C /\ Forall (fun x => q_end (fst x) <= n) B /\ match C with [] => True | y :: _ => n < q_end (fst y) end.
Proof.
  induction qr as [|x qr (B & C & -> & H1 & H2)].
  - exists [], []. repeat split; constructor.
  - destruct (Z_le_gt_dec (q_end (fst x)) n).
    + exists (x :: B), C. repeat split; [constructor; assumption|exact H2].
    + exists [], (x :: B ++ C). repeat split; [constructor|lia].
Qed.
Lemma split_longer n (A rest B C : chunks) : A ++ rest = B ++ C -> Forall (fun x => q_end (fst x) <= n) A -> match C with [] => True | y :: _ => n < q_end (fst y) end ->
  exists more, B = A ++ more.
Proof.
  revert B. induction A as [|x A IH]; intros B E FA HC; [exists B; reflexivity|]. inversion FA as [|? ? E1 FA']; subst. destruct B as [|y B].
  - cbn [app] in E. subst C. cbn [app] in *. lia.
  - cbn [app] in E. injection E as -> E. destruct (IH B E FA' HC) as (more & ->). exists more. reflexivity.
Qed.
Lemma all_of_app A B : all_of (A ++ B) = all_of A ++ all_of B.
Proof. induction A as [|x A IH]; [reflexivity|]. cbn [app]. rewrite !all_cons, IH, app_assoc. reflexivity. Qed.
Lemma fst_all_of A : map fst (all_of A) = records_of (vw A).
Proof.
  unfold all_of. assert (L : length (records_of (vw A)) = length (positions_of (vw A))) by (apply Nat2Z.inj; symmetry; apply zlen_positions).
  revert L. generalize (positions_of (vw A)). induction (records_of (vw A)) as [|r rs IH]; intros [|p ps] L; try discriminate L; cbn [combine map fst]; [reflexivity|]. f_equal. apply IH. cbn in L. lia.
Qed.

Section Session.
  Variable hash : list Z -> Z.
  Hypothesis hash_range : forall l, 0 <= hash l < 2 ^ 64.
  Variable compress : Z -> list Z -> list Z.
  Variable decompress : Z -> list Z -> option (list Z).
  Variable transpose_encode : options -> list (list Z) -> list Z.
  Variable transpose_decode : list Z -> Z -> Z -> option (list Z * list Z).
  Hypothesis CODECS : codecs compress decompress transpose_encode transpose_decode.

  Notation decodes := (decodes hash decompress transpose_decode).
  Notation file_ok := (file_ok hash decompress transpose_decode).
  Notation winv := (winv hash decompress transpose_decode).

  Lemma file_nil_ok : file_ok [] [].
  Proof. constructor; cbn; try constructor; try lia; reflexivity. Qed.
  Lemma file_nonempty dest qr : file_ok dest qr -> qr <> [] -> 0 < zlen dest.
  Proof.
    intros FO NE. destruct FO as [L OK D SG B SZ].
    pose proof (layout_length hash hash_range 0 (map fst qr) dest (zlen dest) L ltac:(lia) ltac:(lia) ltac:(left; reflexivity) OK) as LL.
    rewrite map_length in LL. destruct qr; [congruence|]. cbn in LL. unfold zlen. lia.
  Qed.

  Lemma signature_ok : chunk_ok signature_chunk /\ Decode decompress transpose_decode (mk_chunk hash signature_chunk) = (true, holds [] 0).
  Proof.
    assert (K : chunk_ok signature_chunk) by (unfold chunk_ok, signature_chunk; cbn; lia). split; [exact K|].
    destruct (mk_chunk_wf hash hash_range _ K) as (_ & _ & E1 & E2 & E3 & E4). unfold Decode, Parse. rewrite E1, E2, E3, E4. reflexivity.
  Qed.
  Lemma metadata_ok data n : 0 <= n < 2 ^ 64 -> zlen data < 2 ^ 64 -> chunk_ok (Chunk kFileMetadata 0 n data) /\
    Decode decompress transpose_decode (mk_chunk hash (Chunk kFileMetadata 0 n data)) = (true, holds [] 0).
  Proof.
    intros N D. assert (K : chunk_ok (Chunk kFileMetadata 0 n data)) by (unfold chunk_ok, kFileMetadata; cbn [k_type k_nrec k_dsize k_data]; lia). split; [exact K|].
    destruct (mk_chunk_wf hash hash_range _ K) as (_ & _ & E1 & E2 & E3 & E4). unfold Decode, Parse. rewrite E1, E2. reflexivity.
  Qed.

  (** Opening a writer. *)
  Definition opening (o : options) : list chunk_spec :=
    signature_chunk :: match o_metadata o with Some m => [Chunk kFileMetadata 0 (zlen m) (transpose_encode o [m])] | None => [] end.
  Definition kinds (qr : chunks) : list chunk_spec := map (fun x => q_chunk (fst x)) qr.
  Lemma open_empty o : options_ok o -> opening_size o <= 2 ^ 62 ->
    exists dest qr, NewRecordWriter hash transpose_encode o [] = Some (true, wst o dest [] LastRecordIsInvalid) /\
      winv o qr dest [] LastRecordIsInvalid (opening_size o) /\ Forall (fun x => snd x = []) qr /\ kinds qr = opening o.
  Proof.
    intros O SZ. unfold NewRecordWriter. change (InitializeWriter (zlen (@nil Z))) with (@nil Z, 0). cbn [app Z.eqb].
    unfold WriteSignature. cbn [w_ok negb]. unfold put_chunk. cbn [w_pos w_dest].
    destruct signature_ok as [K D]. unfold opening_size in *. pose proof (padding_nonneg _ (oo_initial o O)) as P0.
    destruct (append_chunk hash hash_range decompress transpose_decode [] [] signature_chunk [] file_nil_ok K ltac:(reflexivity) D ltac:(reflexivity) ltac:(cbn; lia)) as (out & W & L & F1).
    change (MkChunk (ChunkHeader hash [] kFileSignature 0 0) []) with (mk_chunk hash signature_chunk). change (zlen (@nil Z)) with 0 in W at 1. rewrite W. rewrite andthen_true.
    unfold set_dest. cbn [w_options w_dest w_pos w_encoder w_desired w_so_far w_last w_ok app] in *. 
    unfold WriteMetadata. cbn [w_ok negb w_options].
    change (room signature_chunk) with 144 in L. change (zlen (@nil Z)) with 0 in L.
    assert (EE : (if o_transpose o then CTransposed [] true else CSimple NewEncoder) = enc o []) by (unfold enc; destruct (o_transpose o); reflexivity). rewrite EE.
    pose proof (oo_metadata o O) as MB0. unfold opening.
    destruct (o_metadata o) as [m|].
    - destruct MB0 as [MB MB1]. pose proof (zlen_nonneg m) as M0. pose proof (ct_size _ _ _ _ CODECS o [m] (oo_compression o O) ltac:(constructor; [exact MB|constructor]) ltac:(cbn [concat]; rewrite app_nil_r; change (zlen [m]) with 1; lia)) as TS. change (zlen [m]) with 1 in TS. cbn [concat] in TS. rewrite app_nil_r in TS.
      destruct (metadata_ok (transpose_encode o [m]) (zlen m) ltac:(lia) ltac:(lia)) as [K2 D2].
      destruct (append_chunk hash hash_range decompress transpose_decode out _ (Chunk kFileMetadata 0 (zlen m) (transpose_encode o [m])) [] F1 K2 ltac:(discriminate) D2 ltac:(reflexivity)) as (out2 & W2 & L2 & F2).
      { unfold room. cbn [k_nrec k_data]. lia. }
      unfold put_chunk. cbn [w_pos w_dest]. change (MkChunk (ChunkHeader hash (transpose_encode o [m]) kFileMetadata 0 (zlen m)) (transpose_encode o [m])) with (mk_chunk hash (Chunk kFileMetadata 0 (zlen m) (transpose_encode o [m]))).
      rewrite W2, andthen_true. unfold set_dest. cbn [w_options w_dest w_pos w_encoder w_desired w_so_far w_last w_ok].
      exists (out ++ out2). eexists. split; [reflexivity|]. split.
      + constructor; [exact O|exact F2|discriminate|constructor|left; reflexivity| |discriminate]. cbn [bcost]. unfold room in L2. cbn [k_nrec k_data] in L2. lia.
      + split; [repeat constructor|reflexivity].
    - rewrite andthen_true. exists out. eexists. split; [reflexivity|]. split.
      + constructor; [exact O|exact F1|discriminate|constructor|left; reflexivity| |discriminate]. cbn [bcost]. lia.
      + split; [repeat constructor|reflexivity].
  Qed.
  Lemma open_append o dest qr S : options_ok o -> file_ok dest qr -> qr <> [] -> zlen dest <= S -> S + opening_size o <= 2 ^ 62 ->
    exists out new, NewRecordWriter hash transpose_encode o dest = Some (true, wst o (dest ++ out) [] LastRecordIsInvalid) /\
      winv o (qr ++ new) (dest ++ out) [] LastRecordIsInvalid (S + opening_size o) /\ Forall (fun x => snd x = []) new.
  Proof.
    intros O FO NE DS SZ. pose proof (file_nonempty dest qr FO NE) as Z0. unfold NewRecordWriter, InitializeWriter.
    pose proof (f_b _ _ _ _ _ FO) as FB. apply IsPossibleChunkBoundary_iff in FB. rewrite FB. rewrite app_nil_r. destruct (Z.eqb_spec (zlen dest) 0); [lia|].
    assert (EE : (if o_transpose o then CTransposed [] true else CSimple NewEncoder) = enc o []) by (unfold enc; destruct (o_transpose o); reflexivity). rewrite EE.
    unfold opening_size in *. pose proof (padding_nonneg _ (oo_initial o O)) as P0.
    assert (M0 : 0 <= match o_metadata o with Some m => zlen m | None => 0 end) by (destruct (o_metadata o); [apply zlen_nonneg|lia]).
    destruct (PutPadding_ok hash hash_range decompress transpose_decode o dest qr (enc o []) (desired o) LastRecordIsInvalid (o_initial_padding o) 0 FO NE (oo_initial o O) ltac:(lia)) as (out & new & P1 & P2 & P3 & P4).
    exists out, new. split; [exact P1|]. split; [|exact P4].
    constructor; [exact O|exact P3|intros E; apply app_eq_nil in E as [E _]; congruence|constructor|left; reflexivity| |discriminate]. cbn [bcost]. lia.
  Qed.

  (** ** Positions which remain meaningful as the file grows *)
  Definition mark (n : Z) (p : Z * Z) (qr : chunks) (ps : list (Z * Z)) : Prop :=
    exists A dA pA, file_ok dA A /\ p = (zlen dA, zlen pA) /\ n = zlen (positions_of (pview A dA pA)) /\
      (exists rest, qr = A ++ rest) /\ (exists more, ps = positions_of (pview A dA pA) ++ more).
  Lemma mark_grow n p qr ps new more : mark n p qr ps -> mark n p (qr ++ new) (ps ++ more).
  Proof.
    intros (A & dA & pA & F & P & N & (rest & ->) & (m & ->)). exists A, dA, pA. split; [exact F|]. split; [exact P|]. split; [exact N|].
    split; [exists (rest ++ new)|exists (m ++ more)]; rewrite <- app_assoc; reflexivity.
  Qed.

  (** ** Runs of calls *)
  Lemma run_calls cs : forall o qr dest pend last S, winv o qr dest pend last S -> Forall (write_ok o) cs -> S + calls_size o cs <= 2 ^ 62 ->
    exists os out new pend' last' ps, RunCalls hash compress transpose_encode cs (wst o dest pend last) = Some (os, wst o (dest ++ out) pend' last') /\
      winv o (qr ++ new) (dest ++ out) pend' last' (S + calls_size o cs) /\
      Forall (fun ob => result_of ob = true) os /\ length os = length cs /\ write_positions cs os = map Some ps /\
      positions_of (pview (qr ++ new) (dest ++ out) pend') = positions_of (pview qr dest pend) ++ ps /\
      records_of (pview (qr ++ new) (dest ++ out) pend') = records_of (pview qr dest pend) ++ written cs /\
      (forall j ob, nth_error os j = Some ob ->
         mark (zlen (positions_of (pview qr dest pend)) + zlen (written (firstn (Datatypes.S j) cs))) (pos_of ob) (qr ++ new) (positions_of (pview (qr ++ new) (dest ++ out) pend')) /\
         last_of ob = List.last (write_positions (firstn (Datatypes.S j) cs) (firstn (Datatypes.S j) os)) (LastPos (wst o dest pend last))) /\
      (forall c0 cs0, cs = cs0 ++ [c0] -> c0 = CallFlush -> pend' = []).
  Proof.
    induction cs as [|c cs IH]; intros o qr dest pend last S W CB SZ; cbn [RunCalls].
    - exists [], [], [], pend, last, []. cbn [calls_size fold_right]. rewrite !app_nil_r, Z.add_0_r. split; [reflexivity|]. split; [exact W|]. split; [constructor|].
      split; [reflexivity|]. split; [reflexivity|]. split; [reflexivity|]. split; [reflexivity|]. split; [intros [|j] ob E; discriminate E|]. intros c0 [|] E; discriminate E.
    - change (calls_size o (c :: cs)) with (call_size o c + calls_size o cs) in *.
      assert (CN : 0 <= calls_size o cs).
      { clear - W. induction cs as [|c cs IH]; [cbn; lia|]. change (calls_size o (c :: cs)) with (call_size o c + calls_size o cs). pose proof (padding_nonneg _ (oo_final o (wi_o _ _ _ _ _ _ _ _ _ W))).
        destruct c as [r|]; cbn [call_size]; [pose proof (zlen_nonneg r)|]; lia. }
      assert (ST : exists out new pend' last' ps, RunCall hash compress transpose_encode c (wst o dest pend last) = Some (true, wst o (dest ++ out) pend' last') /\
         winv o (qr ++ new) (dest ++ out) pend' last' (S + call_size o c) /\
         LastPos (wst o (dest ++ out) pend' last') = List.last (map Some ps) (LastPos (wst o dest pend last)) /\
         (match c with CallWrite _ => exists p, ps = [p] | CallFlush => ps = [] /\ pend' = [] end) /\
         positions_of (pview (qr ++ new) (dest ++ out) pend') = positions_of (pview qr dest pend) ++ ps /\
         records_of (pview (qr ++ new) (dest ++ out) pend') = records_of (pview qr dest pend) ++ written [c]).
      { destruct c as [r|]; cbn [RunCall].
        - destruct (write_step hash hash_range compress decompress transpose_encode transpose_decode CODECS o qr dest pend last S r W (Forall_inv CB) ltac:(lia)) as (out & new & pend' & last' & p & H1 & H2 & H3 & H4 & H5).
          exists out, new, pend', last', [p]. split; [exact H1|]. split; [exact H2|]. split; [exact H3|]. split; [eauto|]. split; assumption.
        - destruct (flush_step hash hash_range compress decompress transpose_encode transpose_decode CODECS o qr dest pend last S W ltac:(lia)) as (out & new & last' & H1 & H2 & H3 & H4 & H5).
          exists out, new, [], last', []. split; [exact H1|]. split; [exact H2|]. split; [exact H3|]. split; [auto|]. cbn [written flat_map]. rewrite !app_nil_r. split; assumption. }
      destruct ST as (out1 & new1 & pend1 & last1 & ps1 & -> & W1 & L1 & C1 & P1 & R1).
      destruct (IH o (qr ++ new1) (dest ++ out1) pend1 last1 (S + call_size o c) W1 (Forall_inv_tail CB) ltac:(lia)) as (os & out2 & new2 & pend2 & last2 & ps2 & E & W2 & T2 & LN & WP & P2 & R2 & MK & FL).
      rewrite E. exists ((true, LastPos (wst o (dest ++ out1) pend1 last1), Pos (wst o (dest ++ out1) pend1 last1)) :: os), (out1 ++ out2), (new1 ++ new2), pend2, last2, (ps1 ++ ps2).
      rewrite !app_assoc. split; [reflexivity|]. split; [rewrite Z.add_assoc; exact W2|]. split; [constructor; [reflexivity|exact T2]|]. split; [cbn; congruence|].
      assert (WPC : forall cs' os' ob', last_of ob' = LastPos (wst o (dest ++ out1) pend1 last1) -> write_positions (c :: cs') (ob' :: os') = map Some ps1 ++ write_positions cs' os').
      { intros cs' os' ob' LE. destruct c as [r|]; cbn [write_positions]; [destruct C1 as [p ->]|destruct C1 as [-> _]]; [|reflexivity]. rewrite LE, L1. reflexivity. }
      split; [rewrite WPC, WP, map_app; reflexivity|]. split; [rewrite P2, P1, <- app_assoc; reflexivity|].
      split; [rewrite R2, R1, <- app_assoc; f_equal; unfold written; cbn [flat_map]; rewrite app_nil_r; reflexivity|]. split.
      + intros [|j] ob NJ.
        * cbn [nth_error] in NJ. injection NJ as <-. cbn [firstn]. split.
          -- exists (qr ++ new1), (dest ++ out1), pend1. split; [apply W1|]. split; [unfold Pos, wst, pos_of; cbn [w_pos w_encoder snd]; rewrite num_enc; reflexivity|].
             split; [|split; [exists new2; reflexivity|exists ps2; exact P2]]. rewrite P1, zlen_app. f_equal.
             destruct c as [r|]; [destruct C1 as [p ->]|destruct C1 as [-> _]]; reflexivity.
          -- change (firstn 0 cs) with (@nil call). rewrite WPC by reflexivity. cbn [write_positions]. rewrite app_nil_r. exact L1.
        * cbn [nth_error] in NJ. destruct (MK j ob NJ) as [M1 M2]. rewrite !firstn_cons with (n := Datatypes.S j). split.
          -- rewrite P1, zlen_app in M1.
             replace (zlen (written (c :: firstn (Datatypes.S j) cs))) with (zlen ps1 + zlen (written (firstn (Datatypes.S j) cs))).
             ++ rewrite Z.add_assoc. exact M1.
             ++ unfold written at 2. cbn [flat_map]. rewrite zlen_app. fold (written (firstn (Datatypes.S j) cs)). f_equal. destruct c as [r|]; [destruct C1 as [p ->]|destruct C1 as [-> _]]; reflexivity.
          -- rewrite WPC by reflexivity. rewrite M2, L1. 
             apply last_last.
      + intros c0 cs0 EC EF. destruct cs0 as [|c1 cs0].
        * cbn in EC. injection EC as -> ->. cbn [RunCalls] in E. rename E into E2. subst c0. destruct C1 as [_ ->].
          apply (f_equal (fun x => match x with Some (_, w) => w_so_far w | None => 0 end)) in E2. cbn [wst w_so_far] in E2. destruct pend2 as [|x l]; [reflexivity|]. pose proof (so_far_pos (x :: l) ltac:(discriminate)). change (so_far []) with 0 in E2. lia.
        * cbn in EC. injection EC as -> ->. apply (FL c0 cs0); [reflexivity|exact EF].
  Qed.

  Lemma file_empty dest : file_ok dest [] -> dest = [].
  Proof. intros FO. pose proof (f_layout _ _ _ _ _ FO) as L. cbn in L. inversion L. reflexivity. Qed.
  Lemma open_writer o dest qr S : options_ok o -> file_ok dest qr -> zlen dest <= S -> S + opening_size o <= 2 ^ 62 ->
    exists out new, NewRecordWriter hash transpose_encode o dest = Some (true, wst o (dest ++ out) [] LastRecordIsInvalid) /\
      winv o (qr ++ new) (dest ++ out) [] LastRecordIsInvalid (S + opening_size o) /\ Forall (fun x => snd x = []) new /\ (qr = [] -> kinds new = opening o).
  Proof.
    intros O FO DS SZ. destruct qr as [|x qr].
    - pose proof (file_empty dest FO) as ->. change (zlen (@nil Z)) with 0 in DS. destruct (open_empty o O ltac:(lia)) as (out & new & H1 & H2 & H3 & H4). exists out, new. split; [exact H1|]. split; [|split; [exact H3|intros _; exact H4]].
      destruct H2. constructor; try assumption. cbn [app] in *. lia.
    - destruct (open_append o dest (x :: qr) S O FO ltac:(discriminate) DS SZ) as (out & new & H1 & H2 & H3). exists out, new. split; [exact H1|]. split; [exact H2|]. split; [exact H3|discriminate].
  Qed.

  Lemma calls_size_nonneg o cs : options_ok o -> 0 <= calls_size o cs.
  Proof.
    intros O. pose proof (padding_nonneg _ (oo_final o O)). induction cs as [|c cs IH]; [cbn; lia|]. change (calls_size o (c :: cs)) with (call_size o c + calls_size o cs).
    destruct c as [r|]; cbn [call_size]; [pose proof (zlen_nonneg r)|]; lia.
  Qed.
  Lemma opening_size_nonneg o : options_ok o -> 0 <= opening_size o.
  Proof.
    intros O. unfold opening_size. pose proof (padding_nonneg _ (oo_initial o O)). destruct (o_metadata o) as [m|]; [pose proof (zlen_nonneg m)|]; lia.
  Qed.
  Lemma sessions_size_nonneg ss : Forall session_ok ss -> 0 <= sessions_size ss.
  Proof.
    induction 1 as [|[o cs] ss [O CB] F IH]; [cbn; lia|]. change (sessions_size ((o, cs) :: ss)) with (session_size (o, cs) + sessions_size ss).
    unfold session_size. cbn [fst snd] in *. pose proof (calls_size_nonneg o cs O). pose proof (opening_size_nonneg o O). pose proof (padding_nonneg _ (oo_final o O)). lia.
  Qed.

  (** Opening a writer and making calls. *)
  Lemma session_calls o cs dest qr S : file_ok dest qr -> zlen dest <= S -> options_ok o -> Forall (write_ok o) cs -> S + opening_size o + calls_size o cs <= 2 ^ 62 ->
    exists w0 os out new pend last ps, NewRecordWriter hash transpose_encode o dest = Some (true, w0) /\
      RunCalls hash compress transpose_encode cs w0 = Some (os, wst o (dest ++ out) pend last) /\
      winv o (qr ++ new) (dest ++ out) pend last (S + opening_size o + calls_size o cs) /\
      Forall (fun ob => result_of ob = true) os /\ length os = length cs /\ write_positions cs os = map Some ps /\
      positions_of (pview (qr ++ new) (dest ++ out) pend) = positions_of (vw qr) ++ ps /\
      records_of (pview (qr ++ new) (dest ++ out) pend) = records_of (vw qr) ++ written cs /\
      (forall j ob, nth_error os j = Some ob ->
         mark (zlen (positions_of (vw qr)) + zlen (written (firstn (Datatypes.S j) cs))) (pos_of ob) (qr ++ new) (positions_of (pview (qr ++ new) (dest ++ out) pend)) /\
         last_of ob = List.last (write_positions (firstn (Datatypes.S j) cs) (firstn (Datatypes.S j) os)) None) /\
      (forall c0 cs0, cs = cs0 ++ [c0] -> c0 = CallFlush -> pend = []) /\ (qr = [] -> exists more, kinds new = opening o ++ more).
  Proof.
    intros FO DS O CB SZ. pose proof (calls_size_nonneg o cs O) as CN.
    destruct (open_writer o dest qr S O FO DS ltac:(lia)) as (out1 & new1 & N1 & W1 & E1 & KO).
    destruct (run_calls cs o (qr ++ new1) (dest ++ out1) [] LastRecordIsInvalid (S + opening_size o) W1 CB ltac:(lia)) as (os & out2 & new2 & pend & last & ps & R & W2 & T & LN & WP & P2 & R2 & MK & FL).
    destruct (pview_padding qr new1 dest (dest ++ out1) E1) as [V1 V2]. rewrite (positions_nil qr dest) in V1. rewrite (records_nil qr dest) in V2. rewrite V1 in P2, MK. rewrite V2 in R2.
    eexists _, os, (out1 ++ out2), (new1 ++ new2), pend, last, ps. rewrite !app_assoc. split; [exact N1|]. split; [exact R|]. split; [exact W2|]. split; [exact T|]. split; [exact LN|]. split; [exact WP|].
    split; [exact P2|]. split; [exact R2|]. split; [exact MK|]. split; [exact FL|]. intros Q. exists (kinds new2). unfold kinds. rewrite map_app. fold (kinds new1). rewrite (KO Q). reflexivity.
  Qed.

  Lemma session_step o cs dest qr S : file_ok dest qr -> zlen dest <= S -> session_ok (o, cs) -> S + session_size (o, cs) <= 2 ^ 62 ->
    exists os out new ps, Session hash compress transpose_encode o cs dest = Some (os, true, dest ++ out) /\
      file_ok (dest ++ out) (qr ++ new) /\ zlen (dest ++ out) <= S + session_size (o, cs) /\
      Forall (fun ob => result_of ob = true) os /\ length os = length cs /\ write_positions cs os = map Some ps /\
      positions_of (vw (qr ++ new)) = positions_of (vw qr) ++ ps /\
      records_of (vw (qr ++ new)) = records_of (vw qr) ++ written cs /\
      (forall j ob, nth_error os j = Some ob ->
         mark (zlen (positions_of (vw qr)) + zlen (written (firstn (Datatypes.S j) cs))) (pos_of ob) (qr ++ new) (positions_of (vw (qr ++ new))) /\
         last_of ob = List.last (write_positions (firstn (Datatypes.S j) cs) (firstn (Datatypes.S j) os)) None) /\
      (qr = [] -> exists more, kinds new = opening o ++ more).
  Proof.
    intros FO DS [O CB] SZ. cbn [fst snd] in *. unfold session_size in SZ. cbn [fst snd] in SZ. pose proof (padding_nonneg _ (oo_final o O)) as P0.
    destruct (session_calls o cs dest qr S FO DS O CB ltac:(lia)) as (w0 & os & out & new & pend & last & ps & N & R & W & T & LN & WP & P & RC & MK & _ & KO).
    destruct (close_step hash hash_range compress decompress transpose_encode transpose_decode CODECS o (qr ++ new) (dest ++ out) pend last _ W) as (out2 & new2 & w' & C1 & C2 & C3 & C4 & C5 & C6 & C7).
    { cbn [call_size]. lia. }
    unfold Session. rewrite N, R, C1, C2. cbn [call_size] in C5.
    exists os, (out ++ out2), (new ++ new2), ps. rewrite !app_assoc. split; [reflexivity|]. split; [exact C3|]. split; [unfold session_size; cbn [fst snd]; lia|].
    split; [exact T|]. split; [exact LN|]. split; [exact WP|]. rewrite C6, C7. split; [exact P|]. split; [exact RC|].
    split; [|intros Q; destruct (KO Q) as (more & KE); exists (more ++ kinds new2); unfold kinds in *; rewrite map_app, KE, <- app_assoc; reflexivity].
    intros j ob NJ. destruct (MK j ob NJ) as [M1 M2]. split; [|exact M2]. rewrite <- (app_nil_r (positions_of (pview _ _ _))). apply mark_grow. exact M1.
  Qed.

  (** ** Several sessions *)
  Lemma sessions_run ss : forall dest qr S, file_ok dest qr -> zlen dest <= S -> Forall session_ok ss -> S + sessions_size ss <= 2 ^ 62 ->
    exists rs out new ps, Sessions hash compress transpose_encode ss dest = Some (rs, dest ++ out) /\ file_ok (dest ++ out) (qr ++ new) /\
      zlen (dest ++ out) <= S + sessions_size ss /\ all_true rs /\ map (fun r => length (fst r)) rs = map (fun s => length (snd s)) ss /\
      all_positions ss rs = map Some ps /\ positions_of (vw (qr ++ new)) = positions_of (vw qr) ++ ps /\
      records_of (vw (qr ++ new)) = records_of (vw qr) ++ all_written ss /\
      (forall i j os b ob, nth_error rs i = Some (os, b) -> nth_error os j = Some ob ->
         mark (zlen (positions_of (vw qr)) + records_before ss i j) (pos_of ob) (qr ++ new) (positions_of (vw (qr ++ new))) /\
         exists o cs, nth_error ss i = Some (o, cs) /\ last_of ob = List.last (write_positions (firstn (Datatypes.S j) cs) (firstn (Datatypes.S j) os)) None) /\
      (qr = [] -> match ss with [] => True | (o, _) :: _ => exists more, kinds new = opening o ++ more end).
  Proof.
    induction ss as [|[o cs] ss IH]; intros dest qr S FO DS OK SZ; cbn [Sessions].
    - exists [], [], [], []. rewrite !app_nil_r. cbn [sessions_size fold_right] in *. split; [reflexivity|]. split; [exact FO|]. split; [lia|]. split; [constructor|]. split; [reflexivity|].
      split; [reflexivity|]. split; [reflexivity|]. split; [reflexivity|]. split; [intros [|i] j os b ob E; discriminate E|exact (fun _ => Logic.I)].
    - change (sessions_size ((o, cs) :: ss)) with (session_size (o, cs) + sessions_size ss) in *. pose proof (sessions_size_nonneg ss (Forall_inv_tail OK)) as SN.
      destruct (session_step o cs dest qr S FO DS (Forall_inv OK) ltac:(lia)) as (os & out & new & ps & -> & F1 & L1 & T1 & LN & WP & P1 & R1 & MK & KO).
      destruct (IH (dest ++ out) (qr ++ new) _ F1 L1 (Forall_inv_tail OK) ltac:(lia)) as (rs & out2 & new2 & ps2 & -> & F2 & L2 & T2 & LN2 & WP2 & P2 & R2 & MK2 & _).
      exists ((os, true) :: rs), (out ++ out2), (new ++ new2), (ps ++ ps2). rewrite !app_assoc. split; [reflexivity|]. split; [exact F2|]. split; [lia|].
      split; [constructor; [split; [exact T1|reflexivity]|exact T2]|]. split; [cbn [map fst snd]; f_equal; assumption|]. split; [cbn [all_positions]; rewrite WP, WP2, map_app; reflexivity|].
      split; [rewrite P2, P1, <- app_assoc; reflexivity|]. split; [rewrite R2, R1; unfold all_written; cbn [flat_map snd]; rewrite <- app_assoc; reflexivity|].
      split; [|intros Q; destruct (KO Q) as (more & KE); exists (more ++ kinds new2); unfold kinds in *; rewrite map_app, KE, <- app_assoc; reflexivity].
      intros [|i] j os' b ob NI NJ; cbn [nth_error] in NI.
      + injection NI as <- <-. destruct (MK j ob NJ) as [M1 M2]. split.
        * unfold records_before. cbn [firstn nth snd]. change (zlen (all_written [])) with 0. rewrite Z.add_0_l, P2. apply mark_grow. exact M1.
        * exists o, cs. auto.
      + destruct (MK2 i j os' b ob NI NJ) as [M1 M2]. split; [|exact M2].
        replace (zlen (positions_of (vw qr)) + records_before ((o, cs) :: ss) (Datatypes.S i) j) with (zlen (positions_of (vw (qr ++ new))) + records_before ss i j); [exact M1|].
        rewrite P1, zlen_app. unfold records_before. cbn [firstn nth]. unfold all_written at 2. cbn [flat_map snd]. fold (all_written (firstn i ss)). rewrite zlen_app.
        assert (zlen ps = zlen (written cs)); [|lia].
        clear - WP LN. revert os ps WP LN. induction cs as [|c cs IH]; intros [|ob os] ps WP LN; try discriminate LN; cbn [write_positions] in WP.
        * destruct ps; [reflexivity|discriminate WP].
        * destruct c as [r|]; cbn in LN; injection LN as LN.
          -- destruct ps as [|p ps]; [discriminate WP|]. cbn [map] in WP. injection WP as _ WP. unfold written. cbn [flat_map]. fold (written cs). rewrite zlen_app, zlen_cons. change (zlen [r]) with 1. f_equal. apply (IH os); assumption.
          -- apply (IH os); assumption.
  Qed.

  (** ** Reading *)
  Lemma file_valid file qr : file_ok file qr -> valid_file hash 0 (map fst qr) file.
  Proof.
    intros [L OK D SG B SZ]. constructor.
    - split; [lia|left; reflexivity].
    - exact OK.
    - intros _. exact SG.
    - exists [], file. auto.
    - lia.
  Qed.
  Lemma file_chain file qr : file_ok file qr -> chain hash file 0 (map fst qr) /\ Forall (seek_ok hash file) (map fst qr).
  Proof.
    intros FO. split; [apply valid_chain; [exact hash_range|]; apply file_valid, FO|]. destruct FO as [L OK D SG B SZ].
    apply (layout_seek hash hash_range (map fst qr) 0 [] file (zlen file)); try assumption; try reflexivity; try lia; [left; reflexivity|intros _; exact SG].
  Qed.
  Lemma file_cursor file qr cs : file_ok file qr -> Forall (call_ok (vw qr) (zlen file)) cs ->
    exists d, reader_run hash decompress transpose_decode file cs NewRecordReader = Some (cursor_run (vw qr) cs 0, d) /\ rd_ok d = true.
  Proof.
    intros FO C. destruct (file_chain file qr FO) as [CH SO]. pose proof (f_size _ _ _ _ _ FO).
    apply (run_refines hash hash_range decompress transpose_decode file qr CH SO ltac:(lia) (f_dec _ _ _ _ _ FO)); [exact C|].
    apply (initial_rel hash hash_range file qr CH SO).
  Qed.
  Lemma positions_sorted file qr : file_ok file qr -> StronglySorted pos_lt (positions_of (vw qr)).
  Proof.
    intros FO. destruct (file_chain file qr FO) as [CH SO].
    assert (G : forall B A, qr = A ++ B -> StronglySorted pos_lt (positions_of (vw B))); [|apply (G qr []); reflexivity].
    induction B as [|x B IH]; intros A E; [constructor|].
    assert (E' : qr = (A ++ [x]) ++ B) by (rewrite <- app_assoc; exact E). specialize (IH _ E').
    change (vw (x :: B)) with ([(q_begin (fst x), snd x)] ++ vw B). rewrite positions_app.
    destruct (before_place hash hash_range decompress transpose_decode file qr CH SO (f_dec _ _ _ _ _ FO) (A ++ [x]) B x E') as [X1 X2]; [apply in_or_app; right; left; reflexivity|].
    assert (H : forall q, In q (positions_of (vw B)) -> forall i, i < zlen (snd x) -> pos_lt (q_begin (fst x), i) q).
    { intros q Q i I. destruct (pos_after hash hash_range file qr CH _ _ q E' Q) as (Q1 & Q2 & _). split; [|unfold numeric in *; cbn [fst snd]; lia].
      unfold before. cbn [fst snd]. destruct (Z.ltb_spec (q_begin (fst x)) (fst q)); [reflexivity|lia]. }
    unfold positions_of at 1. cbn [flat_map fst snd]. rewrite app_nil_r. unfold zseq. rewrite map_map. 
    remember (Z.to_nat (zlen (snd x))) as n eqn:EN. assert (LE : forall i, (i < n)%nat -> Z.of_nat i < zlen (snd x)) by (intros; lia). clear EN.
    assert (GG : forall k, (k <= n)%nat -> StronglySorted pos_lt (map (fun i => (q_begin (fst x), 0 + Z.of_nat i)) (seq (n - k) k) ++ positions_of (vw B))).
    { induction k as [|k IHk]; intros K; [exact IH|]. cbn [seq map app]. replace (Datatypes.S (n - Datatypes.S k)) with (n - k)%nat by lia. constructor; [apply IHk; lia|].
      apply Forall_app. split.
      - apply Forall_forall. intros q Q. apply in_map_iff in Q as (i & <- & I). apply in_seq in I. split; [|unfold numeric; cbn [fst snd]; lia].
        unfold before. cbn [fst snd]. rewrite Z.ltb_irrefl, Z.eqb_refl. cbn [orb andb]. apply Z.ltb_lt. lia.
      - apply Forall_forall. intros q Q. apply H; [exact Q|]. rewrite Z.add_0_l. apply LE. lia. }
    specialize (GG n ltac:(lia)). rewrite Nat.sub_diag in GG. exact GG.
  Qed.

  Lemma layout_split a : forall b p out E, file_layout hash p (a ++ b) out E ->
    exists o1 o2 e, out = o1 ++ o2 /\ file_layout hash p a o1 e /\ file_layout hash e b o2 E.
  Proof.
    induction a as [|q a IH]; intros b p out E L; cbn [app] in L.
    - exists [], out, p. split; [reflexivity|]. split; [constructor|exact L].
    - inversion L as [|p0 e0 k qs0 o1 o2 E0 CL FL]; subst. destruct (IH b _ _ _ FL) as (o3 & o4 & e & -> & L1 & L2). exists (o1 ++ o3), o4, e. rewrite app_assoc. split; [reflexivity|]. split; [econstructor; eassumption|exact L2].
  Qed.
  Lemma layout_end a : forall p o1 e1 o2 e2, file_layout hash p a o1 e1 -> file_layout hash p a o2 e2 -> e1 = e2.
  Proof. induction a as [|q a IH]; intros p o1 e1 o2 e2 L1 L2; inversion L1; inversion L2; subst; [reflexivity|]. match goal with H : Placed _ _ _ = Placed _ _ _ |- _ => injection H as -> -> end. eapply IH; eassumption. Qed.

  Lemma mark_final file qr n p : file_ok file qr -> mark n p qr (positions_of (vw qr)) ->
    call_ok (vw qr) (zlen file) (SeekToPos p) /\ count (fun q => before q p) (positions_of (vw qr)) = n.
  Proof.
    intros FO (A & dA & pA & FA & -> & -> & (rest & E) & (more & PM)). destruct (file_chain file qr FO) as [CH SO].
    assert (BE : beginning file rest = zlen dA).
    { pose proof (f_layout _ _ _ _ _ FO) as L. rewrite E, map_app in L. destruct (layout_split _ _ _ _ _ L) as (o1 & o2 & e & _ & L1 & L2).
      pose proof (layout_end _ _ _ _ _ _ L1 (f_layout _ _ _ _ _ FA)) as ->. destruct rest as [|x C]; cbn [map] in L2; inversion L2; subst; cbn [beginning]; auto.
      match goal with H : _ = fst x |- _ => rewrite <- H end. reflexivity. }
    assert (PE : positions_of (pview A dA pA) = positions_of (vw A) ++ positions_of [(zlen dA, pA)]) by (unfold pview; apply positions_app).
    assert (ZP : zlen (positions_of [(zlen dA, pA)]) = zlen pA) by (rewrite zlen_positions; unfold records_of; cbn; rewrite app_nil_r; reflexivity).
    assert (ZV : zlen (positions_of (vw A)) = nrecs A) by (rewrite zlen_positions, records_vw; reflexivity).
    assert (NV : zlen (positions_of (pview A dA pA)) = nrecs A + zlen pA) by (rewrite PE, zlen_app; lia).
    rewrite E in PM at 1. rewrite vw_app, positions_app, PE, <- app_assoc in PM. apply app_inv_head in PM.
    destruct rest as [|x C].
    - cbn [beginning] in BE. assert (zlen pA = 0).
      { apply (f_equal zlen) in PM. rewrite zlen_app in PM. change (zlen (positions_of (vw []))) with 0 in PM. pose proof (zlen_nonneg pA). pose proof (zlen_nonneg more). lia. }
      rewrite NV. rewrite H, <- BE. split; [right; reflexivity|]. rewrite (count_before_end hash hash_range decompress transpose_decode file qr CH SO (f_dec _ _ _ _ _ FO)).
      rewrite E, app_nil_r. lia.
    - cbn [beginning] in BE. pose proof (zlen_nonneg pA) as PA0. split.
      + left. cbn [fst snd]. split; [|exact PA0]. unfold vw. rewrite map_map. cbn [fst]. rewrite <- BE. apply in_map_iff. exists x. split; [reflexivity|]. rewrite E. apply in_or_app; right; left; reflexivity.
      + rewrite <- BE. rewrite (count_before hash hash_range decompress transpose_decode file qr CH SO (f_dec _ _ _ _ _ FO) A x C (zlen pA) E PA0). rewrite NV.
        assert (LE : zlen pA <= zlen (snd x)); [|lia].
        destruct (Z_le_gt_dec (zlen pA) (zlen (snd x))) as [L|L]; [exact L|exfalso].
        change (vw (x :: C)) with ([(q_begin (fst x), snd x)] ++ vw C) in PM. rewrite positions_app in PM.
        assert (E' : qr = (A ++ [x]) ++ C) by (rewrite <- app_assoc; exact E).
        assert (N : nth_error (positions_of [(zlen dA, pA)] ++ more) (Z.to_nat (zlen (snd x))) = Some (zlen dA, zlen (snd x))).
        { pose proof (zlen_nonneg (snd x)). unfold positions_of. cbn [flat_map fst snd]. rewrite app_nil_r.
          rewrite nth_error_app1 by (rewrite map_length; pose proof (zseq_len 0 (zlen pA)) as ZL; unfold zlen in *; lia). rewrite nth_error_map, nth_zseq by lia. reflexivity. }
        rewrite <- PM in N.
        assert (ZL : length (positions_of [(q_begin (fst x), snd x)]) = length (snd x)).
        { apply Nat2Z.inj. pose proof (zlen_positions [(q_begin (fst x), snd x)]) as ZL. change (records_of [(q_begin (fst x), snd x)]) with (snd x ++ []) in ZL. rewrite app_nil_r in ZL. exact ZL. }
        rewrite nth_error_app2 in N by (rewrite ZL; unfold zlen; lia).
        apply nth_error_In in N. destruct (pos_after hash hash_range file qr CH _ _ _ E' N) as (Q1 & _ & _). cbn [fst] in Q1.
        destruct (before_place hash hash_range decompress transpose_decode file qr CH SO (f_dec _ _ _ _ _ FO) (A ++ [x]) C x E') as [_ X2]; [apply in_or_app; right; left; reflexivity|]. lia.
  Qed.

  (** ** Reading a file followed by anything *)
  Definition at_grown (dest : list Z) (B : chunks) (src : reader) : Prop :=
    exists pre out, dest = pre ++ out /\ file_layout hash (zlen pre) (map fst B) out (zlen dest) /\ chunk_boundary (zlen pre) /\
      Forall (fun q => chunk_ok (q_chunk q)) (map fst B) /\ sig_at (zlen pre) (map fst B) /\ fresh src (zlen pre).
  Lemma grown_step dest tail x C src : zlen dest <= 2 ^ 63 -> at_grown dest (x :: C) src ->
    exists src', ReadChunk hash (dest ++ tail) src = Some (Some (mk_chunk hash (q_chunk (fst x))), src') /\ r_pos src = q_begin (fst x) /\ at_grown dest C src'.
  Proof.
    intros SZ (pre & out & -> & L & Hb & Hk & Hs & F). cbn [map] in *. pose proof (zlen_nonneg pre) as Hp0. pose proof (zlen_nonneg tail) as Ht.
    inversion L as [|p e1 k qs o1 o2 E L1 L2 X1 X2 X3 X4]. subst p qs E. rewrite <- X2 in *. clear L. subst out.
    pose proof (Forall_inv Hk) as Hk1. pose proof (Forall_inv_tail Hk) as Hk2. cbn beta in *. cbn [q_chunk] in *.
    pose proof L1 as (Y1 & Y2 & _). destruct Y2 as ((Y2 & Y3 & Y4 & Y5) & _).
    pose proof (zlen_nonneg o2) as Z2. pose proof (zlen_nonneg o1) as Z1. rewrite !zlen_app in SZ.
    destruct (file_layout_facts hash hash_range e1 (map fst C) o2 (zlen (pre ++ o1 ++ o2)) L2) as [F1 F2]; try assumption; try (rewrite ?zlen_app; lia).
    rewrite !zlen_app in F1.
    destruct (layout_image hash hash_range (zlen pre) e1 k o1 L1 Hp0 Hb Hk1 ltac:(lia)) as (G1 & G2 & G3).
    destruct (mk_chunk_wf hash hash_range k Hk1) as (W1 & W2 & _).
    destruct (cend_spec (mk_chunk hash k) (zlen pre) Hp0 Hb W1 G2) as (_ & B & [LL1 LL2] & _).
    assert (AG : agree hash (mk_chunk hash k) (zlen pre) ((pre ++ o1 ++ o2) ++ tail)).
    { rewrite <- (ztake_all (zlen ((pre ++ o1 ++ o2) ++ tail)) ((pre ++ o1 ++ o2) ++ tail)) by lia.
      rewrite <- !app_assoc. rewrite G3, G1. apply agree_of; [exact hash_range|apply zlen_nonneg|lia]. }
    assert (SG : sig_ok (mk_chunk hash k) (zlen pre)) by (apply sig_at_ok; [exact hash_range|exact Hs]).
    assert (IV : inv hash (mk_chunk hash k) (zlen pre) ((pre ++ o1 ++ o2) ++ tail) src) by (apply fresh_inv; try assumption; rewrite !zlen_app; lia).
    destruct (ReadChunk_step hash hash_range (mk_chunk hash k) (zlen pre) Hp0 Hb W1 W2 G2 SG _ src AG IV) as [S1 _].
    destruct (S1 ltac:(rewrite !zlen_app; lia)) as (r' & R1 & R2 & _). exists r'. split; [exact R1|]. split; [apply (f_pos _ _ F)|].
    exists (pre ++ o1), o2. rewrite <- app_assoc. split; [reflexivity|]. replace (zlen (pre ++ o1)) with e1 by (rewrite zlen_app; lia).
    split; [exact L2|]. split; [rewrite G1; exact B|]. split; [exact Hk2|]. split; [apply sig_at_later; lia|]. rewrite G1. exact R2.
  Qed.
  Lemma initial_seq content (at_ : chunks -> reader -> Prop) qr : (length qr <= length content)%nat -> Forall decodes qr -> at_ qr (InitializeReader 0) ->
    seqst hash decompress transpose_decode content at_ (all_of qr) NewRecordReader.
  Proof. intros L D A. apply seq_between with (rs := []); try assumption; try reflexivity. constructor; reflexivity. Qed.
  Lemma file_length dest qr : file_ok dest qr -> (length qr <= length dest)%nat.
  Proof.
    intros [L OK D SG B SZ]. pose proof (layout_length hash hash_range 0 (map fst qr) dest (zlen dest) L ltac:(lia) ltac:(lia) ltac:(left; reflexivity) OK) as LL.
    rewrite map_length in LL. exact LL.
  Qed.
  Lemma grown_read dest qr tail : file_ok dest qr ->
    exists d, reader_run hash decompress transpose_decode (dest ++ tail) (repeat ReadNext (length (all_of qr))) NewRecordReader
      = Some (map (fun x => Rec (Some (fst x)) (Some (snd x))) (all_of qr), d) /\ rd_ok d = true.
  Proof.
    intros FO. pose proof (file_length dest qr FO) as FL. pose proof FO as [L OK D SG B SZ].
    assert (I : seqst hash decompress transpose_decode (dest ++ tail) (at_grown dest) (all_of qr) NewRecordReader).
    { apply initial_seq; [rewrite app_length; lia|exact D|]. exists [], dest. split; [reflexivity|]. split; [exact L|]. split; [left; reflexivity|]. split; [exact OK|]. split; [intros _; exact SG|].
      apply init_fresh. left; reflexivity. }
    destruct (seq_run hash decompress transpose_decode (dest ++ tail) (at_grown dest)) with (l := all_of qr) (d := NewRecordReader) as (d & R & S); [|exact I|].
    - intros x C src _ A. apply grown_step; assumption.
    - exists d. split; [exact R|]. inversion S as [B' d0 rs DB BA RD AT LB AL|x j B' d0 DB IN LB AL]; apply base_ok; [exact BA|apply IN].
  Qed.

  (** ** Reading a file cut anywhere *)
  Definition at_cut (dest : list Z) (n : Z) (C0 B : chunks) (src : reader) : Prop :=
    exists pre out, dest = pre ++ out /\ file_layout hash (zlen pre) (map fst (B ++ C0)) out (zlen dest) /\ chunk_boundary (zlen pre) /\
      Forall (fun q => chunk_ok (q_chunk q)) (map fst (B ++ C0)) /\ sig_at (zlen pre) (map fst (B ++ C0)) /\ zlen pre <= n /\
      Forall (fun x => q_end (fst x) <= n) B /\ match C0 with [] => True | y :: _ => n < q_end (fst y) end /\
      at_file hash (zlen pre) (map fst (B ++ C0)) (ztake n dest) src.
  Lemma cut_step dest n C0 x C src : zlen dest <= 2 ^ 63 -> n <= zlen dest -> at_cut dest n C0 (x :: C) src ->
    exists src', ReadChunk hash (ztake n dest) src = Some (Some (mk_chunk hash (q_chunk (fst x))), src') /\ r_pos src = q_begin (fst x) /\ at_cut dest n C0 C src'.
  Proof.
    intros SZ N (pre & out & -> & L & Hb & Hk & Hs & PN & EB & EC & A). cbn [map app] in *. pose proof (zlen_nonneg pre) as Hp0.
    pose proof (file_step hash hash_range (zlen pre) _ pre out _ n src L eq_refl Hb ltac:(lia) Hk Hs ltac:(lia) A) as ST. cbv zeta in ST.
    destruct ST as (B1 & B2 & ST). pose proof (Forall_inv EB) as E1. cbv beta in E1. destruct (Z.leb_spec (q_end (fst x)) n) as [_|]; [|lia].
    destruct ST as (r' & o1 & o2 & R & -> & ZZ & L2 & Hb2 & A2 & _). exists r'. split; [exact R|]. split; [rewrite B1; apply A|].
    exists (pre ++ o1), o2. rewrite ZZ. rewrite <- app_assoc. split; [reflexivity|]. split; [exact L2|]. split; [exact Hb2|].
    split; [apply (Forall_inv_tail Hk)|]. split; [apply sig_at_later; lia|]. split; [exact E1|]. split; [apply (Forall_inv_tail EB)|]. split; [exact EC|exact A2].
  Qed.
  Lemma cut_stop dest n C0 src : zlen dest <= 2 ^ 63 -> n <= zlen dest -> at_cut dest n C0 [] src ->
    exists src', ReadChunk hash (ztake n dest) src = Some (None, src') /\ r_ok src' = true /\ r_trunc src' = (beginning dest C0 <? n).
  Proof.
    intros SZ N (pre & out & -> & L & Hb & Hk & Hs & PN & EB & EC & A). cbn [map app] in *. pose proof (zlen_nonneg pre) as Hp0.
    pose proof (file_step hash hash_range (zlen pre) _ pre out _ n src L eq_refl Hb ltac:(lia) Hk Hs ltac:(lia) A) as ST. cbv zeta in ST.
    destruct C0 as [|y C0]; cbn [map] in ST.
    - destruct ST as (r' & R & [] & T). exists r'. split; [exact R|]. split; [unfold r_ok; rewrite f_open, f_failed; reflexivity|]. rewrite T. symmetry. apply Z.ltb_ge. cbn [beginning]. exact N.
    - destruct ST as (B1 & B2 & ST). destruct (Z.leb_spec (q_end (fst y)) n) as [|_]; [lia|].
      destruct ST as (r' & R & A2 & T). exists r'. split; [exact R|]. split; [|rewrite T; cbn [beginning]; rewrite B1; reflexivity]. destruct (at_file_ok hash _ _ _ _ A2) as (O1 & O2 & _). unfold r_ok. rewrite O1, O2. reflexivity.
  Qed.
  Lemma layout_bound a : forall p o e, file_layout hash p a o e -> Forall (fun q => q_end q <= e) a.
  Proof.
    induction a as [|q a IH]; intros p o e L; [constructor|]. inversion L as [|p0 e1 k qs o1 o2 E L1 L2]; subst. specialize (IH _ _ _ L2). constructor; [|exact IH]. cbn [q_end].
    clear - L2. induction L2 as [|p e1 k qs o1 o2 E L F IH]; [lia|]. destruct L as (_ & ((_ & _ & X & _) & _) & _). lia.
  Qed.
  Lemma layout_more a p o e : file_layout hash p a o e -> p <= e.
  Proof. induction 1 as [|p e1 k qs o1 o2 E L F IH]; [lia|]. destruct L as (_ & ((_ & _ & X & _) & _) & _). lia. Qed.

  Lemma layout_within n a p o e : file_layout hash p a o e -> p <= n -> Forall (fun q => q_end q <= n) a -> e <= n.
  Proof. intros L. induction L as [|p e1 k qs o1 o2 E L F IH]; intros P FA; [exact P|]. inversion FA; subst. apply IH; assumption. Qed.

  (** A prefix of the file, of any size, gives the records of the chunks it includes. *)
  Lemma cut_read dest qr n : file_ok dest qr -> 0 <= n <= zlen dest ->
    exists B C d, qr = B ++ C /\ match C with [] => True | y :: _ => n < q_end (fst y) end /\
      (forall fuel, (length (all_of B) < fuel)%nat -> RR_ReadAll hash decompress transpose_decode fuel (ztake n dest) NewRecordReader = Some (records_of (vw B), d)) /\
      rd_ok d = true /\ fst (RR_Close d) = negb (beginning dest C <? n).
  Proof.
    intros FO N. destruct (split_at n qr) as (B & C & E & EB & EC). pose proof FO as [L OK D SG Bd SZ].
    assert (LB : (length B <= length (ztake n dest))%nat).
    { (* the chunks in [B] are the first bytes of the prefix *)
      pose proof L as L0. rewrite E, map_app in L0. destruct (layout_split _ _ _ _ _ L0) as (o1 & o2 & e & E2 & L1 & L2).
      pose proof OK as OK1. rewrite E, map_app in OK1. apply Forall_app in OK1 as [OK1 _].
      pose proof (layout_more _ _ _ _ L2) as LE.
      assert (Z1 : zlen o1 = e). { destruct (file_layout_facts hash hash_range 0 (map fst B) o1 e L1 ltac:(lia) ltac:(lia) ltac:(left; reflexivity) OK1) as [F1 _]. lia. }
      assert (e <= n) by (apply (layout_within n _ _ _ _ L1); [apply N|apply Forall_map; exact EB]).
      pose proof (layout_length hash hash_range 0 (map fst B) o1 e L1 ltac:(lia) ltac:(lia) ltac:(left; reflexivity) OK1) as LL. rewrite map_length in LL.
      assert (length (ztake n dest) = Z.to_nat n) by (pose proof (zlen_ztake n dest); unfold zlen in *; lia). unfold zlen in *. lia. }
    assert (I : seqst hash decompress transpose_decode (ztake n dest) (at_cut dest n C) (all_of B) NewRecordReader).
    { apply initial_seq; [exact LB|rewrite E in D; apply Forall_app in D; apply D|]. exists [], dest. rewrite <- E. split; [reflexivity|]. split; [exact L|]. split; [left; reflexivity|]. split; [exact OK|]. split; [intros _; exact SG|].
      split; [apply N|]. split; [exact EB|]. split; [exact EC|]. change (zlen (@nil Z)) with 0. apply (fresh_at_file hash hash_range 0 _ dest (zlen dest)); try assumption; try lia; [left; reflexivity|rewrite zlen_ztake; lia|apply init_fresh; left; reflexivity]. }
    assert (ST : forall x C1 src, decodes x -> at_cut dest n C (x :: C1) src -> exists src', ReadChunk hash (ztake n dest) src = Some (Some (mk_chunk hash (q_chunk (fst x))), src') /\ r_pos src = q_begin (fst x) /\ at_cut dest n C C1 src').
    { intros x C1 src _ A. apply cut_step; [exact SZ|apply N|exact A]. }
    assert (SP : forall src, at_cut dest n C [] src -> exists src', ReadChunk hash (ztake n dest) src = Some (None, src') /\ r_ok src' = true).
    { intros src A. destruct (cut_stop dest n C src SZ ltac:(apply N) A) as (src' & H1 & H2 & _). eauto. }
    destruct (seq_all hash decompress transpose_decode (ztake n dest) (at_cut dest n C) ST SP _ _ (Datatypes.S (length (all_of B))) I ltac:(lia)) as (d & R & BA & DC & src & A & RC).
    exists B, C, d. split; [exact E|]. split; [exact EC|]. split; [|split; [apply base_ok, BA|]].
    - intros fuel LF. destruct (seq_all hash decompress transpose_decode (ztake n dest) (at_cut dest n C) ST SP _ _ fuel I LF) as (d' & R' & _).
      rewrite R', fst_all_of. f_equal. f_equal. 
      clear - R R' LF. (* more fuel gives the same result *)
      assert (MF : forall f1 f2 c d0 x, (f1 <= f2)%nat -> RR_ReadAll hash decompress transpose_decode f1 c d0 = Some x -> RR_ReadAll hash decompress transpose_decode f2 c d0 = Some x).
      { induction f1 as [|f1 IH]; intros f2 c d0 x LE H; [discriminate H|]. destruct f2 as [|f2]; [lia|]. cbn [RR_ReadAll] in *. destruct (RR_ReadRecord _ _ _ c d0) as [[[r|] d1]|]; [|exact H|discriminate H].
        destruct (RR_ReadAll hash decompress transpose_decode f1 c d1) as [[rs d2]|] eqn:E1; [|discriminate H]. rewrite (IH f2 _ _ _ ltac:(lia) E1). exact H. }
      apply (MF _ fuel) in R; [|lia]. rewrite R in R'. injection R' as R'. symmetry. exact R'.
    - destruct (cut_stop dest n C src SZ ltac:(apply N) A) as (src' & H1 & H2 & H3). rewrite RC in H1. injection H1 as H1. rewrite <- H1 in *.
      unfold RR_Close. destruct BA as [BO BF BR]. rewrite BO. cbn [negb]. unfold r_ok in H2. apply andb_prop in H2 as [H4 H5]. apply negb_true_iff in H5.
      pose proof (Close_result _ H4 H5) as CR. destruct (Close (rd_src d)) as [b src2]. cbn [fst] in CR. rewrite H3 in CR. subst b.
      cbn [rd_dec put_last put_rec put_src]. rewrite DC. change (dc_ok ClearDecoder) with true. cbn iota. destruct (beginning dest C <? n); cbn [negb rd_failed put_failed put_rec put_last put_src fst]; [reflexivity|]. rewrite BF. reflexivity.
  Qed.
End Session.
