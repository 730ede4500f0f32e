(** Lemmas for C19, C20: the simple chunk codec. *)
From Verif Require Import Base.Bytes Model.Varint Model.Endian Model.Block Model.Chunk Model.SimpleChunk Model.ChunkDecoder
  Spec.RecordsSpec Spec.SimpleLink Proof.EndianProof Proof.VarintProof Proof.CodecLemmas.

Lemma vt64 : vt_ok V64. Proof. repeat split; cbn; lia. Qed.

Lemma ends_app start a b : ends start (a ++ b) = ends start a ++ ends (start + total a) b.
Proof.
  revert start. induction a as [|r a IH]; intros start; cbn [app ends].
  - unfold total. cbn [concat]. change (zlen (@nil Z)) with 0. rewrite Z.add_0_r. reflexivity.
  - rewrite IH. unfold total. cbn [concat]. rewrite zlen_app. rewrite Z.add_assoc. reflexivity.
Qed.
Lemma zlen_ends start rs : zlen (ends start rs) = zlen rs.
Proof. revert start. induction rs as [|r rs IH]; intros start; cbn [ends]; [reflexivity|]. rewrite !zlen_cons, IH. reflexivity. Qed.
Lemma last_ends start rs d : last (ends start rs) d = if zlen rs =? 0 then d else start + total rs.
Proof.
  revert start. induction rs as [|r rs IH]; intros start; [reflexivity|].
  cbn [ends]. rewrite zlen_cons. pose proof (zlen_nonneg rs). replace (1 + zlen rs =? 0) with false by (symmetry; apply Z.eqb_neq; lia).
  unfold total in *. cbn [concat]. rewrite zlen_app.
  destruct rs as [|r' rs]; [cbn; change (zlen (@nil Z)) with 0; lia|].
  change (last (start + zlen r :: ends (start + zlen r) (r' :: rs)) d) with (last (ends (start + zlen r) (r' :: rs)) d).
  rewrite IH. rewrite zlen_cons in *. pose proof (zlen_nonneg rs). replace (1 + zlen rs =? 0) with false by (symmetry; apply Z.eqb_neq; lia). lia.
Qed.
Lemma map_ends base start rs : map (fun l => l + base) (ends start rs) = ends (start + base) rs.
Proof. revert start. induction rs as [|r rs IH]; intros start; cbn [ends map]; [reflexivity|]. rewrite IH. do 2 (f_equal; try lia). Qed.
Lemma ends_range start rs : Forall (fun l => start <= l <= start + total rs) (ends start rs).
Proof.
  revert start. induction rs as [|r rs IH]; intros start; cbn [ends]; constructor; unfold total in *; cbn [concat]; rewrite zlen_app.
  - pose proof (zlen_nonneg r). pose proof (zlen_nonneg (concat rs)). lia.
  - eapply Forall_impl; [|apply IH]. cbv beta. intros l. pose proof (zlen_nonneg r). lia.
Qed.
Lemma total_app a b : total (a ++ b) = total a + total b.
Proof. unfold total. rewrite concat_app, zlen_app. reflexivity. Qed.
Lemma total_cons r b : total (r :: b) = zlen r + total b.
Proof. unfold total. cbn [concat]. rewrite zlen_app. reflexivity. Qed.
Lemma total_nonneg rs : 0 <= total rs. Proof. apply zlen_nonneg. Qed.

(** The sizes of records as written. *)
Definition size_bytes (rs : list (list Z)) : list Z := flat_map (fun r => WriteVarint V64 (zlen r)) rs.
Lemma write_sizes_ends start rs : 0 <= start -> start + total rs < 2 ^ 64 -> write_sizes start (ends start rs) = size_bytes rs.
Proof.
  revert start. induction rs as [|r rs IH]; intros start S0 B; [reflexivity|].
  cbn [ends write_sizes size_bytes flat_map]. rewrite total_cons in B. pose proof (zlen_nonneg r). pose proof (total_nonneg rs).
  replace (start + zlen r - start) with (zlen r) by lia. unfold u64 at 1. rewrite Z.mod_small by lia.
  rewrite IH by lia. reflexivity.
Qed.
Lemma size_bytes_app a b : size_bytes (a ++ b) = size_bytes a ++ size_bytes b.
Proof. apply flat_map_app. Qed.

Lemma bytes_WriteVarint v : 0 <= v < 2 ^ 64 -> bytes (WriteVarint V64 v).
Proof. intros H. exact (proj1 (varint64_round_trip true v [] H (Forall_nil _))). Qed.

Lemma size_bytes_bytes rs : total rs < 2 ^ 64 -> bytes (size_bytes rs).
Proof.
  induction rs as [|r rs IH]; intros B; [constructor|]. cbn [size_bytes flat_map]. rewrite total_cons in B.
  pose proof (zlen_nonneg r). pose proof (total_nonneg rs).
  apply bytes_app. split; [apply bytes_WriteVarint; lia|apply IH; lia].
Qed.

(** Adding. *)
Definition enc_of (rs : list (list Z)) : encoder := MkEncoder (zlen rs) (total rs) (size_bytes rs) (concat rs) true.
Lemma AddRecord_ok r rs : zlen (rs ++ [r]) <= kMaxNumRecords -> total (rs ++ [r]) < 2 ^ 64 ->
  AddRecord r (enc_of rs) = (true, enc_of (rs ++ [r])).
Proof.
  intros N T. rewrite zlen_app in N. change (zlen [r]) with 1 in N. rewrite total_app, total_cons in T. change (total []) with 0 in T.
  pose proof (total_nonneg rs). pose proof (zlen_nonneg r). unfold AddRecord, enc_of. cbn [e_ok e_num e_size e_sizes e_values negb].
  replace (zlen rs =? kMaxNumRecords) with false by (symmetry; apply Z.eqb_neq; lia).
  replace (2 ^ 64 - 1 - total rs <? zlen r) with false by (symmetry; apply Z.ltb_ge; lia).
  rewrite zlen_app, total_app, total_cons, size_bytes_app, concat_app. change (total []) with 0. change (zlen [r]) with 1. cbn [concat size_bytes flat_map].
  rewrite !app_nil_r. unfold u64. rewrite Z.mod_small by lia. rewrite Z.add_0_r. reflexivity.
Qed.
Lemma AddRecords_ok rs' rs : zlen (rs ++ rs') <= kMaxNumRecords -> total (rs ++ rs') < 2 ^ 64 ->
  AddRecords (concat rs') (ends 0 rs') (enc_of rs) = (true, enc_of (rs ++ rs')).
Proof.
  intros N T. rewrite zlen_app in N. rewrite total_app in T. pose proof (total_nonneg rs). pose proof (total_nonneg rs').
  pose proof (zlen_nonneg rs). pose proof (zlen_nonneg rs'). unfold kMaxNumRecords in N.
  unfold AddRecords, enc_of. cbn [e_ok e_num e_size e_sizes e_values negb]. rewrite zlen_ends. unfold kMaxNumRecords.
  unfold u64. rewrite (Z.mod_small (2 ^ 56 - 1 - zlen rs)) by lia.
  replace (2 ^ 56 - 1 - zlen rs <? zlen rs') with false by (symmetry; apply Z.ltb_ge; lia).
  change (zlen (concat rs')) with (total rs').
  replace (2 ^ 64 - 1 - total rs <? total rs') with false by (symmetry; apply Z.ltb_ge; lia).
  rewrite write_sizes_ends by lia. rewrite !Z.mod_small by lia. rewrite zlen_app, total_app, size_bytes_app, concat_app. reflexivity.
Qed.

Lemma add_ok a rs : zlen (rs ++ added a) <= kMaxNumRecords -> total (rs ++ added a) < 2 ^ 64 -> add a (enc_of rs) = (true, enc_of (rs ++ added a)).
Proof. destruct a; cbn [added add]; intros; [apply AddRecord_ok|apply AddRecords_ok]; assumption. Qed.

Lemma add_all_from l : forall rs, zlen (rs ++ all_added l) <= kMaxNumRecords -> total (rs ++ all_added l) < 2 ^ 64 ->
  add_all add l (enc_of rs) = enc_of (rs ++ all_added l).
Proof.
  induction l as [|a l IH]; intros rs N T; unfold add_all; cbn [fold_left all_added flat_map].
  - rewrite app_nil_r. reflexivity.
  - cbn [all_added flat_map] in N, T. fold (all_added l) in *. rewrite app_assoc in N, T |- *.
    rewrite add_ok; [cbn [snd]; apply IH; assumption| |].
    + rewrite zlen_app in N. pose proof (zlen_nonneg (all_added l)). lia.
    + rewrite total_app in T. pose proof (total_nonneg (all_added l)). lia.
Qed.

Definition def_of (rs : list (list Z)) : deferred := MkDeferred (zlen rs) (total rs) (concat rs) (ends 0 rs) true.
Lemma ends_nil_iff rs : ends 0 rs = [] -> rs = [].
Proof. destruct rs; [reflexivity|discriminate]. Qed.
Lemma add_deferred_ok a rs : zlen (rs ++ added a) <= kMaxNumRecords -> total (rs ++ added a) < 2 ^ 64 ->
  add_deferred a (def_of rs) = (true, def_of (rs ++ added a)).
Proof.
  intros N T. rewrite zlen_app in N. rewrite total_app in T.
  pose proof (total_nonneg rs). pose proof (zlen_nonneg rs). unfold kMaxNumRecords in N.
  unfold def_of. rewrite zlen_app, total_app, concat_app, ends_app, Z.add_0_l.
  destruct a as [r|rs']; cbn [added add_deferred] in *.
  - change (zlen [r]) with 1 in *. rewrite total_cons in *. change (total []) with 0 in *. pose proof (zlen_nonneg r).
    unfold Deferred_AddRecord. cbn [d_ok d_num d_size d_limits d_records negb]. unfold kMaxNumRecords.
    replace (zlen rs =? 2 ^ 56 - 1) with false by (symmetry; apply Z.eqb_neq; lia).
    replace (2 ^ 64 - 1 - total rs <? zlen r) with false by (symmetry; apply Z.ltb_ge; lia).
    unfold u64. rewrite Z.mod_small by lia. cbn [concat ends]. rewrite app_nil_r, zlen_app. fold (total rs). rewrite Z.add_0_r. reflexivity.
  - pose proof (total_nonneg rs'). pose proof (zlen_nonneg rs').
    unfold Deferred_AddRecords. cbn [d_ok d_num d_size d_limits d_records negb]. unfold kMaxNumRecords, u64.
    rewrite (Z.mod_small (2 ^ 56 - 1 - zlen rs)) by lia. rewrite zlen_ends.
    replace (2 ^ 56 - 1 - zlen rs <? zlen rs') with false by (symmetry; apply Z.ltb_ge; lia).
    change (zlen (concat rs')) with (total rs'). rewrite !Z.mod_small by lia. f_equal. f_equal.
    destruct (ends 0 rs) eqn:E.
    + apply ends_nil_iff in E. subst rs. reflexivity.
    + rewrite <- E, last_ends. f_equal. pose proof (map_ends (total rs) 0 rs') as M. rewrite Z.add_0_l in M. rewrite <- M. clear M.
      assert (R : zlen rs <> 0) by (destruct rs; [discriminate|rewrite zlen_cons; pose proof (zlen_nonneg rs); lia]).
      replace (zlen rs =? 0) with false by (symmetry; apply Z.eqb_neq; lia). rewrite Z.add_0_l.
      apply map_ext_in. intros x Hx. pose proof (ends_range 0 rs') as F. rewrite Forall_forall in F. specialize (F x Hx). cbv beta in F.
      apply Z.mod_small. lia.
Qed.
Lemma add_all_deferred_from l : forall rs, zlen (rs ++ all_added l) <= kMaxNumRecords -> total (rs ++ all_added l) < 2 ^ 64 ->
  add_all add_deferred l (def_of rs) = def_of (rs ++ all_added l).
Proof.
  induction l as [|a l IH]; intros rs N T; unfold add_all; cbn [fold_left all_added flat_map].
  - rewrite app_nil_r. reflexivity.
  - cbn [all_added flat_map] in N, T. fold (all_added l) in *. rewrite app_assoc in N, T |- *.
    rewrite add_deferred_ok; [cbn [snd]; apply IH; assumption| |].
    + rewrite zlen_app in N. pose proof (zlen_nonneg (all_added l)). lia.
    + rewrite total_app in T. pose proof (total_nonneg (all_added l)). lia.
Qed.

(** Reading sizes. *)
Lemma read_limits_ok rs : forall start D rest, 0 <= start -> start + total rs <= D -> D < 2 ^ 64 -> bytes rest ->
  read_limits (length rs) D start (size_bytes rs ++ rest) = Some (ends start rs, start + total rs, rest).
Proof.
  induction rs as [|r rs IH]; intros start D rest S0 T B R.
  - cbn [length read_limits size_bytes flat_map app ends]. change (total []) with 0. rewrite Z.add_0_r. reflexivity.
  - cbn [length read_limits size_bytes flat_map ends]. rewrite total_cons in *. pose proof (zlen_nonneg r). pose proof (total_nonneg rs).
    rewrite <- app_assoc. rewrite ReadVarint_Write; [|exact vt64|cbn [vbits V64]; lia|apply bytes_app; split; [apply size_bytes_bytes; lia|exact R]].
    unfold u64. rewrite Z.mod_small by lia. replace (D - start <? zlen r) with false by (symmetry; apply Z.ltb_ge; lia).
    cbv beta iota zeta. fold (size_bytes rs). rewrite IH by (try assumption; lia). rewrite Z.add_assoc. reflexivity.
Qed.

Lemma read_limits_sound n : forall D start src ls last rest, bytes src -> 0 <= start <= D -> D < 2 ^ 64 ->
  read_limits n D start src = Some (ls, last, rest) ->
  length ls = n /\ start <= last <= D /\ bytes rest /\
  forall values, zlen values = last - start -> exists rs, ends start rs = ls /\ concat rs = values.
Proof.
  induction n as [|n IH]; intros D start src ls last rest B S0 D64 E; cbn [read_limits] in E.
  - injection E as <- <- <-. repeat split; try lia; try assumption. intros values V. rewrite Z.sub_diag in V.
    apply zlen_0_nil in V. subst. exists []. split; reflexivity.
  - destruct (ReadVarint V64 src) as [[size src']|] eqn:RV; [|discriminate].
    destruct (ReadVarint_sound V64 src size src' vt64 B RV) as (l & SL & _ & _ & S1 & _). cbn [vbits V64] in S1.
    assert (B' : bytes src') by (subst src; apply bytes_app in B; apply B).
    unfold u64 in E. rewrite Z.mod_small in E by lia.
    destruct (Z.ltb_spec (D - start) size) as [|LE]; [discriminate|].
    cbv beta iota zeta in E. destruct (read_limits n D (start + size) src') as [[[ls' last'] rest']|] eqn:RL; [|discriminate].
    injection E as <- <- <-. apply IH in RL; [|assumption|lia|assumption]. destruct RL as (LN & R & BR & SP).
    split; [cbn [length]; lia|]. split; [lia|]. split; [exact BR|]. intros values V.
    destruct (SP (zdrop size values)) as (rs & EN & CO).
    { rewrite zlen_zdrop. lia. }
    exists (ztake size values :: rs). cbn [ends concat]. rewrite zlen_ztake, CO, ztake_zdrop.
    replace (Z.max 0 (Z.min size (zlen values))) with size by lia. rewrite EN. split; reflexivity.
Qed.

Section Codec.
  Variable compress : Z -> list Z -> list Z.
  Variable decompress : Z -> list Z -> option (list Z).
  Hypothesis compress_bytes : forall t l, bytes l -> bytes (compress t l).
  Hypothesis round : forall t l, bytes l -> decompress t (compress t l) = Some l.

  Lemma decompressor_ok ct data : known_compression ct = true -> zlen data < 2 ^ 64 -> bytes data ->
    Decompressor decompress ct (Compressor_EncodeAndClose compress ct data) = Some data.
  Proof.
    intros K L B. unfold Decompressor, Compressor_EncodeAndClose, compressed. destruct (ct =? kNone) eqn:N; [reflexivity|].
    pose proof (zlen_nonneg data). rewrite ReadVarint_Write; [|exact vt64|cbn [vbits V64]; lia|apply compress_bytes, B].
    unfold known_compression in K. rewrite N in K. cbn [orb] in K. rewrite K. apply round, B.
  Qed.
  Lemma bytes_encode ct data : zlen data < 2 ^ 64 -> bytes data -> bytes (Compressor_EncodeAndClose compress ct data).
  Proof.
    intros L B. pose proof (zlen_nonneg data). unfold Compressor_EncodeAndClose, compressed. destruct (ct =? kNone); [exact B|].
    apply bytes_app. split; [apply bytes_WriteVarint; lia|apply compress_bytes, B].
  Qed.
  Lemma length_prefixed ct data : zlen data < 2 ^ 64 -> zlen (Compressor_EncodeAndClose compress ct data) < 2 ^ 64 ->
    Compressor_LengthPrefixed compress ct data = WriteVarint V64 (zlen (Compressor_EncodeAndClose compress ct data)) ++ Compressor_EncodeAndClose compress ct data.
  Proof.
    intros L B. unfold Compressor_LengthPrefixed. cbv zeta. unfold Compressor_EncodeAndClose in *. f_equal. f_equal.
    pose proof (zlen_nonneg (compressed compress ct data)). pose proof (zlen_nonneg data).
    destruct (ct =? kNone).
    - cbn [app] in *. unfold u64. rewrite Z.mod_small; lia.
    - rewrite zlen_app in *. pose proof (varint64_round_trip true (zlen data) [] ltac:(lia) (Forall_nil _)) as (_ & E & R & _).
      rewrite E in *. unfold u64. rewrite Z.mod_small; lia.
  Qed.

  Lemma simple_decode_ok ct rs data k n d : known_compression ct = true -> Forall bytes rs ->
    total rs < 2 ^ 64 -> EncodeAndClose compress ct (enc_of rs) = Some (data, k, n, d) -> zlen data < 2 ^ 64 -> zlen (size_bytes rs) < 2 ^ 64 ->
    k = kSimple /\ n = zlen rs /\ d = total rs /\ bytes data /\ SimpleDecoder_Decode decompress data n d = Some (ends 0 rs, concat rs).
  Proof.
    intros K B T E D ZS. unfold EncodeAndClose, enc_of in E. cbn [e_ok e_num e_size e_sizes e_values negb] in E. injection E as <- <- <- <-.
    assert (BC : bytes (concat rs)) by (clear -B; induction B; cbn [concat]; [constructor|apply bytes_app; auto]).
    assert (SB : bytes (size_bytes rs)) by (apply size_bytes_bytes; exact T).
    assert (CT : byte_cast ct = ct /\ is_byte ct).
    { unfold known_compression in K. rewrite !Bool.orb_true_iff, !Z.eqb_eq in K. unfold is_byte. destruct K as [[[-> | ->] | ->] | ->]; split; try reflexivity; unfold kNone, kBrotli, kZstd, kSnappy; lia. }
    destruct CT as [CT CB]. rewrite CT in *.
    set (E1 := Compressor_EncodeAndClose compress ct (size_bytes rs)).
    set (E2 := Compressor_EncodeAndClose compress ct (concat rs)) in *.
    assert (L1 : zlen E1 < 2 ^ 64).
    { rewrite zlen_cons, zlen_app in D. unfold Compressor_LengthPrefixed in D. cbv zeta in D. fold (Compressor_EncodeAndClose compress ct (size_bytes rs)) in D.
      rewrite zlen_app in D. fold E1 in D. match type of D with context [zlen (WriteVarint V64 ?a)] => pose proof (zlen_nonneg (WriteVarint V64 a)) end. pose proof (zlen_nonneg E2). lia. }
    rewrite length_prefixed by assumption. fold E1. pose proof (zlen_nonneg E1).
    assert (B1 : bytes E1) by (apply bytes_encode; assumption). assert (B2 : bytes E2) by (apply bytes_encode; [change (zlen (concat rs)) with (total rs); lia|assumption]).
    repeat split.
    - constructor; [exact CB|]. rewrite <- app_assoc. apply bytes_app. split; [apply bytes_WriteVarint; lia|]. apply bytes_app. split; assumption.
    - unfold SimpleDecoder_Decode. rewrite <- app_assoc. rewrite ReadVarint_Write; [|exact vt64|cbn [vbits V64]; lia|apply bytes_app; auto].
      rewrite zlen_app. replace (zlen E1 + zlen E2 <? zlen E1) with false by (symmetry; apply Z.ltb_ge; pose proof (zlen_nonneg E2); lia).
      rewrite ztake_app_exact, zdrop_app_exact. unfold E1 at 1. rewrite decompressor_ok by assumption.
      replace (Z.to_nat (zlen rs)) with (length rs) by (unfold zlen; lia).
      replace (size_bytes rs) with (size_bytes rs ++ []) by apply app_nil_r.
      rewrite read_limits_ok; [|lia|lia|lia|constructor]. rewrite Z.add_0_l, Z.eqb_refl. cbn [negb].
      unfold E2. rewrite decompressor_ok; [reflexivity|assumption|exact T|assumption].
  Qed.

End Codec.
Section Sound.
  Variable decompress : Z -> list Z -> option (list Z).
  Hypothesis decompress_bytes : forall t l l', decompress t l = Some l' -> bytes l'.

  Lemma bytes_Decompressor ct src out : bytes src -> Decompressor decompress ct src = Some out -> bytes out.
  Proof.
    unfold Decompressor. intros B E. destruct (ct =? kNone); [injection E as <-; exact B|].
    destruct (ReadVarint V64 src) as [[u src']|]; [|discriminate E].
    destruct ((ct =? kBrotli) || (ct =? kZstd) || (ct =? kSnappy)); [|discriminate E]. eapply decompress_bytes, E.
  Qed.

  (** Decoding arbitrary bytes. *)
  Lemma simple_decode_sound data n d limits values : bytes data -> 0 <= n -> 0 <= d < 2 ^ 64 ->
    SimpleDecoder_Decode decompress data n d = Some (limits, values) ->
    exists ct m part1 part2, data = ct :: m ++ part1 ++ part2 /\ (exists s, Decompressor decompress ct part1 = Some s) /\
      Decompressor decompress ct part2 = Some values /\ zlen limits = n /\
      forall v, zlen v = d -> exists rs, ends 0 rs = limits /\ concat rs = v.
  Proof.
    intros B N D E. destruct data as [|ct src]; [discriminate E|]. apply bytes_cons in B as [Bc B]. unfold SimpleDecoder_Decode in E.
    destruct (ReadVarint V64 src) as [[ss src1]|] eqn:RV; [|discriminate E].
    destruct (ReadVarint_sound V64 src ss src1 vt64 B RV) as (l & SL & _ & _ & S1 & _).
    assert (B1 : bytes src1) by (subst src; apply bytes_app in B; apply B).
    destruct (Z.ltb_spec (zlen src1) ss) as [|LE]; [discriminate E|].
    destruct (Decompressor decompress ct (ztake ss src1)) as [sizes|] eqn:D1; [|discriminate E].
    assert (B2 : bytes sizes) by (eapply bytes_Decompressor; [|exact D1]; apply bytes_ztake, B1).
    destruct (read_limits (Z.to_nat n) d 0 sizes) as [[[ls limit] rest]|] eqn:RL; [|discriminate E].
    destruct rest; [|discriminate E]. destruct (Z.eqb_spec limit d) as [EQ|]; [|discriminate E]. cbn [negb] in E.
    destruct (Decompressor decompress ct (zdrop ss src1)) as [vs|] eqn:D2; [|discriminate E]. injection E as <- <-.
    apply read_limits_sound in RL; [|assumption|lia|lia]. destruct RL as (LN & R & _ & SP).
    exists ct, l, (ztake ss src1), (zdrop ss src1). split; [rewrite ztake_zdrop, SL; reflexivity|]. split; [eauto|]. split; [exact D2|].
    split; [unfold zlen; lia|]. intros v V. apply SP. lia.
  Qed.
End Sound.
