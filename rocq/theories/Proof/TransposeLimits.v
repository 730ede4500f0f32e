(** Records which are encoded into a transposed chunk but not decoded. *)
From Coq Require Import Permutation.
From Verif Require Import Base.Bytes Model.Endian Model.Varint Model.Chunk Model.SimpleChunk Model.TransposeEncoder Model.TransposeDecoder.
From Verif Require Import Spec.VarintSpec Spec.RecordsSpec Proof.CodecLemmas Proof.VarintProof Proof.SimpleChunkProof.
From Verif Require Import Proof.TransposeColumns Proof.TransposeMessages Proof.TransposeBuffers Proof.TransposeRound.

Lemma varint_prefix a : forall b x y, is_varint a -> is_varint b -> a ++ x = b ++ y -> a = b.
Proof.
  induction a as [|h a IH]; intros b x y Va Vb E; [destruct Va as ([|? ?] & ? & Va & _); discriminate|].
  apply is_varint_inv in Va. apply is_varint_inv in Vb.
  destruct Va as [(h' & Va & Ha)|(h' & a' & Va & Ha & Va')]; injection Va as <- ->; destruct Vb as [(k & -> & Hk)|(k & b' & -> & Hk & Vb')]; cbn [app] in E; injection E as E1 E2; subst; try lia; [reflexivity|].
  f_equal. eapply IH; eassumption.
Qed.
Lemma Read32_Write64_none v rest : 2 ^ 32 <= v < 2 ^ 64 -> bytes rest -> ReadVarint V32 (WriteVarint V64 v ++ rest) = None.
Proof.
  intros Hv Hr. destruct (WriteVarint_spec V64 v V64_ok) as (W1 & W2 & _); [cbn [vbits V64]; lia|].
  assert (Hb : bytes (WriteVarint V64 v ++ rest)) by (apply bytes_app; split; [apply is_varint_bytes|]; assumption).
  destruct (ReadVarint V32 (WriteVarint V64 v ++ rest)) as [[u rest']|] eqn:E; [exfalso|reflexivity].
  apply ReadVarint_sound in E; [|exact V32_ok|exact Hb]. destruct E as (l & E & VL & E1 & E2 & _). cbn [vbits V32] in E2.
  assert (WriteVarint V64 v = l) by (eapply varint_prefix; eassumption). subst l. lia.
Qed.

Section Limits.
Variable compress : Z -> list Z -> list Z.
Variable decompress : Z -> list Z -> option (list Z).
Variable order : nat -> list (nat * dest_info) -> list (nat * dest_info).
Variable o : transpose_options.
Hypothesis compress_bytes : forall t l, bytes l -> bytes (compress t l).
Hypothesis round : forall t l, bytes l -> decompress t (compress t l) = Some l.
Hypothesis order_perm : forall t l, Permutation (order t l) l.
Hypothesis known : known_compression (o_ct o) = true.

Definition lost (rs : list (list Z)) : Prop :=
  exists data, TransposeEncode compress order o rs = Some data /\
    (zlen data < 2 ^ 64 -> bytes data /\ forall num_records size, TransposeDecode decompress data num_records size = None).

Lemma long_record r : bytes r -> IsProtoMessage r = false -> 2 ^ 32 <= zlen r < 2 ^ 62 -> lost [r].
Proof.
  intros B NP L.
  set (len := WriteVarint V64 (zlen r)).
  assert (Hlen : is_varint len) by (apply (WriteVarint_spec V64 (zlen r) V64_ok); cbn [vbits V64]; lia).
  assert (Blen : bytes len) by (apply is_varint_bytes, Hlen).
  assert (Nlen : len <> []) by apply WriteVarint_nonempty.
  assert (Llen : zlen len <= 10) by (apply V64_len; lia).
  assert (Nr : r <> []) by (intros ->; change (zlen (@nil Z)) with 0 in L; lia).
  set (c := {| c_nodes := [(kNonProto, 0)]; c_tags := [((kNonProto, 0), 0)]; c_encoded := [O]; c_buffers := [{| b_type := 4; b_node := (kNonProto, 0); b_data := r |}]; c_lengths := len ++ [] |}).
  assert (E : add_records [r] 0 0 no_columns = Some c).
  { cbn [add_records]. unfold kMaxNumRecords. cbn [Z.eqb]. replace (2 ^ 64 - 1 - 0 <? zlen r) with false by (symmetry; apply Z.ltb_ge; lia).
    unfold AddRecordInternal. rewrite NP. reflexivity. }
  assert (AD : all_data c = [r; len]).
  { unfold all_data, c, ordered_buffers. cbn [c_lengths]. rewrite app_nil_r. destruct len as [|x len'] eqn:EL; [congruence|]. reflexivity. }
  assert (W : wf c).
  { constructor; unfold c, nodes; cbn [c_tags c_encoded c_buffers c_lengths map length b_node b_data b_type fst].
    - constructor; [cbn; lia|constructor].
    - constructor; [left; auto|constructor].
    - constructor; [intros _; left; reflexivity|constructor].
    - constructor; [intros []|constructor].
    - constructor; [split; [cbn; lia|auto]|constructor].
    - rewrite app_nil_r. exact Blen.
    - rewrite app_nil_r. intros _. exact Nlen. }
  destruct (transpose_columns compress decompress order o [r] c compress_bytes round order_perm known E W) as (data & E1 & E2).
  - cbn. lia.
  - rewrite AD. cbn. lia.
  - rewrite AD. cbn [concat]. rewrite app_nil_r, zlen_app. lia.
  - rewrite AD. constructor; [exact B|constructor; [exact Blen|constructor]].
  - exists data. split; [exact E1|]. intros D. destruct (E2 D) as [D1 D2]. split; [exact D1|]. intros nr ms. rewrite D2, AD.
    assert (HL : has_lengths c = true) by (unfold has_lengths, c; cbn [c_lengths]; rewrite app_nil_r; destruct len; [congruence|reflexivity]).
    assert (BI : buffer_ids c = [(kNonProto, 0)]) by reflexivity. rewrite HL, BI.
    cbn [entries c c_encoded c_tags map nth rev app run]. unfold handle. cbn [lens length]. unfold entry_callback. cbn [Z.eqb kNonProto Pos.eqb].
    unfold HandleNode. cbn [g_buffers nth_error]. pose proof (Read32_Write64_none (zlen r) [] ltac:(lia) bytes_nil) as X. rewrite app_nil_r in X. fold len in X. rewrite X. reflexivity.
Qed.

Definition string_record (len : Z) : list Z := 10 :: WriteVarint V32 len ++ zeros len.
Lemma long_string len : 0 <= len < 2 ^ 32 -> 2 ^ 32 <= zlen (WriteVarint V32 len) + len -> lost [string_record len].
Proof.
  intros L1 L2. unfold string_record. set (wl := WriteVarint V32 len) in *. set (r := 10 :: wl ++ zeros len).
  assert (Vwl : is_varint wl) by (apply (WriteVarint_spec V32 len V32_ok); cbn [vbits V32]; lia).
  assert (Bwl : bytes wl) by (apply is_varint_bytes, Vwl).
  assert (Lwl : zlen wl <= 5) by (apply V32_len; lia).
  assert (Nwl : wl <> []) by apply WriteVarint_nonempty.
  assert (BR : bytes (wl ++ zeros len)) by (apply bytes_app; split; [exact Bwl|apply bytes_zeros]).
  assert (LZ : zlen (zeros len) = len) by (rewrite zlen_zeros; lia).
  assert (EZ : zeros len = 0 :: zeros (len - 1)).
  { unfold zeros. replace (Z.to_nat len) with (S (Z.to_nat (len - 1))) by lia. reflexivity. }
  assert (RC : forall v l, 0 <= v < 2 ^ 32 -> bytes l -> ReadCanonicalVarint V32 (WriteVarint V32 v ++ l) = Some (v, l) /\ ReadVarint V32 (WriteVarint V32 v ++ l) = Some (v, l)).
  { intros v l Hv Hl. unfold ReadCanonicalVarint, ReadVarint. rewrite !ReadVarintArray_Write by (try assumption; apply V32_ok). rewrite skipn_app_exact. auto. }
  assert (T1 : ReadCanonicalVarint V32 r = Some (10, wl ++ zeros len) /\ ReadVarint V32 r = Some (10, wl ++ zeros len)) by (exact (RC 10 _ ltac:(lia) BR)).
  destruct T1 as [T1 T2]. destruct (RC len (zeros len) L1 (bytes_zeros _)) as [T3 T4]. fold wl in T3, T4.
  assert (NZ : IsProtoMessage (zeros len) = false).
  { unfold IsProtoMessage. cbn [is_proto_message]. rewrite EZ at 1. destruct (RC 0 (zeros (len - 1)) ltac:(lia) (bytes_zeros _)) as [X _]. change (WriteVarint V32 0 ++ zeros (len - 1)) with (0 :: zeros (len - 1)) in X. rewrite <- EZ in X. rewrite X. reflexivity. }
  assert (PR : IsProtoMessage r = true).
  { unfold IsProtoMessage. cbn [is_proto_message]. unfold r at 1. rewrite T1. cbn [GetTagFieldNumber]. change (GetTagFieldNumber 10) with 1. change (GetTagWireType 10) with 2. cbv zeta. cbn [Z.eqb Pos.eqb wVarint wFixed32 wFixed64 wLengthDelimited].
    rewrite T3, LZ, Z.ltb_irrefl. replace (zdrop len (zeros len)) with (@nil Z); [unfold r; cbn [length is_proto_message]; reflexivity|].
    rewrite <- LZ at 1. rewrite <- (app_nil_r (zeros len)) at 2. rewrite zdrop_app_exact. reflexivity. }
  set (c := {| c_nodes := [(kStartOfMessage, 0); (kRoot, 10)]; c_tags := [((kStartOfMessage, 0), 0); ((kRoot, 10), 0)]; c_encoded := [O; 1%nat];
     c_buffers := [{| b_type := 3; b_node := (kRoot, 10); b_data := wl ++ zeros len |}]; c_lengths := [] |}).
  assert (Lr : zlen r = 1 + zlen wl + len) by (unfold r; rewrite zlen_cons, zlen_app, LZ; lia).
  assert (E : add_records [r] 0 0 no_columns = Some c).
  { cbn [add_records]. unfold kMaxNumRecords. cbn [Z.eqb]. replace (2 ^ 64 - 1 - 0 <? zlen r) with false by (symmetry; apply Z.ltb_ge; lia).
    unfold AddRecordInternal. rewrite PR. unfold AddMessage. cbn [GetNode no_columns c_nodes find_index].
    replace (2 * length r + 2)%nat with (S (S (length r + length r))) by lia.
    cbn [add_message]. unfold r at 1. rewrite T2. cbn [GetNode push_tag GetPosInTagsList c_tags c_nodes find_index node_eqb fst snd app c_encoded c_buffers c_lengths push_pos].
    change (GetTagWireType 10) with 2. cbv zeta. cbn [Z.eqb Pos.eqb wVarint wFixed32 wFixed64 wLengthDelimited].
    rewrite T4, LZ, Z.ltb_irrefl. replace (ztake len (zeros len)) with (zeros len) by (rewrite <- LZ at 2; rewrite <- (app_nil_r (zeros len)) at 3; rewrite ztake_app_exact; reflexivity).
    rewrite NZ, Bool.andb_false_r.
    replace (zdrop len (zeros len)) with (@nil Z) by (rewrite <- LZ at 1; rewrite <- (app_nil_r (zeros len)) at 2; rewrite zdrop_app_exact; reflexivity).
    replace (ztake (zlen (wl ++ zeros len) - len + len) (wl ++ zeros len)) with (wl ++ zeros len).
    2: { replace (zlen (wl ++ zeros len) - len + len) with (zlen (wl ++ zeros len)) by lia. rewrite <- (app_nil_r (wl ++ zeros len)) at 3. rewrite ztake_app_exact. reflexivity. }
    unfold r. cbn [length Nat.add add_message]. reflexivity. }
  assert (AD : all_data c = [wl ++ zeros len]) by reflexivity.
  assert (W : wf c).
  { constructor; unfold c, nodes; cbn [c_tags c_encoded c_buffers c_lengths map length b_node b_data b_type fst].
    - constructor; [cbn; lia|constructor; [cbn; lia|constructor]].
    - constructor; [left; auto|constructor; [right; split; [lia|]; right; right; split; [reflexivity|lia]|constructor]].
    - constructor; [intros [[_ X]|[X _]]; [discriminate|congruence]|constructor; [intros _; left; reflexivity|constructor]].
    - constructor; [intros []|constructor].
    - constructor; [split; [cbn; lia|split; [destruct wl; [congruence|discriminate]|exact BR]]|constructor].
    - constructor.
    - intros [X|[X|[]]]; discriminate. }
  destruct (transpose_columns compress decompress order o [r] c compress_bytes round order_perm known E W) as (data & E1 & E2).
  - cbn. lia.
  - rewrite AD. cbn. lia.
  - rewrite AD. cbn [concat]. rewrite app_nil_r, zlen_app. lia.
  - rewrite AD. constructor; [exact BR|constructor].
  - exists data. split; [exact E1|]. intros D. destruct (E2 D) as [D1 D2]. split; [exact D1|]. intros nr ms. rewrite D2, AD.
    change (buffer_ids c) with [(kRoot, 10)]. change (has_lengths c) with false.
    change (rev (entries c)) with [((kRoot, 10), 0); ((kStartOfMessage, 0), 0)]. cbn [run]. unfold handle. rewrite callback_string by (try reflexivity; lia).
    change (index_of [(kRoot, 10)] (kRoot, 10)) with O. cbn [HandleNode g_buffers nth_error]. unfold wl at 1. rewrite ReadVarintArray_Write by (try apply V32_ok; try apply bytes_zeros; exact L1). fold wl.
    replace (2 ^ 32 - 1 - Z.of_nat (length wl) <? len) with true by (symmetry; apply Z.ltb_lt; unfold zlen in L2; lia). reflexivity.
Qed.
End Limits.
