(** AddMessage never fails on a message, and its columns restore the message. *)
From Verif Require Import Base.Bytes Model.Endian Model.Varint Model.Chunk Model.SimpleChunk Model.TransposeEncoder Model.TransposeDecoder.
From Verif Require Import Spec.VarintSpec Proof.VarintProof Proof.TransposeColumns.

Definition proto (gs : list Z) (r : list Z) : Prop := exists fuel, is_proto_message fuel gs r = true.
Lemma proto_inv gs r : bytes r -> proto gs r ->
  (r = [] /\ gs = []) \/
  exists tag r1, r = WriteVarint V32 tag ++ r1 /\ bytes r1 /\ 8 <= tag < 2 ^ 32 /\ ReadVarint V32 r = Some (tag, r1) /\
    ((tag mod 8 = 0 /\ exists n, SkipVarintArray V64 true r1 = S n /\ proto gs (skipn (S n) r1)) \/
     (tag mod 8 = 5 /\ 4 <= zlen r1 /\ proto gs (zdrop 4 r1)) \/
     (tag mod 8 = 1 /\ 8 <= zlen r1 /\ proto gs (zdrop 8 r1)) \/
     (tag mod 8 = 2 /\ exists len v, ReadCanonicalVarint V32 r1 = Some (len, v) /\ len <= zlen v /\ proto gs (zdrop len v)) \/
     (tag mod 8 = 3 /\ proto (tag / 8 :: gs) r1) \/
     (tag mod 8 = 4 /\ exists g gs', gs = g :: gs' /\ proto gs' r1)).
Proof.
  intros Hb [fuel H]. destruct fuel as [|fuel]; [discriminate|]. cbn [is_proto_message] in H.
  destruct r as [|b r]; [destruct gs; [left; auto|discriminate]|]. right. remember (b :: r) as rec.
  destruct (ReadCanonicalVarint V32 rec) as [[tag r1]|] eqn:E; [|discriminate].
  destruct (canonical32 _ _ _ Hb E) as (C1 & C2 & C3 & C4). exists tag, r1.
  destruct (Z.eqb_spec (GetTagFieldNumber tag) 0) as [|N]; [discriminate|].
  unfold GetTagFieldNumber, GetTagWireType, wVarint, wFixed32, wFixed64, wLengthDelimited, wStartGroup, wEndGroup in *.
  split; [exact C1|]. split; [exact C4|]. split; [split; [Z.div_mod_to_equations; lia|lia]|]. split; [exact C3|].
  destruct (Z.eqb_spec (tag mod 8) 0) as [W|W].
  { left. split; [exact W|]. destruct (SkipVarintArray V64 true r1) as [|n]; [discriminate|]. exists n. split; [reflexivity|]. exists fuel. exact H. }
  destruct (Z.eqb_spec (tag mod 8) 5) as [W5|W5].
  { right; left. destruct (Z.ltb_spec (zlen r1) 4); [discriminate|]. split; [exact W5|]. split; [lia|]. exists fuel. exact H. }
  destruct (Z.eqb_spec (tag mod 8) 1) as [W1|W1].
  { right; right; left. destruct (Z.ltb_spec (zlen r1) 8); [discriminate|]. split; [exact W1|]. split; [lia|]. exists fuel. exact H. }
  destruct (Z.eqb_spec (tag mod 8) 2) as [W2|W2].
  { right; right; right; left. split; [exact W2|]. destruct (ReadCanonicalVarint V32 r1) as [[len v]|]; [|discriminate].
    destruct (Z.ltb_spec (zlen v) len); [discriminate|]. exists len, v. split; [reflexivity|]. split; [lia|]. exists fuel. exact H. }
  destruct (Z.eqb_spec (tag mod 8) 3) as [W3|W3].
  { right; right; right; right; left. split; [exact W3|]. exists fuel. exact H. }
  destruct (Z.eqb_spec (tag mod 8) 4) as [W4|W4]; [|discriminate].
  right; right; right; right; right. split; [exact W4|]. destruct gs as [|g gs]; [discriminate|].
  destruct (g =? tag / 8); [|discriminate]. exists g, gs. split; [reflexivity|]. exists fuel. exact H.
Qed.

Section Restoring.
Variable ids : list node_id.
Hypothesis ids_unique : NoDup ids.
Variable hl : bool.
Variables num_records max_size : Z.
Notation Inv := (Inv ids hl num_records max_size).
Notation bufs_of := (bufs_of ids hl).
Notation fits := (fits ids hl).
Notation handle := (handle ids hl num_records max_size).

Lemma fits_push id st c : fits (push_tag id st c) -> fits c.
Proof. destruct (push_tag_spec id st c) as (P1 & P2 & _). unfold TransposeColumns.fits, nodes. rewrite P1, P2. auto. Qed.
Lemma fits_write type id data c : fits (write_data type id data c) -> fits c /\ In id ids.
Proof.
  unfold TransposeColumns.fits, nodes, write_data; cbn [c_buffers c_lengths]. intros [F1 F2].
  destruct (prepend_nodes type id data (c_buffers c)) as [[N1 N2]|[N1 N2]]; rewrite N2 in F1.
  - split; [split; assumption|]. apply F1, N1.
  - split; [split; [|assumption]|]; [intros x Hx; apply F1, in_or_app; auto|apply F1, in_or_app; right; left; reflexivity].
Qed.
Lemma entries_push id st c : wf c -> entries (push_tag id st c) = entries c ++ [(id, st)].
Proof.
  intros W. destruct (push_tag_spec id st c) as (P1 & P2 & (pos & P3 & P4) & P5).
  eapply entries_app; [exact W|eapply or_extends, P5|exact P3|exact P4].
Qed.
Lemma Inv_extends c c' P frames starts : wf c -> extends c c' -> c_encoded c' = c_encoded c -> c_buffers c' = c_buffers c -> c_lengths c' = c_lengths c ->
  Inv c P frames starts -> Inv c' P frames starts.
Proof.
  intros W [x X] E2 E3 E4. unfold TransposeColumns.Inv, TransposeColumns.fits, nodes, TransposeColumns.bufs_of. rewrite E3, E4.
  replace (entries c') with (entries c); [auto|]. unfold entries. rewrite E2. pose proof (wf_enc c W) as F. apply map_ext_in. intros i Hi.
  rewrite Forall_forall in F. rewrite X, app_nth1 by (apply F, Hi). reflexivity.
Qed.
Lemma bufs_push id st c : bufs_of (push_tag id st c) = bufs_of c.
Proof. destruct (push_tag_spec id st c) as (P1 & P2 & _). apply bufs_tags; assumption. Qed.

(** A tag without data *)
Lemma Inv_copy id st c P new frames starts : wf c -> entry_callback ids (id, st) = CCopyTag new -> bytes new ->
  Inv c P frames starts -> Inv (push_tag id st c) (P ++ new) frames starts.
Proof.
  intros W E B H0. apply (Inv_step ids hl num_records max_size c (push_tag id st c) (id, st) P new frames frames starts starts); try assumption.
  - apply entries_push, W.
  - apply fits_push.
  - intros _ D L HB HD HL. exists []. split; [rewrite app_nil_r; reflexivity|]. pose proof (zlen_nonneg P) as LP.
    unfold TransposeColumns.handle. rewrite E. cbn [HandleNode]. rewrite write_ok by (rewrite zlen_app in HD; lia).
    rewrite bufs_push. reflexivity.
Qed.
(** A tag with data *)
Lemma Inv_data type id st data c P new frames starts : wf c -> bytes new ->
  (forall D st' L, In id ids -> bytes D -> zlen D + zlen new <= max_size ->
     handle (id, st) {| g_buffers := bufs_of (write_data type id data c); g_dest := D; g_stack := st'; g_limits := L |} =
     Some {| g_buffers := bufs_of c; g_dest := new ++ D; g_stack := st'; g_limits := L |}) ->
  Inv c P frames starts -> Inv (write_data type id data (push_tag id st c)) (P ++ new) frames starts.
Proof.
  intros W B E H0.
  apply (Inv_step ids hl num_records max_size c (write_data type id data (push_tag id st c)) (id, st) P new frames frames starts starts); try assumption.
  - change (entries (write_data type id data (push_tag id st c))) with (entries (push_tag id st c)). apply entries_push, W.
  - intros F. apply fits_write in F. destruct F as [F _]. apply fits_push in F. exact F.
  - intros F D L HB HD HL. exists []. split; [rewrite app_nil_r; reflexivity|]. pose proof (zlen_nonneg P) as LP. apply fits_write in F. destruct F as [_ F].
    rewrite <- (E D _ L F HB) by (rewrite zlen_app in HD; lia). f_equal. f_equal.
    destruct (push_tag_spec id st c) as (P1 & P2 & _). apply bufs_tags; unfold write_data; cbn [c_buffers c_lengths]; [rewrite P1|]; auto.
Qed.

Lemma callback_varint parent tag st : 8 <= tag -> tag mod 8 = 0 -> 0 <= st < 10 ->
  entry_callback ids ((parent, tag), st) = CVarint (WriteVarint V32 tag) (st + 1) (index_of ids (parent, tag)).
Proof.
  intros Ht Hw Hs. unfold entry_callback, GetCallbackType, HasDataBuffer, GetTagWireType, kVarintInlineMax, kVarintInline0. rewrite Hw.
  destruct (Z.eqb_spec tag 0); [lia|]. cbn [Z.eqb wVarint wLengthDelimited andb].
  destruct (Z.ltb_spec 137 st); [lia|]. destruct (Z.ltb_spec st 10); [|lia]. destruct (Z.leb_spec 10 st); [lia|].
  f_equal. unfold kVarint1. lia.
Qed.
Lemma callback_inline parent tag st : 8 <= tag -> tag mod 8 = 0 -> 10 <= st <= 137 ->
  entry_callback ids ((parent, tag), st) = CCopyTag (WriteVarint V32 tag ++ [st - 10]).
Proof.
  intros Ht Hw Hs. unfold entry_callback, GetCallbackType, HasDataBuffer, GetTagWireType, kVarintInlineMax, kVarintInline0. rewrite Hw.
  destruct (Z.eqb_spec tag 0); [lia|]. cbn [Z.eqb wVarint wLengthDelimited andb].
  destruct (Z.ltb_spec 137 st); [lia|]. destruct (Z.leb_spec 10 st); [reflexivity|lia].
Qed.
Lemma callback_fixed parent tag n : 8 <= tag -> tag mod 8 = 5 /\ n = 4 \/ tag mod 8 = 1 /\ n = 8 ->
  entry_callback ids ((parent, tag), 0) = CFixed (WriteVarint V32 tag) n (index_of ids (parent, tag)).
Proof.
  intros Ht Hw. unfold entry_callback, GetCallbackType, HasDataBuffer, GetTagWireType.
  destruct (Z.eqb_spec tag 0); [lia|]. destruct Hw as [[-> ->]|[-> ->]]; reflexivity.
Qed.
Lemma callback_string parent tag : 8 <= tag -> tag mod 8 = 2 ->
  entry_callback ids ((parent, tag), 0) = CString (WriteVarint V32 tag) (index_of ids (parent, tag)).
Proof.
  intros Ht Hw. unfold entry_callback, GetCallbackType, HasDataBuffer, GetTagWireType. destruct (Z.eqb_spec tag 0); [lia|]. rewrite Hw. reflexivity.
Qed.
Lemma callback_start parent tag : 8 <= tag -> tag mod 8 = 2 -> entry_callback ids ((parent, tag), 1) = CSubmessageStart.
Proof.
  intros Ht Hw. unfold entry_callback, GetCallbackType, HasDataBuffer, GetTagWireType. destruct (Z.eqb_spec tag 0); [lia|]. rewrite Hw. reflexivity.
Qed.
Lemma callback_end parent tag : 8 <= tag -> tag mod 8 = 2 -> entry_callback ids ((parent, tag), 2) = CSubmessageEnd (WriteVarint V32 tag).
Proof.
  intros Ht Hw. unfold entry_callback, GetCallbackType, HasDataBuffer, GetTagWireType. destruct (Z.eqb_spec tag 0); [lia|]. rewrite Hw. reflexivity.
Qed.
Lemma callback_group parent tag : 8 <= tag -> tag mod 8 = 3 \/ tag mod 8 = 4 -> entry_callback ids ((parent, tag), 0) = CCopyTag (WriteVarint V32 tag).
Proof.
  intros Ht Hw. unfold entry_callback, GetCallbackType, HasDataBuffer, GetTagWireType. destruct (Z.eqb_spec tag 0); [lia|]. destruct Hw as [-> | ->]; reflexivity.
Qed.

Lemma tag_bytes tag : 8 <= tag < 2 ^ 32 -> bytes (WriteVarint V32 tag).
Proof. intros H. apply WriteVarint_bytes; [apply V32_ok|cbn [vbits V32]; lia]. Qed.

Lemma Inv_varint parent tag init b c P frames starts : wf c -> 8 <= tag < 2 ^ 32 -> tag mod 8 = 0 -> Forall cont init -> 0 <= b < 128 -> (length init < 10)%nat ->
  Inv c P frames starts ->
  Inv (write_data 0 (parent, tag) (map (fun byte => Z.land byte 127) (init ++ [b])) (push_tag (parent, tag) (kVarint1 + (Z.of_nat (S (length init)) - 1)) c))
    (P ++ WriteVarint V32 tag ++ init ++ [b]) frames starts.
Proof.
  intros W Ht Hw Hi Hb Hl. assert (Bi : bytes (init ++ [b])) by (apply is_varint_bytes; exists init, b; auto).
  apply Inv_data; [assumption|apply bytes_app; split; [apply tag_bytes, Ht|assumption]|].
  intros D st' L Hid HB HD. unfold TransposeColumns.handle, kVarint1. rewrite callback_varint by lia. cbn [HandleNode].
  replace (0 + (Z.of_nat (S (length init)) - 1) + 1) with (zlen (map (fun byte => Z.land byte 127) (init ++ [b])))
    by (rewrite zlen_map; unfold zlen; rewrite app_length; cbn [length]; lia).
  rewrite read_front by assumption. rewrite MaskBuffer_cont by assumption. apply write_ok. exact HD.
Qed.
Lemma Inv_fixed type parent tag data n c P frames starts : wf c -> 8 <= tag < 2 ^ 32 -> tag mod 8 = 5 /\ n = 4 \/ tag mod 8 = 1 /\ n = 8 -> zlen data = n -> bytes data ->
  Inv c P frames starts ->
  Inv (write_data type (parent, tag) data (push_tag (parent, tag) kTrivial c)) (P ++ WriteVarint V32 tag ++ data) frames starts.
Proof.
  intros W Ht Hw Hn Hb. apply Inv_data; [assumption|apply bytes_app; split; [apply tag_bytes, Ht|assumption]|].
  intros D st' L Hid HB HD. unfold TransposeColumns.handle, kTrivial. pose proof (callback_fixed parent tag n (proj1 Ht) Hw) as CB. unfold node_id in *. rewrite CB. cbn [HandleNode].
  rewrite <- Hn, read_front by assumption. apply write_ok. exact HD.
Qed.
Lemma Inv_string parent tag len data c P frames starts : wf c -> 8 <= tag < 2 ^ 32 -> tag mod 8 = 2 -> zlen data = len ->
  zlen (WriteVarint V32 len) + len < 2 ^ 32 -> bytes data ->
  Inv c P frames starts ->
  Inv (write_data 3 (parent, tag) (WriteVarint V32 len ++ data) (push_tag (parent, tag) kLengthDelimitedString c))
    (P ++ WriteVarint V32 tag ++ WriteVarint V32 len ++ data) frames starts.
Proof.
  intros W Ht Hw Hn Hsz Hb. pose proof (zlen_nonneg data). pose proof (WriteVarint_pos V32 len).
  assert (Bl : bytes (WriteVarint V32 len)) by (apply WriteVarint_bytes; [apply V32_ok|cbn [vbits V32]; lia]).
  apply Inv_data; [assumption|apply bytes_app; split; [apply tag_bytes, Ht|apply bytes_app; auto]|].
  intros D st' L Hid HB HD. unfold TransposeColumns.handle, kLengthDelimitedString. rewrite callback_string by (try assumption; lia). cbn [HandleNode].
  destruct (bufs_write ids ids_unique hl 3 (parent, tag) (WriteVarint V32 len ++ data) c Hid) as [E1 _]. cbn [g_buffers]. rewrite E1.
  rewrite <- app_assoc, ReadVarintArray_Write;
    [|apply V32_ok|cbn [vbits V32]; lia|apply bytes_app; split; [assumption|apply data_of_bytes, (wf_data c W)]].
  change (Z.of_nat (length (WriteVarint V32 len))) with (zlen (WriteVarint V32 len)).
  destruct (Z.ltb_spec (2 ^ 32 - 1 - zlen (WriteVarint V32 len)) len); [lia|].
  replace (zlen (WriteVarint V32 len) + len) with (zlen (WriteVarint V32 len ++ data)) by (rewrite zlen_app; lia).
  rewrite read_front by assumption. rewrite zlen_app in HD. pose proof (WriteVarint_pos V32 tag).
  rewrite write_ok by lia. rewrite write_ok by (rewrite zlen_app; lia). rewrite <- !app_assoc. reflexivity.
Qed.
(** A submessage *)
Lemma Inv_sub_start parent tag len c P frames starts : wf c -> 8 <= tag < 2 ^ 32 -> tag mod 8 = 2 -> 0 <= len < 2 ^ 32 ->
  Inv c P frames starts ->
  Inv (push_tag (parent, tag) kLengthDelimitedStartOfSubmessage c) (P ++ WriteVarint V32 tag ++ WriteVarint V32 len)
    ((tag, zlen (P ++ WriteVarint V32 tag ++ WriteVarint V32 len) + len) :: frames) starts.
Proof.
  intros W Ht Hw Hl H0. set (id := (parent, tag)) in *. set (st := kLengthDelimitedStartOfSubmessage).
  assert (Bl : bytes (WriteVarint V32 len)) by (apply WriteVarint_bytes; [apply V32_ok|cbn [vbits V32]; lia]).
  apply (Inv_step ids hl num_records max_size c (push_tag id st c) (id, st) P (WriteVarint V32 tag ++ WriteVarint V32 len) frames
    ((tag, zlen (P ++ WriteVarint V32 tag ++ WriteVarint V32 len) + len) :: frames) starts starts); try assumption.
  - apply entries_push, W.
  - apply fits_push.
  - apply bytes_app; split; [apply tag_bytes, Ht|assumption].
  - intros _ D L HB HD HL. exists []. split; [rewrite app_nil_r; reflexivity|]. pose proof (zlen_nonneg P) as LP.
    unfold TransposeColumns.handle, id, st, kLengthDelimitedStartOfSubmessage. rewrite callback_start by (try assumption; lia).
    cbn [HandleNode at_end map g_stack fst snd g_dest]. fold (at_end (zlen (P ++ WriteVarint V32 tag ++ WriteVarint V32 len) + zlen D) frames).
    replace (zlen D - (zlen (P ++ WriteVarint V32 tag ++ WriteVarint V32 len) + zlen D - (zlen (P ++ WriteVarint V32 tag ++ WriteVarint V32 len) + len)))
      with len by lia.
    destruct (Z.ltb_spec (2 ^ 32 - 1) len); [lia|]. unfold set_stack; cbn [g_buffers g_dest g_limits].
    pose proof (zlen_nonneg P). rewrite write_ok by (rewrite zlen_app in HD; lia). rewrite bufs_push. reflexivity.
Qed.
Lemma Inv_sub_end parent tag pos c P frames starts : wf c -> nth_error (c_tags c) pos = Some ((parent, tag), 2) -> 8 <= tag < 2 ^ 32 -> tag mod 8 = 2 ->
  Inv c P ((tag, zlen P) :: frames) starts -> Inv (push_pos pos c) P frames starts.
Proof.
  intros W N Ht Hw H0. set (id := (parent, tag)) in *.
  assert (X : Inv (push_pos pos c) (P ++ []) frames starts); [|rewrite app_nil_r in X; exact X].
  apply (Inv_step ids hl num_records max_size c (push_pos pos c) (id, 2) P [] ((tag, zlen P) :: frames) frames starts starts); try assumption.
  - eapply entries_app; [exact W|exists []; rewrite app_nil_r; reflexivity|reflexivity|exact N].
  - auto.
  - constructor.
  - intros _ D L HB HD HL. exists []. split; [rewrite app_nil_r; reflexivity|]. pose proof (zlen_nonneg P) as LP.
    unfold TransposeColumns.handle, id. rewrite callback_end by (try assumption; lia). cbn [HandleNode]. rewrite app_nil_r. unfold set_stack.
    cbn [g_buffers g_dest g_limits g_stack at_end map fst snd app]. replace (zlen P + zlen D - zlen P) with (zlen D) by lia. reflexivity.
Qed.

(** Sizes of columns: [p] bytes, [nf] open submessages, [ns] records *)
Definition sized (c : columns) (p nf ns : Z) : Prop :=
  total_size (c_buffers c) <= p /\ zlen (c_lengths c) <= 10 * p /\ zlen (c_tags c) <= ns + 2 * p /\ zlen (c_encoded c) + nf <= ns + 2 * p.
Lemma total_prepend type id data l : total_size (prepend_to type id data l) = zlen data + total_size l.
Proof.
  unfold total_size. induction l as [|b l IH]; cbn [prepend_to fold_right b_data]; [lia|].
  destruct (node_eqb (b_node b) id); cbn [fold_right b_data]; rewrite ?zlen_app; lia.
Qed.
Lemma push_sizes id st c :
  total_size (c_buffers (push_tag id st c)) = total_size (c_buffers c) /\ zlen (c_lengths (push_tag id st c)) = zlen (c_lengths c) /\
  zlen (c_tags (push_tag id st c)) <= zlen (c_tags c) + 1 /\ zlen (c_encoded (push_tag id st c)) = zlen (c_encoded c) + 1.
Proof.
  destruct (push_tag_spec id st c) as (P1 & P2 & (pos & P3 & _) & P5). rewrite P1, P2, P3, zlen_app.
  repeat split. destruct P5 as [->| ->]; rewrite ?zlen_app; change (zlen [(id, st)]) with 1; lia.
Qed.
Lemma sized_push id st c p nf ns d : sized c p nf ns -> 1 <= d -> sized (push_tag id st c) (p + d) nf ns.
Proof. intros (S1 & S2 & S3 & S4) Hd. destruct (push_sizes id st c) as (P1 & P2 & P3 & P4). unfold sized. rewrite P1, P2, P4. repeat split; lia. Qed.
Lemma sized_write type id data c p nf ns d : sized c p nf ns -> zlen data <= d -> sized (write_data type id data c) (p + d) nf ns.
Proof.
  intros (S1 & S2 & S3 & S4) Hd. unfold sized, write_data; cbn [c_buffers c_lengths c_tags c_encoded]. rewrite total_prepend.
  pose proof (zlen_nonneg data). repeat split; lia.
Qed.
Lemma sized_mono c c' p p' nf ns : c_tags c' = c_tags c -> c_encoded c' = c_encoded c -> c_buffers c' = c_buffers c -> c_lengths c' = c_lengths c ->
  sized c p nf ns -> p <= p' -> sized c' p' nf ns.
Proof. intros E1 E2 E3 E4. unfold sized. rewrite E1, E2, E3, E4. intros; repeat split; lia. Qed.

Fixpoint frames_ok (c : columns) (pos : Z) (messages : list frame) (gss : list (list Z)) (tes : list (Z * Z)) : Prop :=
  match messages, gss, tes with
  | [], [], [] => True
  | f :: messages, gs :: gss, (tag, e) :: tes =>
      e = pos /\ (exists parent, nth_error (c_tags c) (f_end f) = Some ((parent, tag), 2)) /\ 8 <= tag < 2 ^ 32 /\ tag mod 8 = 2 /\
      proto gs (f_after f) /\ bytes (f_after f) /\ frames_ok c (pos + zlen (f_after f)) messages gss tes
  | _, _, _ => False
  end.
Lemma frames_ok_extends c c' : extends c c' -> forall messages pos gss tes, frames_ok c pos messages gss tes -> frames_ok c' pos messages gss tes.
Proof.
  intros X. induction messages as [|f messages IH]; intros pos gss tes; destruct gss as [|gs gss], tes as [|[tag e] tes]; cbn [frames_ok]; try tauto.
  intros (H1 & (parent & H2) & H3 & H4 & H5 & H6 & H7). repeat (split; [assumption|]). split; [exists parent; eapply extends_nth; eassumption|].
  repeat (split; [assumption|]). apply IH, H7.
Qed.
Definition rest_of (record : list Z) (messages : list frame) : list Z := record ++ concat (map f_after messages).
Lemma good_field parent tag st : 8 <= tag < 2 ^ 32 ->
  ((tag mod 8 = 0 /\ 0 <= st <= 13) \/ ((tag mod 8 = 1 \/ tag mod 8 = 3 \/ tag mod 8 = 4 \/ tag mod 8 = 5) /\ st = 0) \/
    (tag mod 8 = 2 /\ 0 <= st <= 2)) -> good_tag ((parent, tag), st).
Proof. intros H1 H2. right. auto. Qed.

Lemma add_message_ok fuel : forall parent record messages groups c P gs gss tes starts,
  wf c -> bytes record -> proto gs record -> frames_ok c (zlen P + zlen record) messages gss tes ->
  zlen groups = zlen gs + zlen (concat gss) ->
  2 * zlen (rest_of record messages) + zlen messages + 1 <= Z.of_nat fuel -> zlen (rest_of record messages) < 2 ^ 32 ->
  Inv c P tes starts -> sized c (zlen P) (zlen messages) (zlen starts) ->
  exists cf, add_message fuel parent record messages groups c = Some cf /\ wf cf /\ Inv cf (P ++ rest_of record messages) [] starts /\
    sized cf (zlen (P ++ rest_of record messages)) 0 (zlen starts).
Proof.
  induction fuel as [|fuel IH]; intros parent record messages groups c P gs gss tes starts W Hb Hp Hf Hg Hfu Hsz H0 HS.
  { pose proof (zlen_nonneg messages). pose proof (zlen_nonneg (rest_of record messages)). lia. }
  destruct (proto_inv _ _ Hb Hp) as [[-> ->]|(tag & r1 & Er & Hb1 & Ht & Hrd & Hcase)].
  - (* the end of a message *)
    cbn [add_message]. destruct messages as [|f messages].
    { destruct gss as [|gs1 gss]; [|destruct tes as [|[? ?] ?]; contradiction]. destruct tes as [|[t e] tes]; [|contradiction].
      destruct groups as [|g groups]; [|pose proof (zlen_nonneg groups); rewrite zlen_cons in Hg; cbn [concat] in Hg; change (zlen (@nil Z)) with 0 in Hg; lia].
      exists c. split; [reflexivity|]. unfold rest_of. cbn [app map concat]. rewrite app_nil_r. auto. }
    destruct gss as [|gs1 gss]; [destruct tes as [|[? ?] ?]; contradiction|]. destruct tes as [|[t e] tes]; [contradiction|].
    cbn [frames_ok] in Hf. destruct Hf as (He & (par & Hn) & Ht & Hw & Hp1 & Hb1 & Hf). change (zlen (@nil Z)) with 0 in *. rewrite Z.add_0_r in He, Hf. subst e.
    unfold rest_of in *. cbn [app map concat] in *. rewrite zlen_cons in *.
    apply IH with (gs := gs1) (gss := gss) (tes := tes); try assumption.
    + eapply wf_push_pos; eassumption.
    + eapply (frames_ok_extends c); [exists []; rewrite app_nil_r; reflexivity|exact Hf].
    + rewrite zlen_app in Hg. lia.
    + lia.
    + eapply Inv_sub_end; eassumption.
    + destruct HS as (S1 & S2 & S3 & S4). unfold sized, push_pos; cbn [c_buffers c_lengths c_tags c_encoded]. rewrite zlen_app. change (zlen [f_end f]) with 1.
      repeat split; try assumption; lia.
  - (* a field *)
    cbn [add_message]. assert (Hne : record <> []) by (rewrite Er; intros Q; apply app_eq_nil in Q; destruct Q as [Q _]; eapply WriteVarint_nonempty, Q).
    destruct record as [|b0 record0] eqn:Erec; [contradiction|]. rewrite <- Erec in *. clear b0 record0 Erec Hne. rewrite Hrd.
    pose proof (WriteVarint_pos V32 tag) as Lt. pose proof (tag_bytes tag Ht) as Btag.
    assert (Elen : zlen record = zlen (WriteVarint V32 tag) + zlen r1) by (rewrite Er, zlen_app; reflexivity).
    destruct (GetNode (parent, tag) c) as [message_id c1] eqn:EN. pose proof (wf_GetNode _ _ _ _ EN W) as W1.
    destruct (GetNode_spec _ _ _ _ EN) as (G1 & G2 & G3 & G4). pose proof (Inv_same ids hl num_records max_size c c1 P tes starts G1 G2 G3 G4 H0) as I1.
    assert (S1 : sized c1 (zlen P) (zlen messages) (zlen starts)) by (eapply sized_mono; try eassumption; lia).
    assert (X1 : extends c c1) by (exists []; rewrite app_nil_r; exact G1). clear W H0 HS G1 G2 G3 G4 EN Hrd.
    assert (Hr : forall a r', r1 = a ++ r' -> rest_of record messages = (WriteVarint V32 tag ++ a) ++ rest_of r' messages).
    { intros a r' E. unfold rest_of. rewrite Er, E, <- !app_assoc. reflexivity. }
    assert (Hx : forall a r', r1 = a ++ r' -> zlen P + zlen record = zlen (P ++ WriteVarint V32 tag ++ a) + zlen r').
    { intros a r' E. rewrite Elen, E, !zlen_app. lia. }
    assert (Hz : forall a r', r1 = a ++ r' -> zlen (rest_of record messages) = zlen (WriteVarint V32 tag) + zlen a + zlen (rest_of r' messages)).
    { intros a r' E. rewrite (Hr a r' E), !zlen_app. reflexivity. }
    unfold GetTagWireType, wVarint, wFixed32, wFixed64, wLengthDelimited, wStartGroup, wEndGroup in *.
    destruct Hcase as [(Hw & n & Hsk & Hp1)|[(Hw & Hl4 & Hp1)|[(Hw & Hl8 & Hp1)|[(Hw & len & v & Hrl & Hlv & Hp1)|[(Hw & Hp1)|(Hw & g & gs' & -> & Hp1)]]]]];
      rewrite Hw; cbn [Z.eqb Pos.eqb].
    + (* varint *)
      destruct (skip64 r1 n Hb1 Hsk) as (Hsk2 & init & b & E1 & E2 & E3 & E4 & E5 & E6). rewrite Hsk2, E2.
      set (r2 := skipn (S n) r1) in *. assert (Bi : bytes (init ++ [b])) by (apply is_varint_bytes; exists init, b; auto).
      assert (B2 : bytes r2) by (rewrite E1 in Hb1; apply bytes_app in Hb1; tauto).
      assert (Li : zlen (init ++ [b]) = Z.of_nat (S n)) by (unfold zlen; rewrite app_length; cbn [length]; lia).
      assert (Hrr := Hr _ _ E1). assert (Hxx := Hx _ _ E1). assert (Hzz := Hz _ _ E1). rewrite Hrr, app_assoc.
      assert (Zl : zlen (P ++ WriteVarint V32 tag ++ init ++ [b]) = zlen P + (zlen (WriteVarint V32 tag) + zlen (init ++ [b]))) by (rewrite !zlen_app; lia).
      destruct (Z.leb_spec (nth 0 (init ++ [b]) 0) kMaxVarintInline) as [Q|Q].
      * assert (init = []) as ->.
        { destruct init as [|x init]; [reflexivity|]. apply Forall_inv in E4. red in E4. cbn [app nth] in Q. unfold kMaxVarintInline in Q. lia. }
        cbn [app nth] in *. unfold kMaxVarintInline, kVarintInline0 in *.
        assert (Ex : extends c1 (push_tag (parent, tag) (10 + b) c1)) by (destruct (push_tag_spec (parent, tag) (10 + b) c1) as (_ & _ & _ & X); eapply or_extends, X).
        eapply IH with (gs := gs) (gss := gss) (tes := tes); try assumption; try lia.
        -- apply wf_push_tag; [apply good_field; [assumption|left; lia]| |assumption]. intros [[N _]|[_ [[_ N]|[N|[N|[N _]]]]]]; lia.
        -- rewrite <- Hxx. eapply frames_ok_extends; [|exact Hf]. eapply extends_trans; eassumption.
        -- eapply Inv_copy; [assumption| |apply bytes_app; auto|exact I1].
           rewrite callback_inline by lia. do 3 f_equal; lia.
        -- rewrite Zl. eapply sized_push; [exact S1|lia].
      * set (st := kVarint1 + (Z.of_nat (S n) - 1)). set (value := map (fun byte => Z.land byte 127) (init ++ [b])).
        assert (Ex : extends c1 (push_tag (parent, tag) st c1)) by (destruct (push_tag_spec (parent, tag) st c1) as (_ & _ & _ & X); eapply or_extends, X).
        eapply IH with (gs := gs) (gss := gss) (tes := tes); try assumption; try lia.
        -- apply wf_field; try assumption; [apply good_field; [assumption|left; unfold st, kVarint1; lia]|left; cbn [snd]; lia|lia| |].
           ++ unfold value. destruct init; discriminate.
           ++ unfold value. apply Forall_forall. intros x Hx'. apply in_map_iff in Hx'. destruct Hx' as (y & <- & Hy).
              pose proof (land_ones_mod y 7 ltac:(lia)) as LL. change (2 ^ 7 - 1) with 127 in LL. rewrite LL. change (2 ^ 7) with 128.
              pose proof (Z.mod_pos_bound y 128 ltac:(lia)). red. lia.
        -- rewrite <- Hxx. eapply (frames_ok_extends c); [|exact Hf]. eapply extends_trans; eassumption.
        -- subst n. apply Inv_varint; assumption.
        -- rewrite Zl. replace (zlen P + (zlen (WriteVarint V32 tag) + zlen (init ++ [b]))) with (zlen P + zlen (WriteVarint V32 tag) + zlen (init ++ [b])) by lia.
           apply sized_write; [apply sized_push; [exact S1|lia]|unfold value; rewrite zlen_map; lia].
    + (* fixed32 *)
      destruct (Z.ltb_spec (zlen r1) 4); [lia|]. assert (E1 : r1 = ztake 4 r1 ++ zdrop 4 r1) by (symmetry; apply ztake_zdrop).
      assert (L4 : zlen (ztake 4 r1) = 4) by (rewrite zlen_ztake; lia).
      assert (Hrr := Hr _ _ E1). assert (Hxx := Hx _ _ E1). assert (Hzz := Hz _ _ E1). rewrite Hrr, app_assoc.
      assert (Zl : zlen (P ++ WriteVarint V32 tag ++ ztake 4 r1) = zlen P + zlen (WriteVarint V32 tag) + zlen (ztake 4 r1)) by (rewrite !zlen_app; lia).
      assert (Ex : extends c1 (push_tag (parent, tag) kTrivial c1)) by (destruct (push_tag_spec (parent, tag) kTrivial c1) as (_ & _ & _ & X); eapply or_extends, X).
      eapply IH with (gs := gs) (gss := gss) (tes := tes); try assumption; try lia.
      * apply wf_field; try assumption; [apply good_field; [assumption|right; left; unfold kTrivial; split; [tauto|reflexivity]]|left; cbn [snd]; lia|lia| |].
        -- intros Q. rewrite Q in L4. discriminate.
        -- apply bytes_ztake, Hb1.
      * apply bytes_zdrop, Hb1.
      * rewrite <- Hxx. eapply (frames_ok_extends c); [|exact Hf]. eapply extends_trans; eassumption.
      * eapply Inv_fixed; try eassumption; [left; split; [exact Hw|reflexivity]|apply bytes_ztake, Hb1].
      * rewrite Zl. apply sized_write; [apply sized_push; [exact S1|lia]|lia].
    + (* fixed64 *)
      destruct (Z.ltb_spec (zlen r1) 8); [lia|]. assert (E1 : r1 = ztake 8 r1 ++ zdrop 8 r1) by (symmetry; apply ztake_zdrop).
      assert (L4 : zlen (ztake 8 r1) = 8) by (rewrite zlen_ztake; lia).
      assert (Hrr := Hr _ _ E1). assert (Hxx := Hx _ _ E1). assert (Hzz := Hz _ _ E1). rewrite Hrr, app_assoc.
      assert (Zl : zlen (P ++ WriteVarint V32 tag ++ ztake 8 r1) = zlen P + zlen (WriteVarint V32 tag) + zlen (ztake 8 r1)) by (rewrite !zlen_app; lia).
      assert (Ex : extends c1 (push_tag (parent, tag) kTrivial c1)) by (destruct (push_tag_spec (parent, tag) kTrivial c1) as (_ & _ & _ & X); eapply or_extends, X).
      eapply IH with (gs := gs) (gss := gss) (tes := tes); try assumption; try lia.
      * apply wf_field; try assumption; [apply good_field; [assumption|right; left; unfold kTrivial; split; [tauto|reflexivity]]|left; cbn [snd]; lia|lia| |].
        -- intros Q. rewrite Q in L4. discriminate.
        -- apply bytes_ztake, Hb1.
      * apply bytes_zdrop, Hb1.
      * rewrite <- Hxx. eapply (frames_ok_extends c); [|exact Hf]. eapply extends_trans; eassumption.
      * eapply Inv_fixed; try eassumption; [right; split; [exact Hw|reflexivity]|apply bytes_ztake, Hb1].
      * rewrite Zl. apply sized_write; [apply sized_push; [exact S1|lia]|lia].
    + (* length-delimited *)
      destruct (canonical32 _ _ _ Hb1 Hrl) as (C1 & C2 & C3 & C4). rewrite C3. destruct (Z.ltb_spec (zlen v) len); [lia|].
      pose proof (WriteVarint_pos V32 len) as Ll. assert (Bl : bytes (WriteVarint V32 len)) by (apply WriteVarint_bytes; [apply V32_ok|cbn [vbits V32]; lia]).
      assert (Lv : zlen (ztake len v) = len) by (rewrite zlen_ztake; lia).
      destruct ((0 <? len) && (zlen messages + zlen groups <? kMaxRecursionDepth) && IsProtoMessage (ztake len v)) eqn:Q.
      * (* a submessage *)
        apply andb_true_iff in Q. destruct Q as [_ Q]. set (st := kLengthDelimitedStartOfSubmessage).
        destruct (GetPosInTagsList (parent, tag) kLengthDelimitedEndOfSubmessage (push_tag (parent, tag) st c1)) as [end_pos c2] eqn:EP.
        destruct (GetPos_spec _ _ _ _ _ EP) as (G1 & G2 & G3 & G4 & G5).
        assert (Ex : extends c1 (push_tag (parent, tag) st c1)) by (destruct (push_tag_spec (parent, tag) st c1) as (_ & _ & _ & X); eapply or_extends, X).
        assert (Ex2 : extends (push_tag (parent, tag) st c1) c2) by (eapply or_extends, G5).
        assert (W2 : wf (push_tag (parent, tag) st c1)).
        { apply wf_push_tag; [apply good_field; [assumption|right; right; unfold st, kLengthDelimitedStartOfSubmessage; lia]| |assumption].
          unfold st, kLengthDelimitedStartOfSubmessage. intros [[N _]|[_ [[N _]|[N|[N|[_ N]]]]]]; lia. }
        assert (Hrr : rest_of record messages = (WriteVarint V32 tag ++ WriteVarint V32 len) ++
                  rest_of (ztake len v) ({| f_end := end_pos; f_parent := parent; f_after := zdrop len v |} :: messages)).
        { unfold rest_of. cbn [map concat f_after]. rewrite Er, C1, <- !app_assoc. do 2 f_equal. rewrite app_assoc, ztake_zdrop. reflexivity. }
        assert (Hzz := f_equal (@zlen Z) Hrr). rewrite !zlen_app in Hzz. rewrite Hrr, app_assoc.
        assert (Zl : zlen (P ++ WriteVarint V32 tag ++ WriteVarint V32 len) = zlen P + zlen (WriteVarint V32 tag) + zlen (WriteVarint V32 len)) by (rewrite !zlen_app; lia).
        eapply IH with (gs := []) (gss := gs :: gss) (tes := (tag, zlen (P ++ WriteVarint V32 tag ++ WriteVarint V32 len) + len) :: tes).
        -- eapply wf_GetPos; [exact EP|apply good_field; [assumption|right; right; unfold kLengthDelimitedEndOfSubmessage; lia]| |exact W2].
           unfold kLengthDelimitedEndOfSubmessage. intros [[N _]|[_ [[N _]|[N|[N|[_ N]]]]]]; lia.
        -- apply bytes_ztake, C4.
        -- eexists. exact Q.
        -- cbn [frames_ok f_end f_after]. split; [lia|]. split; [exists parent; exact G4|]. split; [exact Ht|]. split; [exact Hw|]. split; [exact Hp1|].
           split; [apply bytes_zdrop, C4|]. eapply (frames_ok_extends c); [eapply extends_trans; [exact X1|eapply extends_trans; eassumption]|].
           replace (zlen (P ++ WriteVarint V32 tag ++ WriteVarint V32 len) + zlen (ztake len v) + zlen (zdrop len v)) with (zlen P + zlen record); [exact Hf|].
           rewrite Elen, C1, <- (ztake_zdrop len v) at 1. rewrite !zlen_app. lia.
        -- cbn [concat]. change (zlen (@nil Z)) with 0. rewrite zlen_app. lia.
        -- rewrite zlen_cons. lia.
        -- lia.
        -- eapply (Inv_extends (push_tag (parent, tag) st c1)); try assumption. apply Inv_sub_start; try assumption. 
        -- rewrite Zl, zlen_cons. destruct (push_sizes (parent, tag) st c1) as (P1 & P2 & P3 & P4). destruct S1 as (S1 & S2 & S3 & S4).
           unfold sized. rewrite G1, G2, G3, P1, P2, P4. repeat split; try lia. 
           destruct G5 as [->| ->]; rewrite ?zlen_app; change (zlen [(parent, tag, kLengthDelimitedEndOfSubmessage)]) with 1; lia.
      * (* a string *)
        clear Q. assert (E1 : r1 = (WriteVarint V32 len ++ ztake len v) ++ zdrop len v) by (rewrite C1, <- app_assoc, ztake_zdrop; reflexivity).
        assert (Ec : ztake (zlen r1 - zlen v + len) r1 = WriteVarint V32 len ++ ztake len v).
        { rewrite E1 at 2. replace (zlen r1 - zlen v + len) with (zlen (WriteVarint V32 len ++ ztake len v)); [apply ztake_app_exact|].
          rewrite C1, !zlen_app. lia. }
        rewrite Ec. assert (Hrr := Hr _ _ E1). assert (Hxx := Hx _ _ E1). assert (Hzz := Hz _ _ E1). rewrite Hrr, app_assoc.
        assert (Zl : zlen (P ++ WriteVarint V32 tag ++ WriteVarint V32 len ++ ztake len v) =
                     zlen P + zlen (WriteVarint V32 tag) + zlen (WriteVarint V32 len ++ ztake len v)) by (rewrite !zlen_app; lia).
        assert (Z2 : zlen (WriteVarint V32 len ++ ztake len v) = zlen (WriteVarint V32 len) + len) by (rewrite zlen_app; lia).
        pose proof (zlen_nonneg (rest_of (zdrop len v) messages)).
        set (st := kLengthDelimitedString) in *.
        assert (Ex : extends c1 (push_tag (parent, tag) st c1)) by (destruct (push_tag_spec (parent, tag) st c1) as (_ & _ & _ & X); eapply or_extends, X).
        eapply IH with (gs := gs) (gss := gss) (tes := tes); try assumption; try lia.
        -- apply wf_field; try assumption; [apply good_field; [assumption|right; right; unfold st, kLengthDelimitedString; lia]|left; cbn [snd]; lia|lia| |].
           ++ intros N. apply app_eq_nil in N. destruct N as [N _]. eapply WriteVarint_nonempty, N.
           ++ apply bytes_app; split; [assumption|apply bytes_ztake, C4].
        -- apply bytes_zdrop, C4.
        -- rewrite <- Hxx. eapply (frames_ok_extends c); [|exact Hf]. eapply extends_trans; eassumption.
        -- apply Inv_string; try assumption; [lia|apply bytes_ztake, C4].
        -- rewrite Zl. apply sized_write; [apply sized_push; [exact S1|lia]|lia].
    + (* a start of a group *)
      assert (E1 : r1 = [] ++ r1) by reflexivity.
      assert (Hrr := Hr _ _ E1). assert (Hxx := Hx _ _ E1). assert (Hzz := Hz _ _ E1). rewrite app_nil_r in Hrr, Hxx. change (zlen (@nil Z)) with 0 in Hzz. rewrite Hrr, app_assoc.
      assert (Ex : extends c1 (push_tag (parent, tag) kTrivial c1)) by (destruct (push_tag_spec (parent, tag) kTrivial c1) as (_ & _ & _ & X); eapply or_extends, X).
      eapply IH with (gs := tag / 8 :: gs) (gss := gss) (tes := tes); try assumption; try lia.
      * apply wf_push_tag; [apply good_field; [assumption|right; left; unfold kTrivial; tauto]| |assumption]. intros [[N _]|[_ [[N _]|[N|[N|[N _]]]]]]; lia.
      * rewrite <- Hxx. eapply (frames_ok_extends c); [|exact Hf]. eapply extends_trans; eassumption.
      * rewrite !zlen_cons. lia.
      * eapply Inv_copy; [assumption| |assumption|exact I1]. apply callback_group; [lia|tauto].
      * rewrite zlen_app. apply sized_push; [exact S1|lia].
    + (* an end of a group *)
      assert (E1 : r1 = [] ++ r1) by reflexivity.
      assert (Hrr := Hr _ _ E1). assert (Hxx := Hx _ _ E1). assert (Hzz := Hz _ _ E1). rewrite app_nil_r in Hrr, Hxx. change (zlen (@nil Z)) with 0 in Hzz. rewrite Hrr, app_assoc.
      assert (Ex : extends c1 (push_tag (parent, tag) kTrivial c1)) by (destruct (push_tag_spec (parent, tag) kTrivial c1) as (_ & _ & _ & X); eapply or_extends, X).
      rewrite zlen_cons in Hg. destruct groups as [|group groups]; [pose proof (zlen_nonneg gs'); pose proof (zlen_nonneg (concat gss)); change (zlen (@nil Z)) with 0 in Hg; lia|].
      rewrite zlen_cons in Hg.
      eapply IH with (gs := gs') (gss := gss) (tes := tes); try assumption; try lia.
      * apply wf_push_tag; [apply good_field; [assumption|right; left; unfold kTrivial; tauto]| |assumption]. intros [[N _]|[_ [[N _]|[N|[N|[N _]]]]]]; lia.
      * rewrite <- Hxx. eapply (frames_ok_extends c); [|exact Hf]. eapply extends_trans; eassumption.
      * eapply Inv_copy; [assumption| |assumption|exact I1]. apply callback_group; [lia|tauto].
      * rewrite zlen_app. apply sized_push; [exact S1|lia].
Qed.

(** ** Records *)
Lemma nonproto_lengths (id : node_id) st r x c1 :
  let c2 := write_data 4 id r (push_tag id st c1) in
  write_data 4 id r (push_tag id st {| c_nodes := c_nodes c1; c_tags := c_tags c1; c_encoded := c_encoded c1; c_buffers := c_buffers c1; c_lengths := x ++ c_lengths c1 |}) =
  {| c_nodes := c_nodes c2; c_tags := c_tags c2; c_encoded := c_encoded c2; c_buffers := c_buffers c2; c_lengths := x ++ c_lengths c2 |}.
Proof.
  cbv zeta. unfold push_tag, GetPosInTagsList. cbn [c_tags]. destruct (find_index (tag_eqb (id, st)) (c_tags c1)); reflexivity.
Qed.
Lemma IsProtoMessage_nil : IsProtoMessage [] = true.
Proof. reflexivity. Qed.
Lemma add_record_ok r c P starts : wf c -> bytes r -> zlen r < 2 ^ 32 -> Inv c P [] starts -> sized c (zlen P) 0 (zlen starts) ->
  exists c', AddRecordInternal r c = Some c' /\ wf c' /\ Inv c' (P ++ r) [] (starts ++ [zlen P]) /\
    sized c' (zlen (P ++ r)) 0 (zlen (starts ++ [zlen P])).
Proof.
  intros W Hb Hr H0 HS. unfold AddRecordInternal. destruct (IsProtoMessage r) eqn:Q.
  - destruct (GetNode (kStartOfMessage, 0) c) as [m c1] eqn:EN. pose proof (wf_GetNode _ _ _ _ EN W) as W1.
    destruct (GetNode_spec _ _ _ _ EN) as (G1 & G2 & G3 & G4). pose proof (Inv_same ids hl num_records max_size c c1 P [] starts G1 G2 G3 G4 H0) as I1.
    assert (S1 : sized c1 (zlen P) 0 (zlen starts)) by (eapply sized_mono; try eassumption; lia). clear W H0 HS G1 G2 G3 G4 EN.
    set (id := (kStartOfMessage, 0)) in *. set (c2 := push_tag id kTrivial c1).
    assert (W2 : wf c2).
    { apply wf_push_tag; [left; cbn; unfold kTrivial; auto| |assumption]. unfold id. intros [[_ N]|[N _]]; [discriminate|apply N; reflexivity]. }
    assert (I2 : Inv c2 P [] (starts ++ [zlen P])).
    { assert (X : Inv c2 (P ++ []) [] (starts ++ [zlen P])); [|rewrite app_nil_r in X; exact X].
      apply (Inv_step ids hl num_records max_size c1 c2 (id, kTrivial) P [] [] [] starts (starts ++ [zlen P])); try assumption.
      - apply entries_push, W1.
      - apply fits_push.
      - constructor.
      - intros _ D L HB HD HL. exists [zlen P]. split; [reflexivity|]. rewrite app_nil_r. cbn [at_end map app].
        unfold TransposeColumns.handle, id. change (entry_callback ids (kStartOfMessage, 0, kTrivial)) with CMessageStart. cbn [HandleNode].
        unfold MessageStartCallback; cbn [g_stack g_limits g_dest g_buffers]. rewrite zlen_app in HL. change (zlen [zlen P]) with 1 in HL.
        pose proof (zlen_nonneg starts). destruct (Z.eqb_spec (zlen L) num_records); [lia|]. unfold c2. rewrite bufs_push.
        replace (zlen P + zlen D - zlen P) with (zlen D) by lia. reflexivity. }
    destruct (add_message_ok (2 * length r + 2) kRoot r [] [] c2 P [] [] [] (starts ++ [zlen P])) as (cf & E & Wf & If & Sf); try assumption.
    + eexists. exact Q.
    + exact I.
    + reflexivity.
    + unfold rest_of. cbn [map concat]. rewrite app_nil_r. change (zlen (@nil frame)) with 0. unfold zlen. lia.
    + unfold rest_of. cbn [map concat]. rewrite app_nil_r. exact Hr.
    + change (zlen (@nil frame)) with 0. destruct (push_sizes id kTrivial c1) as (P1 & P2 & P3 & P4). destruct S1 as (S1 & S2 & S3 & S4).
      unfold sized, c2. rewrite P1, P2, P4, zlen_app. change (zlen [zlen P]) with 1. repeat split; lia.
    + unfold rest_of in *. cbn [map concat] in *. rewrite app_nil_r in *. exists cf. auto.
  - assert (Hne : r <> []) by (intros ->; discriminate).
    assert (Lr : 1 <= zlen r) by (destruct r; [contradiction|rewrite zlen_cons; pose proof (zlen_nonneg r); lia]).
    destruct (GetNode (kNonProto, 0) c) as [m c1] eqn:EN. pose proof (wf_GetNode _ _ _ _ EN W) as W1.
    destruct (GetNode_spec _ _ _ _ EN) as (G1 & G2 & G3 & G4). pose proof (Inv_same ids hl num_records max_size c c1 P [] starts G1 G2 G3 G4 H0) as I1.
    assert (S1 : sized c1 (zlen P) 0 (zlen starts)) by (eapply sized_mono; try eassumption; lia). clear W H0 HS G1 G2 G3 G4 EN.
    set (id := (kNonProto, 0)) in *. cbv zeta.
    assert (B64 : bytes (WriteVarint V64 (zlen r))) by (apply WriteVarint_bytes; [apply V64_ok|cbn [vbits V64]; lia]).
    set (c2 := write_data 4 id r (push_tag id kTrivial c1)).
    set (c3 := {| c_nodes := c_nodes c2; c_tags := c_tags c2; c_encoded := c_encoded c2; c_buffers := c_buffers c2; c_lengths := WriteVarint V64 (zlen r) ++ c_lengths c2 |}).
    exists c3. split; [reflexivity|].
    destruct (push_tag_spec id kTrivial c1) as (P1 & P2 & (pos & P3 & P4) & P5).
    split; [|split].
    + set (c0 := {| c_nodes := c_nodes c1; c_tags := c_tags c1; c_encoded := c_encoded c1; c_buffers := c_buffers c1; c_lengths := WriteVarint V64 (zlen r) ++ c_lengths c1 |}).
      assert (N0 : c_lengths c0 <> []) by (cbn; intros N; apply app_eq_nil in N; destruct N as [N _]; eapply WriteVarint_nonempty, N).
      assert (W0 : wf c0).
      { destruct W1 as [V1 V2 V3 V4 V5 V6 V7]. constructor; try assumption; [apply bytes_app; auto|]. intros _. exact N0. }
      replace c3 with (write_data 4 id r (push_tag id kTrivial c0)).
      * apply wf_field; try assumption; [left; cbn; unfold kTrivial; auto|right; exact N0|lia].
      * apply nonproto_lengths.
    + apply (Inv_step ids hl num_records max_size c1 c3 (id, kTrivial) P r [] [] starts (starts ++ [zlen P])); try assumption.
      * change (entries c3) with (entries (push_tag id kTrivial c1)). apply entries_push, W1.
      * intros [F1 F2]. apply (fits_push id kTrivial). apply (fits_write 4 id r). split; [exact F1|]. intros _. apply F2. cbn.
        intros N; apply app_eq_nil in N; destruct N as [N _]; eapply WriteVarint_nonempty, N.
      * intros [F1 F2] D L HB HD HL. exists [zlen P]. split; [reflexivity|]. cbn [at_end map].
        assert (Hhl : hl = true) by (apply F2; cbn; intros N; apply app_eq_nil in N; destruct N as [N _]; eapply WriteVarint_nonempty, N).
        assert (Hid : In id ids).
        { apply F1. change (nodes c3) with (map b_node (prepend_to 4 id r (c_buffers (push_tag id kTrivial c1)))).
          destruct (prepend_nodes 4 id r (c_buffers (push_tag id kTrivial c1))) as [[N1 ->]|[N1 ->]]; [assumption|apply in_or_app; right; left; reflexivity]. }
        unfold TransposeColumns.handle, id. cbn [entry_callback kNonProto Z.eqb Pos.eqb]. fold id. cbn [HandleNode]. unfold lens.
        assert (Eb : forall x, TransposeColumns.bufs_of ids hl {| c_nodes := c_nodes c2; c_tags := c_tags c2; c_encoded := c_encoded c2; c_buffers := c_buffers c2; c_lengths := x |} =
                   map (fun id => data_of id (c_buffers c2)) ids ++ [x]) by (intros x; unfold TransposeColumns.bufs_of; rewrite Hhl; reflexivity).
        unfold c3. rewrite Eb. cbn [g_buffers]. rewrite Hhl.
        assert (Ln : length ids = length (map (fun id => data_of id (c_buffers c2)) ids)) by (rewrite map_length; reflexivity).
        rewrite nth_error_app2 by lia. rewrite Ln at 1. rewrite Nat.sub_diag. cbn [nth_error].
        assert (E2 : c_lengths c2 = c_lengths c1) by (unfold c2, write_data; cbn [c_lengths]; exact P2).
        rewrite Read32_Write64; [|lia|rewrite E2; apply (wf_len c1 W1)].
        assert (EU : forall (l : list (list Z)) (x y : list Z), update (length l) (fun _ => y) (l ++ [x]) = Some (l ++ [y])).
        { clear. induction l as [|a l IHl]; intros x y; cbn [length app update]; [reflexivity|]. rewrite IHl. reflexivity. }
        rewrite Ln, EU. rewrite <- (Eb (c_lengths c2)). unfold set_buffers; cbn [g_dest g_stack g_limits].
        change {| c_nodes := c_nodes c2; c_tags := c_tags c2; c_encoded := c_encoded c2; c_buffers := c_buffers c2; c_lengths := c_lengths c2 |}
          with (write_data 4 id r (push_tag id kTrivial c1)).
        rewrite read_front by assumption. pose proof (zlen_nonneg P). rewrite zlen_app in HD. rewrite write_ok by lia.
        unfold MessageStartCallback; cbn [g_stack g_limits g_dest g_buffers]. rewrite zlen_app in HL. change (zlen [zlen P]) with 1 in HL.
        pose proof (zlen_nonneg starts). destruct (Z.eqb_spec (zlen L) num_records); [lia|]. rewrite bufs_push. cbn [app].
        rewrite !zlen_app. do 2 f_equal; [rewrite Hhl; reflexivity|f_equal; lia].
    + destruct (push_sizes id kTrivial c1) as (Q1 & Q2 & Q3 & Q4). destruct S1 as (S1 & S2 & S3 & S4).
      unfold sized, c3, c2, write_data; cbn [c_buffers c_lengths c_tags c_encoded]. rewrite total_prepend, Q1, Q4, !zlen_app, Q2. change (zlen [zlen P]) with 1.
      assert (zlen (WriteVarint V64 (zlen r)) <= 10).
      { destruct (WriteVarint_spec V64 (zlen r) V64_ok) as (_ & _ & _ & L & _); [cbn [vbits V64]; lia|]. change (vmax V64) with 10%nat in L. unfold zlen at 1. lia. }
      repeat split; lia.
Qed.

(** Where records start *)
Fixpoint starts_of (pos : Z) (rs : list (list Z)) : list Z := match rs with [] => [] | r :: rs => pos :: starts_of (pos + zlen r) rs end.
Lemma add_records_ok rs : forall n size c P starts, Forall bytes rs -> Forall (fun r => zlen r < 2 ^ 32) rs -> wf c ->
  n + zlen rs <= kMaxNumRecords -> size + zlen (concat rs) < 2 ^ 64 ->
  Inv c P [] starts -> sized c (zlen P) 0 (zlen starts) ->
  exists c', add_records rs n size c = Some c' /\ wf c' /\ Inv c' (P ++ concat rs) [] (starts ++ starts_of (zlen P) rs) /\
    sized c' (zlen (P ++ concat rs)) 0 (zlen starts + zlen rs).
Proof.
  induction rs as [|r rs IH]; intros n size c P starts Hb Hr W Hn Hs H0 HS; cbn [add_records concat starts_of].
  - exists c. rewrite !app_nil_r. change (zlen (@nil (list Z))) with 0. rewrite Z.add_0_r. auto.
  - inversion Hb as [|? ? Hb1 Hb2]; subst. inversion Hr as [|? ? Hr1 Hr2]; subst. rewrite zlen_cons in Hn. cbn [concat] in Hs. rewrite zlen_app in Hs.
    pose proof (zlen_nonneg rs). pose proof (zlen_nonneg (concat rs)). destruct (Z.eqb_spec n kMaxNumRecords); [lia|].
    destruct (Z.ltb_spec (2 ^ 64 - 1 - size) (zlen r)); [lia|].
    destruct (add_record_ok r c P starts W Hb1 Hr1 H0 HS) as (c1 & -> & W1 & I1 & S1).
    destruct (IH (n + 1) (size + zlen r) c1 (P ++ r) (starts ++ [zlen P]) Hb2 Hr2 W1) as (c2 & -> & W2 & I2 & S2); try assumption; try lia.
    exists c2. split; [reflexivity|]. split; [assumption|]. rewrite zlen_app, <- !app_assoc in I2. cbn [app] in I2. split; [exact I2|].
    rewrite <- app_assoc in S2. rewrite zlen_cons. replace (zlen starts + (1 + zlen rs)) with (zlen (starts ++ [zlen P]) + zlen rs);
      [exact S2|rewrite zlen_app; change (zlen [zlen P]) with 1; lia].
Qed.
End Restoring.
