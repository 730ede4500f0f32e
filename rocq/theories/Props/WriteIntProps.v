(** C50: integers as decimal and hexadecimal text. *)
From Verif Require Import Base.Bytes Model.WriteInt Spec.WriteIntSpec Proof.WriteIntProof Proof.WriteIntDec Proof.WriteIntHex Proof.WriteIntTypes.

(** Dec(v, width): writing, absl::StrCat() and the size agree, and the text is the decimal numeral of the value *)
Theorem Dec_text : forall signed b v width, value_of signed b v -> 0 <= width ->
  exists s, DecWriteTo signed b v width = Some s /\ DecStringify signed b v width = Some s /\ DecStringifiedSize signed b v width = Some (zlen s) /\ text 10 false v width s.
Proof.
  intros signed b v w V W. destruct (dec_write signed b v w V W) as (s & E & G), (dec_stringify signed b v w V W) as (t & E' & G').
  rewrite (goods_unique 10 false t s v w ltac:(lia) G' G) in E'. exists s. split; [exact E|]. split; [exact E'|]. split; [now apply dec_size|]. apply goods_text; [lia|exact G].
Qed.
(** Hex(v, width) and HexUpperCase(v, width), with SSSE3 and without *)
Theorem Hex_text : forall ssse3 upper signed b v width, value_of signed b v -> 0 <= width ->
  exists s, HexWriteTo ssse3 upper signed b v width = Some s /\ HexStringify ssse3 upper signed b v width = Some s /\ HexStringifiedSize signed b v width = Some (zlen s) /\ text 16 upper v width s.
Proof.
  intros ssse3 up signed b v w V W. destruct (hex_write ssse3 up signed b v w V W) as (s & E & G), (hex_stringify ssse3 up signed b v w V W) as (t & E' & G').
  rewrite (goods_unique 16 up t s v w ltac:(lia) G' G) in E'. exists s. split; [exact E|]. split; [exact E'|]. split; [now apply (hex_size up)|]. apply goods_text; [lia|exact G].
Qed.
(** Writer::Write(v), BackwardWriter::Write(v) *)
Theorem Write_integer_text : forall signed b v, value_of signed b v ->
  exists s, Writer_Write signed b v = Some s /\ BackwardWriter_Write signed b v = Some s /\ text 10 false v 0 s.
Proof.
  intros signed b v V. destruct (dec_any signed b v 0 V ltac:(lia)) as (s & E & G).
  assert (X : exists t, (if signed then WriteDecSignedBackward b v else WriteDecUnsignedBackward b v) = Some t /\ goods 10 false v 0 t).
  { destruct signed; [now apply dec_signed_back|]. cbn [value_of] in V. apply nonneg_goods; [lia|]. now apply WriteDecUnsignedBackward_ok. }
  destruct X as (t & E' & G'). rewrite (goods_unique 10 false t s v 0 ltac:(lia) G' G) in E'. exists s. pose proof (dec_fits signed b v 0 s V G) as F. pose proof (dec_space signed b) as (_ & D).
  unfold Writer_Write, BackwardWriter_Write. rewrite E, E'. unfold check. destruct signed; match goal with |- context [if ?c then _ else _] => replace c with true by (symmetry; apply Z.leb_le; lia) end; (split; [reflexivity|]; split; [reflexivity|]; apply goods_text; [lia|exact G]).
Qed.
(** The specification leaves one text *)
Theorem Integer_text_unique : forall base upper v width s t, 2 <= base <= 16 -> text base upper v width s -> text base upper v width t -> s = t.
Proof.
  intros base up v w s t B. unfold text. destruct (v <? 0); [|now apply numeral_unique]. intros (x & -> & X) (y & -> & Y). f_equal. eapply numeral_unique; eauto.
Qed.
(** It does not depend on the processor or on the type of the integer *)
Theorem Integer_text_same : forall ssse3 ssse3' upper signed signed' b b' v width, value_of signed b v -> value_of signed' b' v -> 0 <= width ->
  HexWriteTo ssse3 upper signed b v width = HexWriteTo ssse3' upper signed' b' v width /\ DecWriteTo signed b v width = DecWriteTo signed' b' v width.
Proof.
  intros sse sse' up sg sg' b b' v w V V' W. destruct (Hex_text sse up sg b v w V W) as (s & -> & _ & _ & T), (Hex_text sse' up sg' b' v w V' W) as (s' & -> & _ & _ & T'), (Dec_text sg b v w V W) as (d & -> & _ & _ & D), (Dec_text sg' b' v w V' W) as (d' & -> & _ & _ & D').
  split; f_equal; eapply Integer_text_unique; eauto; lia.
Qed.
(** Different values have different texts *)
Theorem Integer_text_injective : forall base upper v v' width width' s, 2 <= base <= 16 -> text base upper v width s -> text base upper v' width' s -> v = v'.
Proof. exact text_injective. Qed.

(** Examples *)
Example dec_min : DecWriteTo true B8 (-128) 6 = Some [45; 48; 48; 49; 50; 56] /\ value_of true B8 (-128). Proof. vm_compute. split; [reflexivity|split; [discriminate|reflexivity]]. Qed.
Example dec_min128 : DecStringify true B128 (- 2 ^ 127) 0 = DecWriteTo true B128 (- 2 ^ 127) 0 /\ DecStringifiedSize true B128 (- 2 ^ 127) 0 = Some 40. Proof. vm_compute. split; reflexivity. Qed.
Example hex_upper : HexStringify false true false B16 255 4 = Some [48; 48; 70; 70] /\ HexStringify true true false B16 255 4 = Some [48; 48; 70; 70]. Proof. vm_compute. split; reflexivity. Qed.
Example hex_lower : HexWriteTo false false true B32 (-48879) 0 = Some [45; 98; 101; 101; 102]. Proof. vm_compute. reflexivity. Qed.
Example write_int : Writer_Write true B32 (-10) = Some [45; 49; 48] /\ BackwardWriter_Write false B64 18446744073709551615 = Some [49; 56; 52; 52; 54; 55; 52; 52; 48; 55; 51; 55; 48; 57; 53; 53; 49; 54; 49; 53]. Proof. vm_compute. split; reflexivity. Qed.

Print Assumptions Dec_text.
Print Assumptions Hex_text.
Print Assumptions Write_integer_text.
Print Assumptions Integer_text_unique.
Print Assumptions Integer_text_same.
Print Assumptions Integer_text_injective.
