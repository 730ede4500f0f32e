From Verif Require Import Base.Bytes Model.Endian.

Lemma byte_cast_mod x : byte_cast x = x mod 256.
Proof. unfold byte_cast. change 255 with (2 ^ 8 - 1). rewrite land_ones_mod by lia. reflexivity. Qed.

Lemma WriteLittleEndian_le_bytes n v : WriteLittleEndian n v = le_bytes n v.
Proof.
  unfold WriteLittleEndian.
  assert (G : forall k, map (fun i => byte_cast (Z.shiftr v (8 * Z.of_nat i))) (seq k n)
                        = le_bytes n (v / 2 ^ (8 * Z.of_nat k))).
  { induction n as [|n IH]; intros k; cbn [seq map le_bytes]; [reflexivity|].
    rewrite byte_cast_mod, Z.shiftr_div_pow2 by lia. f_equal.
    rewrite IH. f_equal. rewrite pow256_S. rewrite Z.div_div by (try apply Z.pow_pos_nonneg; lia).
    f_equal; lia. }
  rewrite (G 0%nat). change (2 ^ (8 * Z.of_nat 0)) with 1. rewrite Z.div_1_r. reflexivity.
Qed.

Lemma rev_seq_map {A} (f : nat -> A) n :
  rev (map f (seq 0 n)) = map (fun i => f (n - 1 - i)%nat) (seq 0 n).
Proof.
  induction n as [|n IH]; [reflexivity|].
  rewrite seq_S at 1. rewrite map_app, rev_app_distr. cbn [map rev app Nat.add].
  rewrite IH. cbn [seq map]. f_equal; [f_equal; lia|].
  rewrite <- seq_shift, map_map. apply map_ext_in; intros a Ha; apply in_seq in Ha. f_equal; lia.
Qed.

Lemma WriteBigEndian_be_bytes n v : WriteBigEndian n v = be_bytes n v.
Proof.
  unfold be_bytes. rewrite <- WriteLittleEndian_le_bytes. unfold WriteLittleEndian.
  rewrite rev_seq_map. reflexivity.
Qed.

Lemma read_le_from_val i l : 0 <= i -> bytes l -> read_le_from i l = le_val l * 2 ^ (8 * i).
Proof.
  revert i; induction l as [|b l IH]; intros i Hi Hl; cbn [read_le_from le_val]; [reflexivity|].
  apply bytes_cons in Hl; destruct Hl as [Hb Hl]; red in Hb.
  rewrite IH by (try assumption; lia). rewrite Z.shiftl_mul_pow2 by lia.
  replace (8 * (i + 1)) with (8 + 8 * i) by lia. rewrite Z.pow_add_r by lia.
  rewrite (lor_disjoint_add (b * 2 ^ (8 * i)) _ (8 + 8 * i)).
  - lia.
  - lia.
  - rewrite Z.pow_add_r by lia. pose proof (Z.pow_pos_nonneg 2 (8 * i)). nia.
  - rewrite Z.pow_add_r by lia. apply Z_mod_mult.
Qed.

Lemma ReadLittleEndianArray_val l : bytes l -> ReadLittleEndianArray l = le_val l.
Proof. intros; unfold ReadLittleEndianArray; rewrite read_le_from_val by (try assumption; lia). lia. Qed.

Lemma ReadBigEndianArray_val l : bytes l -> ReadBigEndianArray l = be_val l.
Proof.
  unfold ReadBigEndianArray. induction l as [|b l IH]; intros Hl; cbn [read_be]; [reflexivity|].
  apply bytes_cons in Hl; destruct Hl as [Hb Hl]; red in Hb.
  rewrite be_val_cons, IH by assumption. rewrite Z.lor_comm.
  rewrite lor_shl_add; [lia|pose proof (zlen_nonneg l); lia|apply be_val_bound; assumption].
Qed.

Lemma ReadLittleEndian_Write n v rest : 0 <= v < 2 ^ (8 * Z.of_nat n) ->
  ReadLittleEndian n (WriteLittleEndian n v ++ rest) = Some (v, rest).
Proof.
  intros Hv. unfold ReadLittleEndian. rewrite WriteLittleEndian_le_bytes.
  rewrite app_length, le_bytes_length.
  destruct (Nat.ltb_spec (n + length rest) n); [lia|].
  rewrite firstn_app, skipn_app, le_bytes_length, Nat.sub_diag.
  rewrite firstn_all2, skipn_all2 by (rewrite le_bytes_length; lia).
  cbn [firstn skipn app]. rewrite app_nil_r, ReadLittleEndianArray_val by apply le_bytes_bytes.
  rewrite le_val_bytes by assumption. reflexivity.
Qed.

Lemma ReadBigEndian_Write n v rest : 0 <= v < 2 ^ (8 * Z.of_nat n) ->
  ReadBigEndian n (WriteBigEndian n v ++ rest) = Some (v, rest).
Proof.
  intros Hv. unfold ReadBigEndian. rewrite WriteBigEndian_be_bytes.
  assert (L : length (be_bytes n v) = n) by (unfold be_bytes; rewrite rev_length; apply le_bytes_length).
  rewrite app_length, L.
  destruct (Nat.ltb_spec (n + length rest) n); [lia|].
  rewrite firstn_app, skipn_app, L, Nat.sub_diag.
  rewrite firstn_all2, skipn_all2 by (rewrite L; lia).
  cbn [firstn skipn app]. rewrite app_nil_r, ReadBigEndianArray_val by apply be_bytes_bytes.
  rewrite be_val_bytes by assumption. reflexivity.
Qed.

Lemma WriteLittleEndian_Read n src v rest : bytes src ->
  ReadLittleEndian n src = Some (v, rest) -> src = WriteLittleEndian n v ++ rest /\ 0 <= v < 2 ^ (8 * Z.of_nat n).
Proof.
  intros Hb. unfold ReadLittleEndian. destruct (Nat.ltb_spec (length src) n); [discriminate|].
  intros E; injection E as <- <-.
  assert (L : length (firstn n src) = n) by (rewrite firstn_length; lia).
  assert (B : bytes (firstn n src)).
  { rewrite <- (Nat2Z.id n). apply (bytes_ztake (Z.of_nat n)); assumption. }
  rewrite ReadLittleEndianArray_val by assumption. rewrite WriteLittleEndian_le_bytes.
  split.
  - rewrite <- L at 1. rewrite le_bytes_val by assumption. symmetry; apply firstn_skipn.
  - pose proof (le_val_bound _ B) as Bd. unfold zlen in Bd. rewrite L in Bd. exact Bd.
Qed.

Lemma WriteBigEndian_Read n src v rest : bytes src ->
  ReadBigEndian n src = Some (v, rest) -> src = WriteBigEndian n v ++ rest /\ 0 <= v < 2 ^ (8 * Z.of_nat n).
Proof.
  intros Hb. unfold ReadBigEndian. destruct (Nat.ltb_spec (length src) n); [discriminate|].
  intros E; injection E as <- <-.
  assert (L : length (firstn n src) = n) by (rewrite firstn_length; lia).
  assert (B : bytes (firstn n src)).
  { rewrite <- (Nat2Z.id n). apply (bytes_ztake (Z.of_nat n)); assumption. }
  rewrite ReadBigEndianArray_val by assumption. rewrite WriteBigEndian_be_bytes.
  split.
  - rewrite <- L at 1. rewrite be_bytes_val by assumption. symmetry; apply firstn_skipn.
  - pose proof (be_val_bound _ B) as Bd. unfold zlen in Bd. rewrite L in Bd. exact Bd.
Qed.

Lemma to_signed_unsigned w v : 0 < w -> - 2 ^ (w - 1) <= v < 2 ^ (w - 1) ->
  to_signed w (to_unsigned w v) = v /\ 0 <= to_unsigned w v < 2 ^ w.
Proof.
  intros Hw Hv. unfold to_signed, to_unsigned.
  assert (E : 2 ^ w = 2 * 2 ^ (w - 1)).
  { replace w with (1 + (w - 1)) at 1 by lia. rewrite Z.pow_add_r by lia. reflexivity. }
  assert (P : 0 < 2 ^ (w - 1)) by (apply Z.pow_pos_nonneg; lia).
  split; [|apply Z.mod_pos_bound; lia].
  destruct (Z.lt_ge_cases v 0).
  - replace (v mod 2 ^ w) with (v + 2 ^ w).
    + destruct (Z.ltb_spec (v + 2 ^ w) (2 ^ (w - 1))); lia.
    + apply Z.mod_unique with (-1); lia.
  - rewrite Z.mod_small by lia. destruct (Z.ltb_spec v (2 ^ (w - 1))); lia.
Qed.

Lemma WriteBigEndian_order n a b s t :
  0 <= a < 2 ^ (8 * Z.of_nat n) -> 0 <= b < 2 ^ (8 * Z.of_nat n) -> a < b ->
  lex_lt (WriteBigEndian n a ++ s) (WriteBigEndian n b ++ t).
Proof.
  intros Ha Hb Hab. unfold lex_lt.
  assert (E : lex_cmp (be_bytes n a) (be_bytes n b) = Lt).
  { rewrite be_cmp_val; [|apply be_bytes_bytes|apply be_bytes_bytes|rewrite !zlen_be_bytes; reflexivity].
    rewrite !be_val_bytes by assumption. apply Z.compare_lt_iff; exact Hab. }
  rewrite !WriteBigEndian_be_bytes. rewrite lex_cmp_app_len; [exact E|rewrite !zlen_be_bytes; reflexivity|].
  rewrite E; discriminate.
Qed.
