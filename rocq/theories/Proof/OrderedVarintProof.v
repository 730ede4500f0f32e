From Verif Require Import Base.Bytes Model.Endian Model.OrderedVarint Spec.OrderedVarintSpec Proof.EndianProof.

Lemma be_val_inj a b : bytes a -> bytes b -> zlen a = zlen b -> be_val a = be_val b -> a = b.
Proof.
  intros Ha Hb Hl Hv. rewrite <- (be_bytes_val a Ha), <- (be_bytes_val b Hb), Hv.
  f_equal. unfold zlen in Hl; lia.
Qed.

Lemma be_val_Write n v : 0 <= v < 2 ^ (8 * Z.of_nat n) -> be_val (WriteBigEndian n v) = v.
Proof. intros; rewrite WriteBigEndian_be_bytes; apply be_val_bytes; assumption. Qed.
Lemma zlen_Write n v : zlen (WriteBigEndian n v) = Z.of_nat n.
Proof. rewrite WriteBigEndian_be_bytes; apply zlen_be_bytes. Qed.
Lemma bytes_Write n v : bytes (WriteBigEndian n v).
Proof. rewrite WriteBigEndian_be_bytes; apply be_bytes_bytes. Qed.

Lemma lor_const a c k : 0 <= k -> 0 <= a < 2 ^ k -> Z.lor a (Z.shiftl c k) = a + c * 2 ^ k.
Proof. apply lor_shl_add. Qed.

Lemma firstn3_Write4 v : 0 <= v < 2 ^ 32 ->
  bytes (firstn 3 (WriteBigEndian 4 v)) /\ zlen (firstn 3 (WriteBigEndian 4 v)) = 3 /\
  be_val (firstn 3 (WriteBigEndian 4 v)) = v / 256.
Proof.
  intros Hv. rewrite WriteBigEndian_be_bytes.
  pose proof (be_bytes_bytes 4 v) as B. pose proof (be_val_bytes 4 v) as V.
  assert (L : length (be_bytes 4 v) = 4%nat) by (unfold be_bytes; rewrite rev_length; apply le_bytes_length).
  destruct (be_bytes 4 v) as [|a [|b [|c [|d [|e l]]]]]; try discriminate L.
  cbn [firstn]. specialize (V Hv). rewrite !bytes_cons in B. destruct B as (Ba & Bb & Bc & Bd & _).
  unfold is_byte in *. repeat split.
  - repeat (apply Forall_cons; [red; lia|]); apply Forall_nil.
  - unfold be_val in *. cbn [rev app le_val] in *. Z.div_mod_to_equations; lia.
Qed.

(** Evaluate closed powers and shifts. *)
Ltac is_closed_Z t := tryif (match t with context [?v] => is_var v end) then fail else idtac.
Ltac pw :=
  repeat match goal with
  | |- context [Z.pow ?a ?b] => is_closed_Z (Z.pow a b); let x := eval cbv in (Z.pow a b) in change (Z.pow a b) with x
  | H : context [Z.pow ?a ?b] |- _ => is_closed_Z (Z.pow a b); let x := eval cbv in (Z.pow a b) in change (Z.pow a b) with x in H
  | |- context [Z.shiftl ?a ?b] => is_closed_Z (Z.shiftl a b); let x := eval cbv in (Z.shiftl a b) in change (Z.shiftl a b) with x
  | H : context [Z.shiftl ?a ?b] |- _ => is_closed_Z (Z.shiftl a b); let x := eval cbv in (Z.shiftl a b) in change (Z.shiftl a b) with x in H
  | H : context [zlen (?x :: ?l)] |- _ => rewrite zlen_cons in H
  | H : context [zlen (@nil Z)] |- _ => rewrite zlen_nil in H
  | |- context [zlen (?x :: ?l)] => rewrite zlen_cons
  | |- context [zlen (@nil Z)] => rewrite zlen_nil
  end.
Ltac pwl := pw; lia.
Ltac pwd := pw; Z.div_mod_to_equations; lia.

Lemma WriteOrderedVarint64_spec v : 0 <= v < 2 ^ 64 -> ordered_encoding v (WriteOrderedVarint64 v).
Proof.
  intros Hv. unfold WriteOrderedVarint64, ordered_encoding, ones_prefix.
  change (Z.shiftl 1 (2 * 7)) with 16384; change (Z.shiftl 1 (3 * 7)) with 2097152;
  change (Z.shiftl 1 (4 * 7)) with 268435456; change (Z.shiftl 1 (5 * 7)) with 34359738368;
  change (Z.shiftl 1 (6 * 7)) with 4398046511104; change (Z.shiftl 1 (7 * 7)) with 562949953421312;
  change (Z.shiftl 1 (8 * 7)) with 72057594037927936. change (2 ^ 64) with 18446744073709551616 in *.
  destruct (Z.ltb_spec v 128).
  { exists 1. unfold be_val; cbn [rev app le_val]. pw. repeat split; try lia. constructor; [red; lia|constructor]. }
  destruct (Z.ltb_spec v 16384).
  { exists 2. change (Z.shiftl 128 8) with (Z.shiftl 1 15). rewrite lor_const by pwl.
    rewrite zlen_Write, be_val_Write by pwl.
    pw. repeat split; try lia. apply bytes_Write. }
  destruct (Z.ltb_spec v 2097152).
  { exists 3. rewrite !byte_cast_mod. rewrite Z.shiftr_div_pow2 by lia.
    change 192 with (Z.shiftl 3 6). rewrite lor_const by pwd.
    rewrite be_val_cons, zlen_cons, zlen_Write, be_val_Write by pwd.
    pw. repeat split; try lia; try pwd.
    apply bytes_cons; split; [red; Z.div_mod_to_equations; lia|apply bytes_Write]. }
  destruct (Z.ltb_spec v 268435456).
  { exists 4. change (Z.shiftl 224 (3 * 8)) with (Z.shiftl 7 29). rewrite lor_const by pwl.
    rewrite zlen_Write, be_val_Write by pwl.
    pw. repeat split; try lia. apply bytes_Write. }
  destruct (Z.ltb_spec v 34359738368).
  { exists 5. rewrite !byte_cast_mod. rewrite Z.shiftr_div_pow2 by lia.
    change 240 with (Z.shiftl 15 4). rewrite lor_const by pwd.
    rewrite be_val_cons, zlen_cons, zlen_Write, be_val_Write by pwd.
    pw. repeat split; try lia; try pwd.
    apply bytes_cons; split; [red; Z.div_mod_to_equations; lia|apply bytes_Write]. }
  destruct (Z.ltb_spec v 4398046511104).
  { exists 6. rewrite Z.shiftr_div_pow2 by lia.
    change (Z.shiftl 248 8) with (Z.shiftl 31 11). rewrite lor_const by pwd.
    rewrite be_val_app, zlen_app, !zlen_Write, !be_val_Write by pwd.
    pw. repeat split; try lia; try pwd.
    apply bytes_app; split; apply bytes_Write. }
  destruct (Z.ltb_spec v 562949953421312).
  { exists 7. rewrite Z.shiftr_div_pow2 by lia.
    change (Z.shiftl 252 (3 * 8)) with (Z.shiftl 63 26). rewrite lor_const by pwd.
    set (w := v / 2 ^ (3 * 8) mod 2 ^ 32 + 63 * 2 ^ 26).
    assert (Hw : 0 <= w < 2 ^ 32) by (unfold w; pwd).
    destruct (firstn3_Write4 w Hw) as (B & L & V).
    rewrite be_val_app, zlen_app, !zlen_Write, be_val_Write, L, V by pwd.
    unfold w. pw. repeat split; try lia; try pwd.
    apply bytes_app; split; [assumption|apply bytes_Write]. }
  destruct (Z.ltb_spec v 72057594037927936).
  { exists 8. change (Z.shiftl 254 (7 * 8)) with (Z.shiftl 127 57). rewrite lor_const by pwl.
    rewrite zlen_Write, be_val_Write by pwl.
    pw. repeat split; try lia. apply bytes_Write. }
  { exists 9. rewrite be_val_cons, zlen_cons, zlen_Write, be_val_Write by pwl.
    pw. repeat split; try lia. apply bytes_cons; split; [red; lia|apply bytes_Write]. }
Qed.

(** *** Uniqueness *)
Lemma oe_first v l : ordered_encoding v l -> exists b l', l = b :: l' /\ is_byte b /\
  ones_prefix (zlen l) <= b /\ (zlen l < 9 -> b < ones_prefix (zlen l + 1)).
Proof.
  intros (n & Hn & Hl & Hb & Hv & H1 & H2 & H3 & H4). destruct l as [|b l].
  { rewrite zlen_nil in Hl; lia. }
  exists b, l. apply bytes_cons in Hb; destruct Hb as [Hb Hb'].
  split; [reflexivity|]. split; [assumption|]. rewrite Hl. rewrite zlen_cons in Hl.
  rewrite be_val_cons in Hv. pose proof (be_val_bound l Hb') as Bd.
  replace (zlen l) with (n - 1) in * by lia.
  unfold ones_prefix in *. red in Hb.
  assert (C : n = 1 \/ n = 2 \/ n = 3 \/ n = 4 \/ n = 5 \/ n = 6 \/ n = 7 \/ n = 8 \/ n = 9) by lia.
  destruct C as [->|[->|[->|[->|[->|[->|[->|[->| ->]]]]]]]]; pwl.
Qed.

Lemma oe_unique v v' l l' r r' : ordered_encoding v l -> ordered_encoding v' l' ->
  l ++ r = l' ++ r' -> l = l' /\ r = r' /\ v = v'.
Proof.
  intros H H' E.
  destruct (oe_first v l H) as (b & t & -> & Hb & P1 & P2).
  destruct (oe_first v' l' H') as (b' & t' & -> & Hb' & P1' & P2').
  assert (b = b') by (cbn [app] in E; congruence). subst b'.
  assert (L : zlen (b :: t) = zlen (b :: t')).
  { destruct H as (n & Hn & Hl & _), H' as (n' & Hn' & Hl' & _). rewrite Hl, Hl' in *.
    clear - P1 P2 P1' P2' Hn Hn' Hb. unfold ones_prefix in *. red in Hb.
    destruct (Z.lt_trichotomy n n') as [C|[C|C]]; [exfalso| assumption |exfalso].
    - specialize (P2 ltac:(lia)). assert (2 ^ (9 - n') <= 2 ^ (9 - (n + 1))) by (apply Z.pow_le_mono_r; lia). lia.
    - specialize (P2' ltac:(lia)). assert (2 ^ (9 - n) <= 2 ^ (9 - (n' + 1))) by (apply Z.pow_le_mono_r; lia). lia. }
  destruct (app_inv_zlen _ _ _ _ E L) as [E1 E2]. repeat split; try assumption.
  destruct H as (n & Hn & Hl & _ & Hv & _), H' as (n' & Hn' & Hl' & _ & Hv' & _).
  assert (t = t') by congruence. subst t'. assert (E3 : n = n') by lia. rewrite <- E3 in Hv'. clear E3.
  rewrite Hv in Hv'. apply Z.add_reg_l in Hv'. exact Hv'.
Qed.

Lemma oe_fun v l l' : ordered_encoding v l -> ordered_encoding v l' -> l = l'.
Proof.
  intros (n & Hn & Hl & Hb & Hv & H1 & H2 & H3 & H4) (n' & Hn' & Hl' & Hb' & Hv' & H1' & H2' & H3' & H4').
  assert (En : n' = n).
  { destruct (Z.lt_trichotomy n n') as [C|[C|C]]; [exfalso| symmetry; assumption |exfalso].
    - specialize (H3 ltac:(lia)). specialize (H2' ltac:(lia)).
      assert (2 ^ (7 * n) <= 2 ^ (7 * (n' - 1))) by (apply Z.pow_le_mono_r; lia). lia.
    - specialize (H3' ltac:(lia)). specialize (H2 ltac:(lia)).
      assert (2 ^ (7 * n') <= 2 ^ (7 * (n - 1))) by (apply Z.pow_le_mono_r; lia). lia. }
  rewrite En in *. apply be_val_inj; try assumption; [lia|]. rewrite Hv, Hv'; reflexivity.
Qed.

(** *** Reading *)
Lemma clear_bits_mod w x c k n : 0 <= n -> 2 ^ w - 1 - Z.shiftl c k = 2 ^ n - 1 ->
  clear_bits w x c k = x mod 2 ^ n.
Proof. intros Hn E. unfold clear_bits. rewrite E. apply land_ones_mod; assumption. Qed.

Lemma clear_bits_sub w x c k n q : 0 <= n -> 2 ^ w - 1 - Z.shiftl c k = 2 ^ n - 1 ->
  q * 2 ^ n <= x < q * 2 ^ n + 2 ^ n -> clear_bits w x c k = x - q * 2 ^ n.
Proof.
  intros Hn E H. rewrite (clear_bits_mod w x c k n Hn E). symmetry. apply Z.mod_unique with q; lia.
Qed.

Lemma rd_val off n src : bytes src -> rd off n src = be_val (firstn n (skipn off src)).
Proof.
  intros Hb. unfold rd. apply ReadBigEndianArray_val.
  rewrite <- (Nat2Z.id n), <- (Nat2Z.id off).
  apply (bytes_ztake (Z.of_nat n)). apply (bytes_zdrop (Z.of_nat off)). assumption.
Qed.

Lemma finish_some n src dest bound r :
  finish n src dest bound = Some r <->
  (n <= length src)%nat /\ Z.shiftl 1 bound <= dest /\ r = (dest, skipn n src).
Proof.
  unfold finish. destruct (Nat.ltb_spec (length src) n); destruct (Z.ltb_spec dest (Z.shiftl 1 bound));
    split; intros Hx; try discriminate; try (destruct Hx as (? & ? & ?); lia).
  - injection Hx as <-; auto.
  - destruct Hx as (_ & _ & ->); reflexivity.
Qed.

Ltac split_src src :=
  repeat match goal with
  | H : (S ?n <= length src)%nat |- _ => destruct src; cbn [length] in H; [lia|]
  end.

Lemma lor_val a b k : 0 <= k -> 0 <= b < 2 ^ k -> Z.lor (Z.shiftl a k) b = a * 2 ^ k + b.
Proof. intros. rewrite Z.lor_comm, lor_shl_add by assumption. lia. Qed.

(** overlapping or: the 7-byte case *)
Lemma lor_overlap hi x lo : 0 <= hi -> 0 <= x < 256 -> 0 <= lo < 2 ^ 24 ->
  Z.lor (Z.shiftl (hi * 256 + x) 24) (x * 2 ^ 24 + lo) = (hi * 256 + x) * 2 ^ 24 + lo.
Proof.
  intros Hh Hx Hlo.
  rewrite <- (lor_val x lo 24) by (try assumption; lia).
  rewrite Z.lor_assoc. rewrite <- Z.shiftl_lor.
  replace (Z.lor (hi * 256 + x) x) with (hi * 256 + x).
  - apply lor_val; [lia|assumption].
  - change 256 with (2 ^ 8). rewrite <- (lor_val hi x 8) by (try assumption; lia).
    rewrite <- Z.lor_assoc, Z.lor_diag. reflexivity.
Qed.

Lemma be2 a b : be_val [a; b] = a * 256 + b.
Proof. unfold be_val; cbn [rev app le_val]; lia. Qed.
Lemma be4 a b c d : be_val [a; b; c; d] = ((a * 256 + b) * 256 + c) * 256 + d.
Proof. unfold be_val; cbn [rev app le_val]; lia. Qed.
Lemma be8 a b c d e f g h : be_val [a; b; c; d; e; f; g; h]
  = ((((((a * 256 + b) * 256 + c) * 256 + d) * 256 + e) * 256 + f) * 256 + g) * 256 + h.
Proof. unfold be_val; cbn [rev app le_val]; lia. Qed.

Ltac get_bytes H := repeat rewrite bytes_cons in H; unfold is_byte in H.

(** In each branch the decoded value is the one determined by the format. *)
Lemma read_sound src v rest : bytes src -> ReadOrderedVarint64 src = Some (v, rest) ->
  exists l, src = l ++ rest /\ ordered_encoding v l.
Proof.
  intros Hb. destruct src as [|b0 src]; [discriminate|]. cbn [ReadOrderedVarint64].
  assert (Hb0 : 0 <= b0 < 256) by (apply bytes_cons in Hb; unfold is_byte in Hb; tauto).
  assert (Fin : forall n dest bound, 
     (2 <= n <= 9)%nat -> finish n (b0 :: src) dest bound = Some (v, rest) ->
     ((n <= length (b0 :: src))%nat -> dest = v -> Z.shiftl 1 bound <= v ->
        be_val (firstn n (b0 :: src)) = ones_prefix (Z.of_nat n) * 256 ^ (Z.of_nat n - 1) + v /\
        2 ^ (7 * (Z.of_nat n - 1)) <= v /\ ((n < 9)%nat -> v < 2 ^ (7 * Z.of_nat n)) /\ (n = 9%nat -> v < 2 ^ 64)) ->
     exists l, b0 :: src = l ++ rest /\ ordered_encoding v l).
  { intros n dest bound Hn Hf HH. apply finish_some in Hf. destruct Hf as (Hl & Hbd & E).
    injection E as -> ->. destruct (HH Hl eq_refl Hbd) as (E1 & E2 & E3 & E4).
    exists (firstn n (b0 :: src)). split; [symmetry; apply firstn_skipn|].
    exists (Z.of_nat n). split; [lia|]. split; [unfold zlen; rewrite firstn_length; lia|].
    split; [rewrite <- (Nat2Z.id n); apply (bytes_ztake (Z.of_nat n)); assumption|].
    split; [assumption|]. repeat split; intros; try lia; try (apply E3; lia); try (apply E4; lia). }
  destruct (Z.ltb_spec b0 128).
  { intros E; injection E as <- <-. exists [b0]. split; [reflexivity|].
    exists 1. unfold ones_prefix, be_val; cbn [rev app le_val]. pw. repeat split; try lia. constructor; [red; lia|constructor]. }
  destruct (Z.ltb_spec b0 192).
  { intros E; eapply (Fin 2%nat); [lia|exact E|]. intros Hl.
    destruct src as [|b1 src]; [cbn in Hl; lia|]. get_bytes Hb.
    rewrite rd_val by (get_bytes Hb; repeat rewrite bytes_cons; unfold is_byte; tauto).
    cbn [skipn firstn]. 
    rewrite be2. rewrite (clear_bits_sub 16 _ 128 8 15 1) by (try reflexivity; pwl). unfold ones_prefix. pwl. }
  destruct (Z.ltb_spec b0 224).
  { intros E; eapply (Fin 3%nat); [lia|exact E|]. intros Hl.
    destruct src as [|b1 [|b2 src]]; [cbn in Hl; lia|cbn in Hl; lia|]. get_bytes Hb.
    rewrite rd_val by (get_bytes Hb; repeat rewrite bytes_cons; unfold is_byte; tauto).
    cbn [skipn firstn]. 
    rewrite (be_val_cons b0), be2. rewrite (clear_bits_sub 8 _ 192 0 6 3) by (try reflexivity; pwl). rewrite lor_val by pwl.
    unfold ones_prefix. change (Z.shiftl 1 (2 * 7)) with 16384.
    pwl. }
  destruct (Z.ltb_spec b0 240).
  { intros E; eapply (Fin 4%nat); [lia|exact E|]. intros Hl.
    destruct src as [|b1 [|b2 [|b3 src]]]; try (cbn in Hl; lia). get_bytes Hb.
    rewrite rd_val by (get_bytes Hb; repeat rewrite bytes_cons; unfold is_byte; tauto).
    cbn [skipn firstn]. 
    rewrite be4. rewrite (clear_bits_sub 32 _ 224 (3 * 8) 29 7) by (try reflexivity; pwl). unfold ones_prefix. change (Z.shiftl 1 (3 * 7)) with 2097152.
    pwl. }
  destruct (Z.ltb_spec b0 248).
  { intros E; eapply (Fin 5%nat); [lia|exact E|]. intros Hl.
    destruct src as [|b1 [|b2 [|b3 [|b4 src]]]]; try (cbn in Hl; lia). get_bytes Hb.
    rewrite rd_val by (get_bytes Hb; repeat rewrite bytes_cons; unfold is_byte; tauto).
    cbn [skipn firstn]. 
    rewrite (be_val_cons b0), be4. rewrite (clear_bits_sub 8 _ 240 0 4 15) by (try reflexivity; pwl). rewrite lor_val by pwl.
    unfold ones_prefix. change (Z.shiftl 1 (4 * 7)) with 268435456.
    pwl. }
  destruct (Z.ltb_spec b0 252).
  { intros E; eapply (Fin 6%nat); [lia|exact E|]. intros Hl.
    destruct src as [|b1 [|b2 [|b3 [|b4 [|b5 src]]]]]; try (cbn in Hl; lia). get_bytes Hb.
    rewrite !rd_val by (get_bytes Hb; repeat rewrite bytes_cons; unfold is_byte; tauto).
    cbn [skipn firstn]. 
    rewrite be2, (be_val_cons b0), (be_val_cons b1), !be4. rewrite (clear_bits_sub 16 _ 248 8 11 31) by (try reflexivity; pwl). rewrite lor_val by pwl.
    unfold ones_prefix. change (Z.shiftl 1 (5 * 7)) with 34359738368.
    pwl. }
  destruct (Z.ltb_spec b0 254).
  { intros E; eapply (Fin 7%nat); [lia|exact E|]. intros Hl.
    destruct src as [|b1 [|b2 [|b3 [|b4 [|b5 [|b6 src]]]]]]; try (cbn in Hl; lia). get_bytes Hb.
    rewrite !rd_val by (get_bytes Hb; repeat rewrite bytes_cons; unfold is_byte; tauto).
    cbn [skipn firstn]. 
    rewrite !be4, (be_val_cons b0), (be_val_cons b1), (be_val_cons b2), !be4. rewrite (clear_bits_sub 32 _ 252 (3 * 8) 26 63) by (try reflexivity; pwl).
    replace (((((b0 * 256 + b1) * 256 + b2) * 256 + b3) - 63 * 2 ^ 26))
      with (((b0 - 252) * 65536 + b1 * 256 + b2) * 256 + b3) by pwl.
    replace (((b3 * 256 + b4) * 256 + b5) * 256 + b6)
      with (b3 * 2 ^ 24 + ((b4 * 256 + b5) * 256 + b6)) by pwl.
    change (3 * 8) with 24. rewrite lor_overlap by pwl.
    unfold ones_prefix. change (Z.shiftl 1 (6 * 7)) with 4398046511104.
    pwl. }
  destruct (Z.ltb_spec b0 255).
  { intros E; eapply (Fin 8%nat); [lia|exact E|]. intros Hl.
    destruct src as [|b1 [|b2 [|b3 [|b4 [|b5 [|b6 [|b7 src]]]]]]]; try (cbn in Hl; lia). get_bytes Hb.
    rewrite rd_val by (get_bytes Hb; repeat rewrite bytes_cons; unfold is_byte; tauto).
    cbn [skipn firstn]. 
    rewrite be8. rewrite (clear_bits_sub 64 _ 254 (7 * 8) 57 127) by (try reflexivity; pwl). unfold ones_prefix. change (Z.shiftl 1 (7 * 7)) with 562949953421312.
    pwl. }
  { intros E; eapply (Fin 9%nat); [lia|exact E|]. intros Hl.
    destruct src as [|b1 [|b2 [|b3 [|b4 [|b5 [|b6 [|b7 [|b8 src]]]]]]]]; try (cbn in Hl; lia). get_bytes Hb.
    rewrite rd_val by (get_bytes Hb; repeat rewrite bytes_cons; unfold is_byte; tauto).
    cbn [skipn firstn].
    rewrite (be_val_cons b0), be8. unfold ones_prefix. change (Z.shiftl 1 (8 * 7)) with 72057594037927936.
    pwl. }
Qed.

Lemma read_complete v l rest : ordered_encoding v l -> bytes rest ->
  ReadOrderedVarint64 (l ++ rest) = Some (v, rest).
Proof.
  intros H Hr.
  assert (HB : bytes (l ++ rest)).
  { apply bytes_app; split; [|assumption]. destruct H as (n & _ & _ & Hb & _); exact Hb. }
  destruct (ReadOrderedVarint64 (l ++ rest)) as [[v' r']|] eqn:E.
  - destruct (read_sound _ _ _ HB E) as (l' & El & H').
    destruct (oe_unique v v' l l' rest r' H H' El) as (_ & -> & ->). reflexivity.
  - exfalso. destruct (oe_first v l H) as (b & t & -> & Hb & P1 & P2).
    destruct H as (n & Hn & Hl & HB' & Hv & H1 & H2 & H3 & H4). rewrite Hl in *.
    assert (Len : length (b :: t) = Z.to_nat n) by (unfold zlen in Hl; lia).
    cbn [app ReadOrderedVarint64] in E. red in Hb.
    assert (Fin : forall k dest bound, (k = Z.to_nat n)%nat -> finish k (b :: t ++ rest) dest bound = None ->
                    dest < Z.shiftl 1 bound).
    { intros k dest bound Hk. unfold finish. change (b :: t ++ rest) with ((b :: t) ++ rest).
      rewrite app_length, Len.
      destruct (Nat.ltb_spec (Z.to_nat n + length rest) k); [lia|].
      destruct (Z.ltb_spec dest (Z.shiftl 1 bound)); [auto|discriminate]. }
    get_bytes HB'. destruct HB' as [_ HB'].
    assert (HT : bytes t) by exact HB'. 
    assert (HBt : bytes (b :: t ++ rest)) by exact HB.
    clear HB'.
    assert (C : n = 1 \/ n = 2 \/ n = 3 \/ n = 4 \/ n = 5 \/ n = 6 \/ n = 7 \/ n = 8 \/ n = 9) by lia.
    unfold ones_prefix in *.
    destruct C as [->|[->|[->|[->|[->|[->|[->|[->| ->]]]]]]]]; pw.
    + replace (b <? 128) with true in E by lia. discriminate.
    + replace (b <? 128) with false in E by lia. replace (b <? 192) with true in E by lia.
      destruct t as [|b1 [|? ?]]; try discriminate Len. cbn [app] in *.
      apply (Fin 2%nat) in E; [|reflexivity].
      rewrite rd_val in E by assumption. get_bytes HT.
      cbn [skipn firstn] in E. 
      rewrite be2 in *. rewrite (clear_bits_sub 16 _ 128 8 15 1) in E by (try reflexivity; pwl). change (Z.shiftl 1 7) with 128 in E.
      pwl.
    + replace (b <? 128) with false in E by lia. replace (b <? 192) with false in E by lia.
      replace (b <? 224) with true in E by lia.
      destruct t as [|b1 [|b2 [|? ?]]]; try discriminate Len. cbn [app] in *.
      apply (Fin 3%nat) in E; [|reflexivity].
      rewrite rd_val in E by assumption. get_bytes HT.
      cbn [skipn firstn] in E. 
      rewrite be_val_cons in Hv. rewrite be2 in *. rewrite (clear_bits_sub 8 _ 192 0 6 3) in E by (try reflexivity; pwl). rewrite lor_val in E by pwl.
      change (Z.shiftl 1 (2 * 7)) with 16384 in E.
      pwl.
    + replace (b <? 128) with false in E by lia. replace (b <? 192) with false in E by lia.
      replace (b <? 224) with false in E by lia. replace (b <? 240) with true in E by lia.
      destruct t as [|b1 [|b2 [|b3 [|? ?]]]]; try discriminate Len. cbn [app] in *.
      apply (Fin 4%nat) in E; [|reflexivity].
      rewrite rd_val in E by assumption. get_bytes HT.
      cbn [skipn firstn] in E. 
      rewrite be4 in *. rewrite (clear_bits_sub 32 _ 224 (3 * 8) 29 7) in E by (try reflexivity; pwl). change (Z.shiftl 1 (3 * 7)) with 2097152 in E.
      pwl.
    + replace (b <? 128) with false in E by lia. replace (b <? 192) with false in E by lia.
      replace (b <? 224) with false in E by lia. replace (b <? 240) with false in E by lia.
      replace (b <? 248) with true in E by lia.
      destruct t as [|b1 [|b2 [|b3 [|b4 [|? ?]]]]]; try discriminate Len. cbn [app] in *.
      apply (Fin 5%nat) in E; [|reflexivity].
      rewrite rd_val in E by assumption. get_bytes HT.
      cbn [skipn firstn] in E. 
      rewrite be_val_cons in Hv. rewrite be4 in *. rewrite (clear_bits_sub 8 _ 240 0 4 15) in E by (try reflexivity; pwl). rewrite lor_val in E by pwl.
      change (Z.shiftl 1 (4 * 7)) with 268435456 in E.
      pwl.
    + replace (b <? 128) with false in E by lia. replace (b <? 192) with false in E by lia.
      replace (b <? 224) with false in E by lia. replace (b <? 240) with false in E by lia.
      replace (b <? 248) with false in E by lia. replace (b <? 252) with true in E by lia.
      destruct t as [|b1 [|b2 [|b3 [|b4 [|b5 [|? ?]]]]]]; try discriminate Len. cbn [app] in *.
      apply (Fin 6%nat) in E; [|reflexivity].
      rewrite !rd_val in E by assumption. get_bytes HT.
      cbn [skipn firstn] in E. 
      rewrite (be_val_cons b), (be_val_cons b1) in Hv. rewrite be2, be4 in *. rewrite (clear_bits_sub 16 _ 248 8 11 31) in E by (try reflexivity; pwl). rewrite lor_val in E by pwl.
      change (Z.shiftl 1 (5 * 7)) with 34359738368 in E.
      pwl.
    + replace (b <? 128) with false in E by lia. replace (b <? 192) with false in E by lia.
      replace (b <? 224) with false in E by lia. replace (b <? 240) with false in E by lia.
      replace (b <? 248) with false in E by lia. replace (b <? 252) with false in E by lia.
      replace (b <? 254) with true in E by lia.
      destruct t as [|b1 [|b2 [|b3 [|b4 [|b5 [|b6 [|? ?]]]]]]]; try discriminate Len. cbn [app] in *.
      apply (Fin 7%nat) in E; [|reflexivity].
      rewrite !rd_val in E by assumption. get_bytes HT.
      cbn [skipn firstn] in E. 
      rewrite (be_val_cons b), (be_val_cons b1), (be_val_cons b2), be4 in Hv. rewrite !be4 in E. rewrite (clear_bits_sub 32 _ 252 (3 * 8) 26 63) in E by (try reflexivity; pwl).
      replace (((((b * 256 + b1) * 256 + b2) * 256 + b3) - 63 * 2 ^ 26))
        with (((b - 252) * 65536 + b1 * 256 + b2) * 256 + b3) in E by pwl.
      replace (((b3 * 256 + b4) * 256 + b5) * 256 + b6)
        with (b3 * 2 ^ 24 + ((b4 * 256 + b5) * 256 + b6)) in E by pwl.
      change (3 * 8) with 24 in E. rewrite lor_overlap in E by pwl.
      change (Z.shiftl 1 (6 * 7)) with 4398046511104 in E.
      pwl.
    + replace (b <? 128) with false in E by lia. replace (b <? 192) with false in E by lia.
      replace (b <? 224) with false in E by lia. replace (b <? 240) with false in E by lia.
      replace (b <? 248) with false in E by lia. replace (b <? 252) with false in E by lia.
      replace (b <? 254) with false in E by lia. replace (b <? 255) with true in E by lia.
      destruct t as [|b1 [|b2 [|b3 [|b4 [|b5 [|b6 [|b7 [|? ?]]]]]]]]; try discriminate Len. cbn [app] in *.
      apply (Fin 8%nat) in E; [|reflexivity].
      rewrite rd_val in E by assumption. get_bytes HT.
      cbn [skipn firstn] in E. 
      rewrite be8 in *. rewrite (clear_bits_sub 64 _ 254 (7 * 8) 57 127) in E by (try reflexivity; pwl). change (Z.shiftl 1 (7 * 7)) with 562949953421312 in E.
      pwl.
    + replace (b <? 128) with false in E by lia. replace (b <? 192) with false in E by lia.
      replace (b <? 224) with false in E by lia. replace (b <? 240) with false in E by lia.
      replace (b <? 248) with false in E by lia. replace (b <? 252) with false in E by lia.
      replace (b <? 254) with false in E by lia. replace (b <? 255) with false in E by lia.
      destruct t as [|b1 [|b2 [|b3 [|b4 [|b5 [|b6 [|b7 [|b8 [|? ?]]]]]]]]]; try discriminate Len. cbn [app] in *.
      apply (Fin 9%nat) in E; [|reflexivity].
      rewrite rd_val in E by assumption. get_bytes HT.
      cbn [skipn firstn] in E.
      rewrite be_val_cons in Hv. rewrite be8 in *. change (Z.shiftl 1 (8 * 7)) with 72057594037927936 in E.
      pwl.
Qed.

Lemma Read_Write64 v rest : 0 <= v < 2 ^ 64 -> bytes rest ->
  ReadOrderedVarint64 (WriteOrderedVarint64 v ++ rest) = Some (v, rest).
Proof. intros; apply read_complete; [apply WriteOrderedVarint64_spec|]; assumption. Qed.

Lemma oe_range v l : ordered_encoding v l -> 0 <= v < 2 ^ 64.
Proof.
  intros (n & Hn & _ & _ & _ & H1 & H2 & H3 & H4).
  assert (C : n = 1 \/ n = 2 \/ n = 3 \/ n = 4 \/ n = 5 \/ n = 6 \/ n = 7 \/ n = 8 \/ n = 9) by lia.
  destruct C as [->|[->|[->|[->|[->|[->|[->|[->| ->]]]]]]]]; pwl.
Qed.

Lemma Write_Read64 src v rest : bytes src -> ReadOrderedVarint64 src = Some (v, rest) ->
  src = WriteOrderedVarint64 v ++ rest /\ 0 <= v < 2 ^ 64.
Proof.
  intros Hb E. destruct (read_sound src v rest Hb E) as (l & -> & H).
  pose proof (oe_range v l H) as R. split; [|exact R]. f_equal.
  apply (oe_fun v); [assumption|]. apply WriteOrderedVarint64_spec; exact R.
Qed.

Lemma Length64 v : 0 <= v < 2 ^ 64 -> LengthOrderedVarint v = zlen (WriteOrderedVarint64 v).
Proof.
  intros Hv. destruct (WriteOrderedVarint64_spec v Hv) as (n & Hn & -> & _ & _ & H1 & H2 & H3 & H4).
  unfold LengthOrderedVarint. rewrite Z.log2_lor by lia. change (Z.log2 1) with 0.
  destruct (Z.eq_dec v 0) as [->|Hnz].
  { destruct (Z.eq_dec n 1) as [->|]; [reflexivity|]. specialize (H2 ltac:(lia)).
    pose proof (Z.pow_pos_nonneg 2 (7 * (n - 1))). lia. }
  assert (L0 : 0 <= Z.log2 v) by apply Z.log2_nonneg. rewrite Z.max_l by lia.
  assert (A1 : 7 * (n - 1) <= Z.log2 v).
  { destruct (Z.eq_dec n 1) as [->|]; [lia|]. apply Z.log2_le_pow2; [lia|]. apply H2; lia. }
  destruct (Z.eq_dec n 9) as [->|].
  - assert (A3 : Z.log2 v < 64) by (apply Z.log2_lt_pow2; lia). Z.div_mod_to_equations; lia.
  - assert (A2 : Z.log2 v < 7 * n) by (apply Z.log2_lt_pow2; [lia|apply H3; lia]).
    Z.div_mod_to_equations; lia.
Qed.

(** *** 32-bit versions agree with the 64-bit ones *)
Lemma Write32_64 v : 0 <= v < 2 ^ 32 -> WriteOrderedVarint32 v = WriteOrderedVarint64 v.
Proof.
  intros Hv. unfold WriteOrderedVarint32, WriteOrderedVarint64.
  destruct (v <? 128); [reflexivity|]. destruct (v <? Z.shiftl 1 (2 * 7)); [reflexivity|].
  destruct (v <? Z.shiftl 1 (3 * 7)); [reflexivity|].
  destruct (v <? Z.shiftl 1 (4 * 7)); [reflexivity|].
  change (Z.shiftl 1 (5 * 7)) with (2 ^ 35). destruct (Z.ltb_spec v (2 ^ 35)); [|pwl].
  rewrite Z.shiftr_div_pow2 by lia. change (2 ^ (4 * 8)) with (2 ^ 32).
  rewrite (Z.div_small v), (Z.mod_small v) by lia. reflexivity.
Qed.

Lemma Read32_64 src : bytes src ->
  ReadOrderedVarint32 src = match ReadOrderedVarint64 src with
                            | Some (v, rest) => if v <? 2 ^ 32 then Some (v, rest) else None
                            | None => None end.
Proof.
  intros Hb. destruct (ReadOrderedVarint64 src) as [[v rest]|] eqn:E.
  - destruct (read_sound src v rest Hb E) as (l & El & HO).
    destruct (oe_first v l HO) as (b & t & -> & Hbb & P1 & P2). red in Hbb.
    subst src. cbn [app] in *. unfold ReadOrderedVarint32, ReadOrderedVarint64 in *.
    destruct (Z.ltb_spec b 128).
    { assert (Evb : v = b) by congruence. rewrite E, Evb. replace (b <? 2 ^ 32) with true by (symmetry; apply Z.ltb_lt; pwl). reflexivity. }
    destruct HO as (n & Hn & Hl & HB' & Hv & H1 & H2 & H3 & H4). rewrite Hl in *.
    unfold ones_prefix in *.
    assert (C : n = 1 \/ n = 2 \/ n = 3 \/ n = 4 \/ n = 5 \/ n = 6 \/ n = 7 \/ n = 8 \/ n = 9) by lia.
    assert (L : zlen t = n - 1) by (rewrite zlen_cons in Hl; lia).
    destruct C as [->|[->|[->|[->|[->|[->|[->|[->| ->]]]]]]]]; pw.
    + lia.
    + replace (b <? 192) with true in * by lia. rewrite E.
      replace (v <? 4294967296) with true by (symmetry; apply Z.ltb_lt; pwl). reflexivity.
    + replace (b <? 192) with false in * by lia. replace (b <? 224) with true in * by lia. rewrite E.
      replace (v <? 4294967296) with true by (symmetry; apply Z.ltb_lt; pwl). reflexivity.
    + replace (b <? 192) with false in * by lia. replace (b <? 224) with false in * by lia.
      replace (b <? 240) with true in * by lia. rewrite E.
      replace (v <? 4294967296) with true by (symmetry; apply Z.ltb_lt; pwl). reflexivity.
    + replace (b <? 192) with false in * by lia. replace (b <? 224) with false in * by lia.
      replace (b <? 240) with false in * by lia. replace (b <? 248) with true in * by lia.
      rewrite be_val_cons, L in Hv. apply bytes_cons in HB'. destruct HB' as [_ HB'].
      pose proof (be_val_bound t HB') as Bt. rewrite L in Bt. pw.
      apply bytes_cons in Hb. destruct Hb as [Hb0 Hb].
      destruct (Z.ltb_spec 240 b).
      * replace (v <? 4294967296) with false; [reflexivity|]. symmetry; apply Z.ltb_ge. pwl.
      * assert (b = 240) by lia. subst b.
        replace (v <? 4294967296) with true by (symmetry; apply Z.ltb_lt; pwl).
        rewrite <- E.
        rewrite (clear_bits_mod 8 _ 240 0 4) by (try reflexivity; lia).
        change (240 mod 2 ^ 4) with 0. rewrite Z.shiftl_0_l, Z.lor_0_l. reflexivity.
    + replace (b <? 192) with false in * by lia. replace (b <? 224) with false in * by lia.
      replace (b <? 240) with false in * by lia. replace (240 <? b) with true by lia.
      replace (v <? 4294967296) with false; [reflexivity|]. symmetry; apply Z.ltb_ge. pwl.
    + replace (b <? 192) with false in * by lia. replace (b <? 224) with false in * by lia.
      replace (b <? 240) with false in * by lia. replace (240 <? b) with true by lia.
      replace (v <? 4294967296) with false; [reflexivity|]. symmetry; apply Z.ltb_ge. pwl.
    + replace (b <? 192) with false in * by lia. replace (b <? 224) with false in * by lia.
      replace (b <? 240) with false in * by lia. replace (240 <? b) with true by lia.
      replace (v <? 4294967296) with false; [reflexivity|]. symmetry; apply Z.ltb_ge. pwl.
    + replace (b <? 192) with false in * by lia. replace (b <? 224) with false in * by lia.
      replace (b <? 240) with false in * by lia. replace (240 <? b) with true by lia.
      replace (v <? 4294967296) with false; [reflexivity|]. symmetry; apply Z.ltb_ge. pwl.
  - destruct src as [|b src]; [reflexivity|]. unfold ReadOrderedVarint32, ReadOrderedVarint64 in *.
    destruct (b <? 128); [discriminate|].
    destruct (b <? 192); [exact E|]. destruct (b <? 224); [exact E|]. destruct (b <? 240) eqn:E240; [exact E|].
    destruct (Z.ltb_spec 240 b); [reflexivity|]. assert (b = 240) by lia. subst b.
    cbn [Z.ltb Z.compare Pos.compare Pos.compare_cont] in E.
    rewrite (clear_bits_mod 8 _ 240 0 4) in E by (try reflexivity; lia).
    change (240 mod 2 ^ 4) with 0 in E. rewrite Z.shiftl_0_l, Z.lor_0_l in E. exact E.
Qed.

Lemma Read_Write32 v rest : 0 <= v < 2 ^ 32 -> bytes rest ->
  ReadOrderedVarint32 (WriteOrderedVarint32 v ++ rest) = Some (v, rest).
Proof.
  intros Hv Hr. assert (0 <= v < 2 ^ 64) by (pwl).
  rewrite Write32_64 by assumption. rewrite Read32_64.
  - rewrite Read_Write64 by assumption. destruct (Z.ltb_spec v (2 ^ 32)); [reflexivity|lia].
  - apply bytes_app; split; [|assumption].
    destruct (WriteOrderedVarint64_spec v) as (n & _ & _ & Hb & _); assumption.
Qed.

Lemma Write_Read32 src v rest : bytes src -> ReadOrderedVarint32 src = Some (v, rest) ->
  src = WriteOrderedVarint32 v ++ rest /\ 0 <= v < 2 ^ 32.
Proof.
  intros Hb. rewrite Read32_64 by assumption.
  destruct (ReadOrderedVarint64 src) as [[v' r']|] eqn:E; [|discriminate].
  destruct (Z.ltb_spec v' (2 ^ 32)); [|discriminate]. intros EE; injection EE as <- <-.
  destruct (Write_Read64 _ _ _ Hb E) as [-> R]. split; [|lia]. rewrite Write32_64 by lia. reflexivity.
Qed.

(** *** Order *)
Lemma ordered_lt a b s t : 0 <= a < 2 ^ 64 -> 0 <= b < 2 ^ 64 -> a < b ->
  lex_lt (WriteOrderedVarint64 a ++ s) (WriteOrderedVarint64 b ++ t).
Proof.
  intros Ha Hb Hab.
  pose proof (WriteOrderedVarint64_spec a Ha) as Ea. pose proof (WriteOrderedVarint64_spec b Hb) as Eb.
  destruct (oe_first a _ Ea) as (x & la & Ela & Hx & P1 & P2).
  destruct (oe_first b _ Eb) as (y & lb & Elb & Hy & Q1 & Q2).
  destruct Ea as (n & Hn & Hl & Hba & Hv & H1 & H2 & H3 & H4).
  destruct Eb as (m & Hm & Hl' & Hbb & Hv' & H1' & H2' & H3' & H4').
  unfold lex_lt. destruct (Z.lt_trichotomy n m) as [C|[->|C]].
  - rewrite Hl in *. rewrite Hl' in *. specialize (P2 ltac:(lia)). unfold ones_prefix in *.
    assert (2 ^ (9 - m) <= 2 ^ (9 - (n + 1))) by (apply Z.pow_le_mono_r; lia).
    rewrite Ela, Elb. cbn [app lex_cmp]. destruct (Z.compare_spec x y); try lia. reflexivity.
  - assert (E : lex_cmp (WriteOrderedVarint64 a) (WriteOrderedVarint64 b) = Lt).
    { rewrite be_cmp_val by (try assumption; lia). rewrite Hv, Hv'. apply Z.compare_lt_iff; lia. }
    rewrite lex_cmp_app_len; [exact E|lia|]. rewrite E; discriminate.
  - exfalso. specialize (H2 ltac:(lia)). specialize (H3' ltac:(lia)).
    assert (2 ^ (7 * m) <= 2 ^ (7 * (n - 1))) by (apply Z.pow_le_mono_r; lia). lia.
Qed.
