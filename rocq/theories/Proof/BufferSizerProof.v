From Verif Require Import Base.Bytes Model.BufferSizer.

Definition options_ok (o : BufferOptions) : Prop := 0 <= min_buffer_size o <= 2 ^ 31 /\ 0 < max_buffer_size o <= 2 ^ 31.
Lemma make_options_ok min max o : 0 <= min -> make_options min max = Some o -> options_ok o.
Proof. intros M. unfold make_options. destruct (max <=? 0) eqn:E; [discriminate|]. intros H. injection H as <-. unfold options_ok. cbn [min_buffer_size max_buffer_size]. lia. Qed.

Lemma round_pos_ge base min rec max hint pos single : 0 <= base -> 0 <= min <= 2 ^ 63 -> 0 <= rec -> 0 < max <= 2 ^ 31 ->
  min <= ApplySizeHintAndRoundPos base min rec max hint pos single /\ 0 <= ApplySizeHintAndRoundPos base min rec max hint pos single.
Proof.
  intros B M R X. unfold ApplySizeHintAndRoundPos. set (b := if single then ApplySizeHint base hint pos else base). clearbody b.
  set (l := Z.min (Z.max (Z.max b min) rec) max). assert (L : 0 <= l <= 2 ^ 31) by lia. clearbody l.
  destruct (l =? 0) eqn:L0; [lia|]. unfold bit_ceil. set (k := Z.log2_up l).
  assert (K : 0 <= k <= 31). { split; [apply Z.log2_up_nonneg|]. unfold k. change 31 with (Z.log2_up (2 ^ 31)). apply Z.log2_up_le_mono. lia. }
  clearbody k. rewrite land_ones_mod by lia. assert (P : 0 < 2 ^ k) by (apply Z.pow_pos_nonneg; lia). assert (P2 : 2 ^ k <= 2 ^ 31) by (apply Z.pow_le_mono_r; lia).
  pose proof (Z.mod_pos_bound (Z.lnot pos) (2 ^ k) P) as Q. set (r := Z.lnot pos mod 2 ^ k + 1) in *. assert (R1 : 1 <= r <= 2 ^ k) by lia. clearbody r. clear Q.
  destruct (r <? min) eqn:C; [|lia].
  set (x := min - r + (2 ^ k - 1)). assert (X1 : 0 <= x < 2 ^ 64) by lia. replace (u64 x) with x by (unfold u64; rewrite Z.mod_small; lia).
  assert (E : Z.land x (Z.lnot (2 ^ k - 1)) = x - x mod 2 ^ k).
  { change (Z.land x (Z.lnot (2 ^ k - 1))) with (Z.ldiff x (2 ^ k - 1)) || rewrite <- Z.ldiff_land.
    replace (2 ^ k - 1) with (Z.ones k) by (rewrite Z.ones_equiv; lia). rewrite Z.ldiff_ones_r by lia. rewrite Z.shiftl_mul_pow2, Z.shiftr_div_pow2 by lia.
    pose proof (Z.div_mod x (2 ^ k)). lia. }
  rewrite E. pose proof (Z.mod_pos_bound x (2 ^ k) P). unfold u64. rewrite Z.mod_small by lia. lia.
Qed.
Definition write_sizer_ok (s : WriteBufferSizer) : Prop := options_ok (ws_options s) /\ 0 <= ws_last_run s.
Lemma ws_BufferLength_ok s pos min rec : write_sizer_ok s -> ws_base_pos s <= pos -> 0 <= min <= 2 ^ 63 -> 0 <= rec ->
  exists n, ws_BufferLength s pos min rec = Some n /\ min <= n /\ 0 <= n.
Proof.
  intros [[O1 O2] L] B M R. unfold ws_BufferLength. replace (pos <? ws_base_pos s) with false by lia. eexists. split; [reflexivity|].
  match goal with |- context [ApplySizeHintAndRoundPos ?a ?b ?c ?d ?e ?f ?g] => destruct (round_pos_ge a b c d e f g) as [G1 G2]; [lia|lia|lia|lia|generalize dependent (ApplySizeHintAndRoundPos a b c d e f g)] end.
  intros n N1 N2. destruct (ws_size_hint s) as [h|]; [|lia]. destruct (pos <=? h); [|lia]. unfold UnsignedClamp. lia.
Qed.
Lemma ws_EndRun_ok s pos : write_sizer_ok s -> ws_base_pos s <= pos ->
  exists s', ws_EndRun pos s = Some s' /\ write_sizer_ok s' /\ ws_base_pos s' = ws_base_pos s.
Proof.
  intros [O L] B. unfold ws_EndRun. replace (pos <? ws_base_pos s) with false by lia. destruct (pos =? ws_base_pos s) eqn:E; eexists; (split; [reflexivity|]);
    (split; [|reflexivity]); split; try exact O; cbn; try lia. unfold SaturatingAdd. lia.
Qed.
Definition read_sizer_ok (s : ReadBufferSizer) : Prop := options_ok (rs_options s) /\ 0 <= rs_last_run s.
Lemma rs_BufferLength_ok s pos min rec : read_sizer_ok s -> rs_base_pos s <= pos -> 0 <= min <= 2 ^ 63 -> 0 <= rec ->
  exists n, rs_BufferLength s pos min rec = Some n /\ 0 <= n /\ match rs_exact_size s with Some e => Z.min min (Z.max 0 (e - pos)) <= n | None => min <= n end.
Proof.
  intros [[O1 O2] L] B M R. unfold rs_BufferLength. replace (pos <? rs_base_pos s) with false by lia. eexists. split; [reflexivity|].
  match goal with |- context [ApplySizeHintAndRoundPos ?a ?b ?c ?d ?e ?f ?g] => destruct (round_pos_ge a b c d e f g) as [G1 G2]; [lia|lia|lia|lia|generalize dependent (ApplySizeHintAndRoundPos a b c d e f g)] end.
  intros n N1 N2. destruct (rs_exact_size s) as [h|]; [|lia]. unfold SaturatingSub. lia.
Qed.
Lemma rs_EndRun_ok s pos : read_sizer_ok s -> rs_base_pos s <= pos ->
  exists s', rs_EndRun pos s = Some s' /\ read_sizer_ok s' /\ rs_base_pos s' = rs_base_pos s /\ rs_exact_size s' = rs_exact_size s.
Proof.
  intros [O L] B. unfold rs_EndRun. replace (pos <? rs_base_pos s) with false by lia. destruct (pos =? rs_base_pos s) eqn:E; eexists; (split; [reflexivity|]);
    (split; [|split; reflexivity]); split; try exact O; cbn; try lia. unfold SaturatingAdd. lia.
Qed.
