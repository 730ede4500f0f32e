(** Signed and unsigned types, widths and space. *)
From Verif Require Import Base.Bytes Model.WriteInt Spec.WriteIntSpec Proof.WriteIntProof Proof.WriteIntDec Proof.WriteIntHex.

(** Both kinds of numerals *)
Definition goods (base : Z) (up : bool) (v w : Z) (s : list Z) : Prop :=
  if v <? 0 then exists t, s = 45 :: t /\ good base up (Some t) (- v) (w - 1) else good base up (Some s) v w.
Lemma goods_text base up v w s : 2 <= base <= 16 -> goods base up v w s -> text base up v w s.
Proof.
  intros B. unfold goods, text. destruct (v <? 0); [|now apply good_numeral]. intros (t & -> & G). exists t. split; [reflexivity|]. now apply good_numeral.
Qed.
Lemma good_neg_width base up s n w w' : 2 <= base <= 16 -> Z.max 1 w = Z.max 1 w' -> good base up s n w -> good base up s n w'.
Proof. intros B. now apply good_width. Qed.
Lemma good_some base up s n w : good base up s n w -> exists t, s = Some t /\ good base up (Some t) n w.
Proof. intros (k & -> & G). eexists. split; [reflexivity|]. exists k. now split. Qed.
(** At most this number of digits *)
Lemma good_unique base up t t' n w : 2 <= base <= 16 -> good base up (Some t) n w -> good base up (Some t') n w -> t = t'.
Proof.
  intros B (j & [= ->] & A & C & D & F) (k & [= ->] & A' & C' & D' & F'). f_equal. destruct (Nat.lt_trichotomy j k) as [X|[X|X]]; [|exact X|]; exfalso.
  - specialize (F' ltac:(lia)). assert (base ^ Z.of_nat j <= base ^ (Z.of_nat k - 1)) by (apply Z.pow_le_mono_r; lia). lia.
  - specialize (F ltac:(lia)). assert (base ^ Z.of_nat k <= base ^ (Z.of_nat j - 1)) by (apply Z.pow_le_mono_r; lia). lia.
Qed.
Lemma goods_unique base up t t' v w : 2 <= base <= 16 -> goods base up v w t -> goods base up v w t' -> t = t'.
Proof. intros B. unfold goods. destruct (v <? 0); [|now apply good_unique]. intros (x & -> & X) (y & -> & Y). f_equal. eapply good_unique; eauto. Qed.

Lemma neg_cast b v : - 2 ^ (num b - 1) <= v < 0 -> NegatingUnsignedCast b v = Some (- v).
Proof.
  intros V. unfold NegatingUnsignedCast, check. replace (v <=? 0) with true by (symmetry; apply Z.leb_le; lia). f_equal. rewrite Zminus_mod_idemp_r. apply Z.mod_small. destruct b; cbn [num] in *; lia.
Qed.
Lemma neg_cast_wide b v : - 2 ^ (num b - 1) <= v < 0 -> NegatingUnsignedCast (wide b) v = Some (- v).
Proof. intros V. apply neg_cast. destruct b; cbn [num wide] in *; lia. Qed.
Lemma pos_cast b v : 0 <= v < 2 ^ (num b - 1) -> UnsignedCast b v = v. Proof. intros V. apply Z.mod_small. destruct b; cbn [num] in *; lia. Qed.
Lemma pos_cast_wide b v : 0 <= v < 2 ^ (num b - 1) -> UnsignedCast (wide b) v = v. Proof. intros V. apply Z.mod_small. destruct b; cbn [num wide] in *; lia. Qed.
Lemma half b : 2 * 2 ^ (num b - 1) = 2 ^ num b /\ 2 ^ num b <= 2 ^ num (wide b). Proof. destruct b; split; cbn; lia. Qed.
Lemma nonneg_goods base up s v w : 0 <= v -> good base up s v w -> exists t, s = Some t /\ goods base up v w t.
Proof. intros V G. destruct (good_some _ _ _ _ _ G) as (t & -> & G'). exists t. split; [reflexivity|]. unfold goods. now replace (v <? 0) with false by (symmetry; apply Z.ltb_ge; lia). Qed.
Lemma neg_goods base up s v w : 2 <= base <= 16 -> v < 0 -> good base up s (- v) (SaturatingSub w 1) -> exists t, Some [45] +++ s = Some t /\ goods base up v w t.
Proof.
  intros B V G. destruct (good_some _ _ _ _ _ G) as (t & -> & G'). exists (45 :: t). split; [reflexivity|]. unfold goods. replace (v <? 0) with true by (symmetry; apply Z.ltb_lt; lia). exists t. split; [reflexivity|]. eapply good_width; [exact B| |exact G']. unfold SaturatingSub. destruct (Z.ltb_spec w 1); lia.
Qed.
Lemma sat0 a b : 0 <= a -> 0 <= SaturatingSub a b. Proof. unfold SaturatingSub. destruct (Z.ltb_spec a b); lia. Qed.
(** The space *)
Lemma dec_space signed b : 2 ^ digits signed b <= 10 ^ (digits10 signed b + 1) - 1 /\ 1 <= digits10 signed b. Proof. destruct signed, b; cbv; split; discriminate. Qed.
Lemma dec_fits signed b v w t : value_of signed b v -> goods 10 false v w t -> zlen t <= Z.max w (if signed then digits10 signed b + 1 + 1 else digits10 signed b + 1).
Proof.
  intros V G. pose proof (dec_space signed b) as (S & S1). unfold goods in G. destruct (Z.ltb_spec v 0) as [L|L].
  - destruct G as (u & -> & G). destruct signed; cbn [value_of] in V; [|lia]. rewrite zlen_cons. pose proof (good_len 10 false ltac:(lia) u _ _ G (digits10 true b + 1) ltac:(lia)) as H. cbn [digits] in S. specialize (H ltac:(lia)). lia.
  - pose proof (good_len 10 false ltac:(lia) t _ _ G (digits10 signed b + 1) ltac:(lia)) as H. unfold value_of in V. unfold digits in S. destruct signed; specialize (H ltac:(lia)); lia.
Qed.
Lemma value_split signed b v : value_of signed b v -> (0 <= v < 2 ^ num b /\ (signed = true -> v < 2 ^ (num b - 1))) \/ (signed = true /\ - 2 ^ (num b - 1) <= v < 0).
Proof. unfold value_of. destruct (half b). destruct signed; intros V; [|left; split; [lia|discriminate]]. destruct (Z.lt_ge_cases v 0); [right; split; [reflexivity|lia]|left; split; [lia|intros _; lia]]. Qed.

(** ** Decimal *)
Lemma dec_signed b v w : value_of true b v -> 0 <= w -> exists t, WriteDecSigned b v w = Some t /\ goods 10 false v w t.
Proof.
  intros V W. assert (W' : 0 <= (if w <=? 1 then 0 else w)) by (destruct (w <=? 1); lia). assert (G : forall t, goods 10 false v (if w <=? 1 then 0 else w) t -> goods 10 false v w t).
  { intros t. unfold goods. destruct (Z.leb_spec w 1); [|auto]. destruct (v <? 0); [|apply (good_width 10 false ltac:(lia)); lia]. intros (u & -> & G). exists u. split; [reflexivity|]. eapply good_width; [lia| |exact G]. lia. }
  unfold WriteDecSigned. cbv zeta. set (w' := if w <=? 1 then 0 else w) in *. pose proof (half b) as (H1 & H2). destruct (Z.leb_spec 0 v) as [P|P].
  - cbn [value_of] in V. rewrite pos_cast_wide by lia. destruct (nonneg_goods 10 false _ v w' P (WriteDec_ok (wide b) v w' ltac:(lia) W')) as (t & -> & X). eauto.
  - cbn [value_of] in V. rewrite neg_cast_wide by lia. destruct (neg_goods 10 false _ v w' ltac:(lia) P (WriteDec_ok (wide b) (- v) (SaturatingSub w' 1) ltac:(lia) (sat0 _ _ W'))) as (t & -> & X). eauto.
Qed.
Lemma dec_signed_back b v : value_of true b v -> exists t, WriteDecSignedBackward b v = Some t /\ goods 10 false v 0 t.
Proof.
  intros V. unfold WriteDecSignedBackward. pose proof (half b) as (H1 & H2). cbn [value_of] in V. destruct (Z.leb_spec 0 v) as [P|P].
  - rewrite pos_cast_wide by lia. exact (nonneg_goods 10 false _ v 0 P (WriteDecUnsignedBackward_ok (wide b) v ltac:(lia))).
  - rewrite neg_cast_wide by lia. exact (neg_goods 10 false _ v 0 ltac:(lia) P (WriteDecUnsignedBackward_ok (wide b) (- v) ltac:(lia))).
Qed.
Lemma dec_any signed b v w : value_of signed b v -> 0 <= w -> exists t, (if signed then WriteDecSigned b v w else WriteDecUnsigned b v w) = Some t /\ goods 10 false v w t.
Proof. intros V W. destruct signed; [now apply dec_signed|]. cbn [value_of] in V. apply nonneg_goods; [lia|]. now apply WriteDecUnsigned_ok. Qed.
Lemma dec_write signed b v w : value_of signed b v -> 0 <= w -> exists t, DecWriteTo signed b v w = Some t /\ goods 10 false v w t.
Proof.
  intros V W. destruct (dec_any signed b v w V W) as (t & E & G). exists t. split; [|exact G]. unfold DecWriteTo. pose proof (dec_fits _ _ _ _ _ V G) as F. destruct signed; rewrite E; unfold check; match goal with |- (if ?c then _ else _) = _ => replace c with true by (symmetry; apply Z.leb_le; lia) end; reflexivity.
Qed.
Lemma pad_goods n w s t : s = Some t -> good 10 false s n 0 -> 0 <= w -> good 10 false (Some ((if zlen t <? w then fill0 (w - zlen t) else []) ++ t)) n w.
Proof.
  intros -> G W. destruct (Z.ltb_spec (zlen t) w) as [L|L].
  - pose proof (good_more 10 false ltac:(lia) _ n 0 w G ltac:(now exists t) W) as X. exact X.
  - cbn [app]. destruct G as (k & [= ->] & A & C & D & F). exists k. split; [reflexivity|]. unfold zlen in L. rewrite fixed_len in L. split; [lia|]. split; [lia|]. split; [lia|]. intros Y. apply F. lia.
Qed.
Lemma dec_stringify signed b v w : value_of signed b v -> 0 <= w -> exists t, DecStringify signed b v w = Some t /\ goods 10 false v w t.
Proof.
  intros V W. pose proof (half b) as (H1 & H2). destruct (value_split _ _ _ V) as [(P & PS)|(-> & P)].
  - destruct (good_some _ _ _ _ _ (WriteDecUnsignedBackward_ok b v P)) as (t & E & G). exists ((if zlen t <? w then fill0 (w - zlen t) else []) ++ t). split; [|unfold goods; replace (v <? 0) with false by (symmetry; apply Z.ltb_ge; lia); apply (pad_goods v w _ t eq_refl G W)].
    assert (L : zlen t <= digits10 signed b + 1). { pose proof (dec_space signed b) as (S & S1). pose proof (good_len 10 false ltac:(lia) t _ _ G (digits10 signed b + 1) ltac:(lia)) as H. unfold value_of in V. unfold digits in S. destruct signed; specialize (H ltac:(lia)); lia. }
    unfold DecStringify. cbv zeta. destruct signed; [replace (0 <=? v) with true by (symmetry; apply Z.leb_le; lia); rewrite pos_cast by (specialize (PS eq_refl); lia)|]; rewrite E; unfold check; match goal with |- (if ?c then _ else _) = _ => replace c with true by (symmetry; apply Z.leb_le; lia) end; reflexivity.
  - destruct (good_some _ _ _ _ _ (WriteDecUnsignedBackward_ok b (- v) ltac:(lia))) as (t & E & G). unfold DecStringify. cbv zeta. replace (0 <=? v) with false by (symmetry; apply Z.leb_gt; lia). rewrite neg_cast by lia. rewrite E.
    assert (L : zlen t <= digits10 true b + 1). { pose proof (dec_space true b) as (S & S1). pose proof (good_len 10 false ltac:(lia) t _ _ G (digits10 true b + 1) ltac:(lia)) as H. unfold digits in S. specialize (H ltac:(lia)). lia. }
    unfold check. replace (zlen t + 1 <=? digits10 true b + 1 + 1) with true by (symmetry; apply Z.leb_le; lia). eexists. split; [reflexivity|]. unfold goods. replace (v <? 0) with true by (symmetry; apply Z.ltb_lt; lia).
    destruct (Z.leb_spec 1 w) as [W1|W1].
    + pose proof (pad_goods (- v) (w - 1) _ t eq_refl G ltac:(lia)) as X. eexists. split; [|exact X]. destruct (Z.ltb_spec (zlen t + 1) w) as [Y|Y]; [replace (zlen t <? w - 1) with true by (symmetry; apply Z.ltb_lt; lia)|replace (zlen t <? w - 1) with false by (symmetry; apply Z.ltb_ge; lia)]; [|reflexivity].
      cbn [app]. do 3 f_equal. lia.
    + pose proof (zlen_nonneg t). replace (zlen t + 1 <? w) with false by (symmetry; apply Z.ltb_ge; lia). exists t. split; [reflexivity|]. eapply good_width; [lia| |exact G]. lia.
Qed.
Lemma dec_size_unsigned b v t w : 0 <= v < 2 ^ num b -> 0 <= w -> good 10 false (Some t) v w -> exists n, StringifiedSizeUnsigned b v = Some n /\ Z.max w n = zlen t.
Proof.
  intros V W G. destruct (good_some _ _ _ _ _ (WriteDecUnsignedBackward_ok b v V)) as (u & _ & Gu). exists (zlen u). split; [now apply WriteIntDec.size_ok|].
  pose proof (pad_goods v w _ u eq_refl Gu W) as P. rewrite (good_unique 10 false _ _ v w ltac:(lia) G P). rewrite zlen_app. destruct (Z.ltb_spec (zlen u) w); [unfold fill0; rewrite zlen_repeat; lia|change (zlen (@nil Z)) with 0; lia].
Qed.
Lemma dec_size signed b v t w : value_of signed b v -> 0 <= w -> goods 10 false v w t -> DecStringifiedSize signed b v w = Some (zlen t).
Proof.
  intros V W G. pose proof (half b) as (H1 & H2). unfold DecStringifiedSize. unfold goods in G. destruct (value_split _ _ _ V) as [(P & PS)|(-> & P)].
  - replace (v <? 0) with false in G by (symmetry; apply Z.ltb_ge; lia). destruct signed.
    + unfold StringifiedSizeSigned. replace (0 <=? v) with true by (symmetry; apply Z.leb_le; lia). rewrite pos_cast_wide by (specialize (PS eq_refl); lia). destruct (dec_size_unsigned (wide b) v t w ltac:(lia) W G) as (n & -> & <-). reflexivity.
    + destruct (dec_size_unsigned b v t w P W G) as (n & -> & <-). reflexivity.
  - replace (v <? 0) with true in G by (symmetry; apply Z.ltb_lt; lia). destruct G as (u & -> & G). unfold StringifiedSizeSigned. replace (0 <=? v) with false by (symmetry; apply Z.leb_gt; lia). rewrite neg_cast_wide by lia.
    assert (G' : good 10 false (Some u) (- v) (SaturatingSub w 1)) by (eapply good_width; [lia| |exact G]; unfold SaturatingSub; destruct (Z.ltb_spec w 1); lia).
    destruct (dec_size_unsigned (wide b) (- v) u (SaturatingSub w 1) ltac:(lia) (sat0 _ _ W) G') as (n & E & L). rewrite E. cbn [option_map]. f_equal. rewrite zlen_cons, <- L. unfold SaturatingSub. pose proof (zlen_nonneg u).
    assert (0 < zlen u). { destruct G as (k & [= ->] & _ & K & _). unfold zlen. rewrite fixed_len. lia. } destruct (Z.ltb_spec w 1); unfold SaturatingSub in L; destruct (Z.ltb_spec w 1); lia.
Qed.

Lemma cat_nil x : Some [] +++ x = x. Proof. destruct x; reflexivity. Qed.
(** ** Hexadecimal *)
Section Hex.
Context (ssse3 up : bool).
Lemma hex_fits signed b v w t : value_of signed b v -> goods 16 up v w t -> zlen t <= Z.max w (if signed then (digits signed b + 3) / 4 + 1 else (digits signed b + 3) / 4).
Proof.
  intros V G. assert (K : (digits signed b + 3) / 4 = num b / 4 /\ 16 ^ (num b / 4) = 2 ^ num b /\ 2 <= num b / 4) by (destruct signed, b; cbv; repeat split; try discriminate). destruct K as (K1 & K2 & K3). rewrite K1. pose proof (half b) as (H1 & H2). unfold goods in G. destruct (Z.ltb_spec v 0) as [L|L].
  - destruct G as (u & -> & G). destruct signed; cbn [value_of] in V; [|lia]. rewrite zlen_cons. pose proof (good_len 16 up ltac:(lia) u _ _ G (num b / 4) ltac:(lia) ltac:(lia)). lia.
  - pose proof (good_len 16 up ltac:(lia) t _ _ G (num b / 4) ltac:(lia)) as H. unfold value_of in V. destruct signed; specialize (H ltac:(lia)); lia.
Qed.
Lemma hex_write signed b v w : value_of signed b v -> 0 <= w -> exists t, HexWriteTo ssse3 up signed b v w = Some t /\ goods 16 up v w t.
Proof.
  intros V W. pose proof (half b) as (H1 & H2). unfold HexWriteTo. cbv zeta.
  destruct signed; cbn [value_of] in V.
  - assert (X : exists t, (if 0 <=? v then WriteHexUnsigned ssse3 up b (UnsignedCast b v) w else match NegatingUnsignedCast b v with Some a => Some [45] +++ WriteHexUnsigned ssse3 up b a (SaturatingSub w 1) | None => None end) = Some t /\ goods 16 up v w t).
    { destruct (Z.leb_spec 0 v) as [P|P]; [rewrite pos_cast by lia; apply nonneg_goods; [lia|]; apply WriteHexUnsigned_ok; lia|]. rewrite neg_cast by lia. apply neg_goods; [lia|lia|]. apply WriteHexUnsigned_ok; [lia|now apply sat0]. }
    destruct X as (t & -> & G). exists t. split; [|exact G]. pose proof (hex_fits true b v w t V G) as F. cbn beta iota in F. unfold check. match goal with |- (if ?c then _ else _) = _ => replace c with true by (symmetry; apply Z.leb_le; lia) end; reflexivity.
  - destruct (nonneg_goods 16 up _ v w ltac:(lia) (WriteHexUnsigned_ok ssse3 up b v w V W)) as (t & -> & G). exists t. split; [|exact G]. pose proof (hex_fits false b v w t V G) as F. cbn beta iota in F. unfold check. match goal with |- (if ?c then _ else _) = _ => replace c with true by (symmetry; apply Z.leb_le; lia) end; reflexivity.
Qed.
Lemma hex_pad b n w : 0 <= n < 2 ^ num b -> 0 <= w ->
  good 16 up (Some (if num b / 4 <? w then fill0 (w - num b / 4) else []) +++ WriteHexUnsignedBackward ssse3 up b n (if num b / 4 <? w then num b / 4 else w)) n w.
Proof.
  intros N W. assert (K : 2 <= num b / 4) by (destruct b; cbv; discriminate). destruct (Z.ltb_spec (num b / 4) w) as [L|L].
  - pose proof (backward_ok ssse3 up b n (num b / 4) N ltac:(lia)) as G. destruct (good_some _ _ _ _ _ G) as (t & E & G'). rewrite E. cbn [cat]. pose proof (hexsize_len up b n _ t N G') as LT. pose proof (hexsize b n N) as (X & _). replace (Z.max (num b / 4) (HexStringifiedSizeUnsigned b n)) with (num b / 4) in LT by lia. rewrite <- LT.
    pose proof (good_more 16 up ltac:(lia) _ n _ w G' ltac:(exists t; split; [reflexivity|lia]) ltac:(lia)) as M. exact M.
  - pose proof (backward_ok ssse3 up b n w N ltac:(lia)) as G. destruct (good_some _ _ _ _ _ G) as (t & E & G'). rewrite E. exact G'.
Qed.
Lemma hex_stringify signed b v w : value_of signed b v -> 0 <= w -> exists t, HexStringify ssse3 up signed b v w = Some t /\ goods 16 up v w t.
Proof.
  intros V W. pose proof (half b) as (H1 & H2). unfold HexStringify, MaxLengthWriteHexUnsignedBackward. cbv zeta. destruct (value_split _ _ _ V) as [(P & PS)|(-> & P)].
  - destruct signed; [replace (0 <=? v) with true by (symmetry; apply Z.leb_le; lia); rewrite pos_cast by (specialize (PS eq_refl); lia)|]; (apply nonneg_goods; [lia|]; apply hex_pad; [exact P|exact W]).
  - replace (0 <=? v) with false by (symmetry; apply Z.leb_gt; lia). rewrite neg_cast by lia. pose proof (hex_pad b (- v) (SaturatingSub w 1) ltac:(lia) (sat0 _ _ W)) as G. assert (K : 2 <= num b / 4) by (destruct b; cbv; discriminate).
    destruct (neg_goods 16 up _ v w ltac:(lia) ltac:(lia) G) as (t & E & X). exists t. split; [|exact X]. rewrite <- E. destruct (Z.ltb_spec (num b / 4 + 1) w) as [L|L].
    + unfold SaturatingSub. replace (w <? 1) with false by (symmetry; apply Z.ltb_ge; lia). replace (num b / 4 <? w - 1) with true by (symmetry; apply Z.ltb_lt; lia). replace (w - (num b / 4 + 1)) with (w - 1 - num b / 4) by lia. reflexivity.
    + unfold SaturatingSub. destruct (Z.ltb_spec w 1); [replace (num b / 4 <? 0) with false by (symmetry; apply Z.ltb_ge; lia)|replace (num b / 4 <? w - 1) with false by (symmetry; apply Z.ltb_ge; lia)]; rewrite cat_nil; reflexivity.
Qed.
Lemma hex_size signed b v t w : value_of signed b v -> 0 <= w -> goods 16 up v w t -> HexStringifiedSize signed b v w = Some (zlen t).
Proof.
  intros V W G. pose proof (half b) as (H1 & H2). unfold HexStringifiedSize. unfold goods in G. destruct (value_split _ _ _ V) as [(P & PS)|(-> & P)].
  - replace (v <? 0) with false in G by (symmetry; apply Z.ltb_ge; lia). pose proof (hexsize_len up b v w t P G) as L. pose proof (hexsize b v P) as (X & _). destruct signed.
    + unfold HexStringifiedSizeSigned. replace (0 <=? v) with true by (symmetry; apply Z.leb_le; lia). rewrite pos_cast by (specialize (PS eq_refl); lia). cbn [option_map]. now rewrite L.
    + cbv zeta. replace ((digits false b + 3) / 4) with (num b / 4) by (destruct b; reflexivity). destruct (Z.leb_spec (num b / 4) w); [f_equal; lia|now rewrite L].
  - replace (v <? 0) with true in G by (symmetry; apply Z.ltb_lt; lia). destruct G as (u & -> & G). unfold HexStringifiedSizeSigned. replace (0 <=? v) with false by (symmetry; apply Z.leb_gt; lia). rewrite neg_cast by lia. cbn [option_map]. f_equal.
    pose proof (hexsize_len up b (- v) _ u ltac:(lia) G) as L. rewrite zlen_cons, L. lia.
Qed.
End Hex.

(** The specification determines the text *)
Lemma numeral_unique base up n w s t : 2 <= base <= 16 -> numeral base up n w s -> numeral base up n w t -> s = t.
Proof.
  intros B (ds & -> & D & V & L & W & H) (es & -> & E & V' & L' & W' & H'). unfold zlen in *. rewrite map_length in *. f_equal.
  assert (LEN : length ds = length es).
  { assert (X : forall (xs ys : list Z), Forall (fun d => 0 <= d < base) xs -> Forall (fun d => 0 <= d < base) ys -> fold_left (fun a d => base * a + d) xs 0 = n -> fold_left (fun a d => base * a + d) ys 0 = n -> hd 0 xs <> 0 -> (length ys < length xs)%nat -> False).
    { intros xs ys FX FY VX VY HX LT. destruct xs as [|x xs]; [cbn in LT; lia|]. inversion FX as [|? ? X0 X1]; subst. cbn [hd] in HX. cbn [fold_left] in VY.
      pose proof (value_bound base B xs X1 (base * 0 + x) ltac:(lia)) as BX. pose proof (value_bound base B ys FY 0 ltac:(lia)) as BY. cbn [fold_left] in *. assert (base ^ zlen ys <= base ^ zlen xs) by (apply Z.pow_le_mono_r; [lia|unfold zlen; cbn in LT; lia]). assert (0 < base ^ zlen xs) by (apply Z.pow_pos_nonneg; [lia|apply zlen_nonneg]). nia. }
    destruct (Nat.lt_trichotomy (length ds) (length es)) as [C|[C|C]]; [|exact C|]; exfalso; [apply (X es ds); auto; apply H'; lia|apply (X ds es); auto; apply H; lia]. }
  clear L L' W W' H H'. assert (X : forall (xs ys : list Z) a c, Forall (fun d => 0 <= d < base) xs -> Forall (fun d => 0 <= d < base) ys -> length xs = length ys -> 0 <= a -> 0 <= c -> fold_left (fun a d => base * a + d) xs a = fold_left (fun a d => base * a + d) ys c -> a = c /\ xs = ys).
  { induction xs as [|x xs IH]; intros [|y ys] a c FX FY LE A C VE; try discriminate; [now split|]. inversion FX; inversion FY; subst. cbn [fold_left] in VE. destruct (IH ys (base * a + x) (base * c + y)) as (Q & ->); auto; try nia. assert (a = c) by nia. subst c. split; [reflexivity|]. f_equal. lia. }
  destruct (X ds es 0 0 D E LEN ltac:(lia) ltac:(lia) ltac:(congruence)). assumption.
Qed.
(** The text determines the value *)
Lemma digit_char_inj up d e : 0 <= d < 16 -> 0 <= e < 16 -> digit_char up d = digit_char up e -> d = e.
Proof. unfold digit_char. destruct up; destruct (Z.ltb_spec d 10), (Z.ltb_spec e 10); lia. Qed.
Lemma digits_inj base up ds es : 2 <= base <= 16 -> Forall (fun d => 0 <= d < base) ds -> Forall (fun d => 0 <= d < base) es -> map (digit_char up) ds = map (digit_char up) es -> ds = es.
Proof.
  intros B. revert es. induction ds as [|d ds IH]; intros [|e es] D E M; try discriminate; [reflexivity|]. inversion D; inversion E; subst. cbn [map] in M. injection M as M1 M2. f_equal; [eapply digit_char_inj; [lia|lia|exact M1]|now apply IH].
Qed.
Lemma numeral_injective base up n n' w w' s : 2 <= base <= 16 -> numeral base up n w s -> numeral base up n' w' s -> n = n'.
Proof. intros B (ds & -> & D & <- & _) (es & M & E & <- & _). now rewrite (digits_inj base up ds es B D E M). Qed.
Lemma no_minus base up n w t : 2 <= base <= 16 -> ~ numeral base up n w (45 :: t).
Proof.
  intros B (ds & M & D & _). destruct ds as [|d ds]; [discriminate|]. cbn [map] in M. injection M as M _. inversion D; subst. unfold digit_char in M. destruct up; destruct (Z.ltb_spec d 10); lia.
Qed.
Lemma text_injective base up v v' w w' s : 2 <= base <= 16 -> text base up v w s -> text base up v' w' s -> v = v'.
Proof.
  intros B. unfold text. destruct (v <? 0), (v' <? 0).
  - intros (x & -> & X) (y & [= <-] & Y). pose proof (numeral_injective _ _ _ _ _ _ _ B X Y). lia.
  - intros (x & -> & X) Y. destruct (no_minus _ _ _ _ _ B Y).
  - intros X (y & -> & Y). destruct (no_minus _ _ _ _ _ B X).
  - apply numeral_injective; exact B.
Qed.
