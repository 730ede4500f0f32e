(** RecordPosition: text and binary formats. *)
From Verif Require Import Base.Bytes Model.Endian Model.OrderedVarint Model.RecordPosition Spec.OrderedVarintSpec Spec.RecordPositionSpec
  Proof.EndianProof Proof.OrderedVarintProof.

Definition digit (c : Z) : Prop := 48 <= c <= 57.
Definition value_of (a : Z) (l : list Z) : Z := fold_left (fun a c => a * 10 + (c - 48)) l a.
Lemma value_ge l : forall a, 0 <= a -> Forall digit l -> a <= value_of a l.
Proof.
  induction l as [|c l IH]; intros a A F; [cbn; lia|]. inversion F as [|? ? D F']; subst. unfold digit in D. cbn [value_of fold_left]. fold (value_of (a * 10 + (c - 48)) l).
  specialize (IH (a * 10 + (c - 48)) ltac:(lia) F'). lia.
Qed.
Lemma parse_digits_ok l : forall a, 0 <= a < 2 ^ 64 -> Forall digit l ->
  parse_digits a l = if value_of a l <? 2 ^ 64 then Some (value_of a l) else None.
Proof.
  induction l as [|c l IH]; intros a A F; cbn [parse_digits].
  - cbn [value_of fold_left]. destruct (Z.ltb_spec a (2 ^ 64)); [reflexivity|lia].
  - inversion F as [|? ? D F']; subst. unfold digit in D. cbn [value_of fold_left]. fold (value_of (a * 10 + (c - 48)) l).
    replace ((c <? 48) || (57 <? c)) with false by (symmetry; apply Bool.orb_false_iff; split; apply Z.ltb_ge; lia).
    pose proof (value_ge l (a * 10 + (c - 48)) ltac:(lia) F') as G.
    assert (Q : (2 ^ 64 - 1) / 10 = 1844674407370955161) by reflexivity. rewrite Q.
    destruct (Z.ltb_spec 1844674407370955161 a) as [X|X].
    + destruct (Z.ltb_spec (value_of (a * 10 + (c - 48)) l) (2 ^ 64)); [lia|reflexivity].
    + destruct (Z.ltb_spec (2 ^ 64 - 1 - (c - 48)) (a * 10)) as [Y|Y].
      * destruct (Z.ltb_spec (value_of (a * 10 + (c - 48)) l) (2 ^ 64)); [lia|reflexivity].
      * apply IH; [lia|exact F'].
Qed.
Lemma parse_digits_range l : forall a v, 0 <= a < 2 ^ 64 -> parse_digits a l = Some v -> 0 <= v < 2 ^ 64.
Proof.
  induction l as [|c l IH]; intros a v A E; cbn [parse_digits] in E; [injection E as <-; exact A|].
  destruct ((c <? 48) || (57 <? c)) eqn:D; [discriminate E|]. apply Bool.orb_false_iff in D as [D1 D2]. apply Z.ltb_ge in D1, D2.
  destruct (_ <? a); [discriminate E|]. destruct (Z.ltb_spec (2 ^ 64 - 1 - (c - 48)) (a * 10)); [discriminate E|]. apply (IH _ _) in E; [exact E|lia].
Qed.
Lemma strip_front_digit c l : digit c -> strip_front (c :: l) = c :: l.
Proof. intros D. cbn. unfold is_space, digit in *. destruct (Z.leb_spec 9 c), (Z.leb_spec c 13), (Z.eqb_spec c 32); cbn; try reflexivity; lia. Qed.
Lemma strip_digits l : Forall digit l -> strip l = l.
Proof.
  intros F. unfold strip. assert (G : forall l, Forall digit l -> strip_front l = l) by (intros [|c t] H; [reflexivity|apply strip_front_digit, (Forall_inv H)]).
  rewrite (G l F), G by (apply Forall_rev; exact F). apply rev_involutive.
Qed.
Lemma SimpleAtoi_decimal n l : is_decimal n l -> SimpleAtoi l = if n <? 2 ^ 64 then Some n else None.
Proof.
  intros (NE & F & V). unfold SimpleAtoi. rewrite (strip_digits l F). destruct l as [|c l]; [congruence|]. pose proof (Forall_inv F) as D. cbv beta in D.
  destruct (Z.eqb_spec c 45); [lia|]. destruct (Z.eqb_spec c 43); [lia|]. rewrite parse_digits_ok by (try assumption; lia). unfold value_of. rewrite V. reflexivity.
Qed.
Lemma SimpleAtoi_range l v : SimpleAtoi l = Some v -> 0 <= v < 2 ^ 64.
Proof.
  unfold SimpleAtoi. destruct (strip l) as [|c t]; [discriminate|]. destruct (c =? 45); [discriminate|]. destruct (c =? 43); [destruct t; [discriminate|]|]; apply parse_digits_range; lia.
Qed.
Lemma split_decimal n l rest : is_decimal n l -> split_at_char 47 (l ++ 47 :: rest) = Some (l, rest).
Proof.
  intros (_ & F & _). induction F as [|c l D F IH]; cbn [app split_at_char]; [reflexivity|]. destruct (Z.eqb_spec c 47); [lia|]. rewrite IH. reflexivity.
Qed.
Lemma from_decimal a b x y : is_decimal a x -> is_decimal b y -> 0 <= a -> 0 <= b ->
  FromString (x ++ 47 :: y) = if a + b <? 2 ^ 64 then Some (a, b) else None.
Proof.
  intros X Y A B. unfold FromString. rewrite (split_decimal a x y X), (SimpleAtoi_decimal a x X).
  destruct (Z.ltb_spec a (2 ^ 64)); [|destruct (Z.ltb_spec (a + b) (2 ^ 64)); [lia|reflexivity]].
  rewrite (SimpleAtoi_decimal b y Y). destruct (Z.ltb_spec b (2 ^ 64)); [|destruct (Z.ltb_spec (a + b) (2 ^ 64)); [lia|reflexivity]].
  destruct (Z.ltb_spec (2 ^ 64 - 1 - a) b), (Z.ltb_spec (a + b) (2 ^ 64)); try reflexivity; lia.
Qed.
Lemma from_sound s p : FromString s = Some p -> position_ok p.
Proof.
  unfold FromString. destruct (split_at_char 47 s) as [[x y]|]; [|discriminate]. destruct (SimpleAtoi x) as [a|] eqn:A; [|discriminate]. destruct (SimpleAtoi y) as [b|] eqn:B; [|discriminate].
  apply SimpleAtoi_range in A, B. destruct (Z.ltb_spec (2 ^ 64 - 1 - a) b); [discriminate|]. intros [= <-]. unfold position_ok. cbn. lia.
Qed.
Lemma decimal_loop_ok fuel : forall n, 0 <= n < 10 ^ Z.of_nat fuel -> (0 < fuel)%nat -> is_decimal n (decimal_loop fuel n).
Proof.
  induction fuel as [|fuel IH]; intros n N P; [lia|]. cbn [decimal_loop]. assert (M : 0 <= n mod 10 < 10) by (apply Z.mod_pos_bound; lia).
  destruct (Z.ltb_spec n 10).
  - cbn [app]. rewrite Z.mod_small by lia. split; [discriminate|]. split; [repeat constructor; lia|]. cbn [fold_left]. lia.
  - assert (0 < fuel)%nat. { destruct fuel; [|lia]. assert (E10 : 10 ^ Z.of_nat 1 = 10) by reflexivity. rewrite E10 in N. lia. }
    assert (D : 0 <= n / 10 < 10 ^ Z.of_nat fuel).
    { split; [apply Z.div_pos; lia|]. apply Z.div_lt_upper_bound; [lia|]. rewrite <- Z.pow_succ_r by lia. replace (Z.succ (Z.of_nat fuel)) with (Z.of_nat (S fuel)) by lia. lia. }
    destruct (IH (n / 10) D ltac:(lia)) as (NE & F & V). split; [intros E; apply app_eq_nil in E as [_ E]; discriminate E|]. split.
    + apply Forall_app. split; [exact F|]. constructor; [lia|constructor].
    + rewrite fold_left_app, V. cbn [fold_left]. pose proof (Z.div_mod n 10 ltac:(lia)). lia.
Qed.
Lemma StrCat_decimal n : 0 <= n -> is_decimal n (StrCat n).
Proof.
  intros N. unfold StrCat. apply decimal_loop_ok; [|lia]. split; [exact N|]. destruct (Z.eq_dec n 0) as [->|NZ]; [apply Z.pow_pos_nonneg; lia|].
  pose proof (Z.log2_spec n ltac:(lia)) as [_ L]. pose proof (Z.log2_nonneg n). replace (Z.of_nat (S (Z.to_nat (Z.log2 n)))) with (Z.succ (Z.log2 n)) by lia.
  eapply Z.lt_le_trans; [exact L|]. apply Z.pow_le_mono_l. lia.
Qed.
Lemma string_round_trip p : position_ok p -> FromString (ToString p) = Some p.
Proof.
  destruct p as [a b]. intros (A & B & S). cbn [fst snd] in *. unfold ToString. cbn [fst snd app]. rewrite (from_decimal a b) by (try apply StrCat_decimal; assumption).
  destruct (Z.ltb_spec (a + b) (2 ^ 64)); [reflexivity|lia].
Qed.

(** ** Binary *)
Lemma varint_length v : 0 <= v < 2 ^ 64 -> 1 <= zlen (WriteOrderedVarint64 v) <= 9 /\ (v < 2 ^ 42 -> zlen (WriteOrderedVarint64 v) <= 6).
Proof.
  intros V. destruct (WriteOrderedVarint64_spec v V) as (n & N & -> & _ & _ & _ & L & _ & _). split; [exact N|]. intros B.
  destruct (Z_le_gt_dec n 6); [exact l|]. specialize (L ltac:(lia)). assert (2 ^ (7 * 6) <= 2 ^ (7 * (n - 1))) by (apply Z.pow_le_mono_r; lia). change (7 * 6) with 42 in *. lia.
Qed.
Lemma bytes_varint v : 0 <= v < 2 ^ 64 -> bytes (WriteOrderedVarint64 v).
Proof. intros V. destruct (WriteOrderedVarint64_spec v V) as (n & _ & _ & B & _). exact B. Qed.
Lemma bytes_read p : position_ok p -> zlen (ToBytes p) <> 16 -> FromBytes (ToBytes p) = Some p.
Proof.
  destruct p as [a b]. intros (A & B & S) N. unfold FromBytes. destruct (Z.eqb_spec (zlen (ToBytes (a, b))) (2 * 8)); [lia|]. unfold ToBytes. cbn [fst snd] in *.
  rewrite Read_Write64 by (try apply bytes_varint; lia). rewrite <- (app_nil_r (WriteOrderedVarint64 b)), Read_Write64 by (try constructor; lia).
  destruct (Z.ltb_spec (2 ^ 64 - 1 - a) b); [lia|reflexivity].
Qed.
Lemma bytes_round_trip p : position_ok p -> fst p < 2 ^ 42 \/ snd p < 2 ^ 42 -> FromBytes (ToBytes p) = Some p.
Proof.
  intros P L. apply bytes_read; [exact P|]. destruct P as (A & B & S). unfold ToBytes. rewrite zlen_app.
  destruct (varint_length (fst p) ltac:(lia)) as [L1 L2]. destruct (varint_length (snd p) ltac:(lia)) as [L3 L4].
  destruct L as [L|L]; [specialize (L2 L)|specialize (L4 L)]; lia.
Qed.
Lemma be_range l : bytes l -> 0 <= ReadBigEndianArray l < 2 ^ (8 * zlen l).
Proof.
  intros B. rewrite (ReadBigEndianArray_val l B). apply be_val_bound, B.
Qed.
Lemma bytes_sound s p : bytes s -> FromBytes s = Some p -> position_ok p /\
  (s = ToBytes p \/ s = WriteBigEndian 8 (fst p) ++ WriteBigEndian 8 (snd p)).
Proof.
  intros B. unfold FromBytes. destruct (Z.eqb_spec (zlen s) (2 * 8)) as [L|L].
  - assert (LS : length s = 16%nat) by (unfold zlen in L; lia).
    assert (B1 : bytes (firstn 8 s)) by (unfold bytes in *; rewrite <- (firstn_skipn 8 s) in B; apply Forall_app in B; apply B).
    assert (B2 : bytes (skipn 8 s)) by (unfold bytes in *; rewrite <- (firstn_skipn 8 s) in B; apply Forall_app in B; apply B).
    assert (F2 : firstn 8 (skipn 8 s) = skipn 8 s) by (apply firstn_all2; rewrite skipn_length; lia). rewrite F2.
    pose proof (be_range _ B1) as R1. pose proof (be_range _ B2) as R2.
    assert (zlen (firstn 8 s) = 8) as Z1 by (unfold zlen; rewrite firstn_length; lia). assert (zlen (skipn 8 s) = 8) as Z2 by (unfold zlen; rewrite skipn_length; lia). rewrite Z1 in R1. rewrite Z2 in R2. change (8 * 8) with 64 in *.
    cbv zeta. remember (ReadBigEndianArray (firstn 8 s)) as a eqn:EA. remember (ReadBigEndianArray (skipn 8 s)) as b eqn:EB.
    destruct (Z.ltb_spec (2 ^ 64 - 1 - a) b); [discriminate|]. intros E. injection E as <-. split; [unfold position_ok; cbn [fst snd]; lia|]. right. cbn [fst snd].
    assert (W : forall l, bytes l -> zlen l = 8 -> WriteBigEndian 8 (ReadBigEndianArray l) = l).
    { intros l BL ZL. pose proof (be_range l BL) as R. rewrite ZL in R. apply be_val_inj; [apply bytes_Write|exact BL|rewrite zlen_Write; lia|]. rewrite be_val_Write by (cbn; lia).
      apply ReadBigEndianArray_val, BL. }
    rewrite EA, EB, (W _ B1 Z1), (W _ B2 Z2), firstn_skipn. reflexivity.
  - destruct (ReadOrderedVarint64 s) as [[a s1]|] eqn:E1; [|discriminate]. destruct (Write_Read64 _ _ _ B E1) as [-> RA].
    assert (B1 : bytes s1) by (apply bytes_app in B; apply B). destruct (ReadOrderedVarint64 s1) as [[b s2]|] eqn:E2; [|discriminate]. destruct (Write_Read64 _ _ _ B1 E2) as [-> RB].
    destruct (Z.ltb_spec (2 ^ 64 - 1 - a) b); [discriminate|]. destruct s2; [|discriminate]. intros [= <-]. rewrite app_nil_r. split; [unfold position_ok; cbn [fst snd]; lia|left; reflexivity].
Qed.
Lemma bytes_order p q : position_ok p -> position_ok q -> position_lt p q -> lex_lt (ToBytes p) (ToBytes q).
Proof.
  intros (A & B & S) (A' & B' & S') [L|[E L]]; unfold ToBytes.
  - apply ordered_lt; lia.
  - rewrite E. unfold lex_lt. rewrite lex_cmp_app_same. rewrite <- (app_nil_r (WriteOrderedVarint64 (snd p))), <- (app_nil_r (WriteOrderedVarint64 (snd q))). apply ordered_lt; lia.
Qed.
Lemma compare_spec p q : match rp_compare p q with Lt => position_lt p q | Eq => p = q | Gt => position_lt q p end.
Proof.
  destruct p as [a b], q as [c d]. unfold rp_compare, position_lt. cbn [fst snd]. destruct (Z.compare_spec a c); [|lia|lia]. subst. destruct (Z.compare_spec b d); [subst; reflexivity|lia|lia].
Qed.
