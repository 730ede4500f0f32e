From Verif Require Import Base.Bytes Model.Endian Model.Varint Spec.VarintSpec Proof.EndianProof.

Definition vt_ok (t : vtype) : Prop :=
  (3 <= vmax t)%nat /\ 7 * (Z.of_nat (vmax t) - 1) < vbits t <= 7 * Z.of_nat (vmax t).
Lemma V32_ok : vt_ok V32. Proof. unfold vt_ok; cbn; lia. Qed.
Lemma V64_ok : vt_ok V64. Proof. unfold vt_ok; cbn; lia. Qed.

Definition cont (x : Z) : Prop := 128 <= x < 256.

(** [raw i l] = sum over l of (b - 1) * 128^(i + position). *)
Fixpoint raw (i : nat) (l : list Z) : Z :=
  match l with [] => 0 | b :: l' => (b - 1) * 128 ^ Z.of_nat i + raw (S i) l' end.

Lemma pow128_S i : 128 ^ Z.of_nat (S i) = 128 * 128 ^ Z.of_nat i.
Proof. rewrite Nat2Z.inj_succ, Z.pow_succ_r by lia. reflexivity. Qed.
Lemma pow128_pos i : 0 < 128 ^ Z.of_nat i.
Proof. apply Z.pow_pos_nonneg; lia. Qed.
Lemma pow128_2 i : 128 ^ Z.of_nat i = 2 ^ (Z.of_nat i * 7).
Proof. change 128 with (2 ^ 7). rewrite <- Z.pow_mul_r by lia. f_equal; lia. Qed.

Lemma raw_app i a b : raw i (a ++ b) = raw i a + raw (i + length a) b.
Proof.
  revert i; induction a as [|x a IH]; intros i; cbn [raw app length].
  - rewrite Nat.add_0_r; lia.
  - rewrite IH. replace (S i + length a)%nat with (i + S (length a))%nat by lia. lia.
Qed.
Lemma base128_app a b : base128 (a ++ b) = base128 a + 128 ^ Z.of_nat (length a) * base128 b.
Proof.
  induction a as [|x a IH]; cbn [base128 app length].
  - change (128 ^ Z.of_nat 0) with 1; lia.
  - rewrite IH, pow128_S. lia.
Qed.
Lemma raw_cont i l : Forall cont l ->
  raw i l = 128 ^ Z.of_nat i * (base128 l + 128 ^ Z.of_nat (length l) - 1).
Proof.
  revert i; induction l as [|b l IH]; intros i H; cbn [raw base128 length].
  - change (128 ^ Z.of_nat 0) with 1; lia.
  - inversion H as [|? ? Hb Hl]; subst. red in Hb. rewrite IH by assumption. rewrite !pow128_S.
    replace (b mod 128) with (b - 128) by (Z.div_mod_to_equations; lia). nia.
Qed.
Lemma raw_varint l b : Forall cont l -> 0 <= b < 128 -> 1 + raw 0 (l ++ [b]) = base128 (l ++ [b]).
Proof.
  intros Hl Hb. rewrite raw_app, base128_app, raw_cont by assumption. cbn [raw base128 Nat.add].
  rewrite (Z.mod_small b) by lia. change (128 ^ Z.of_nat 0) with 1. nia.
Qed.
Lemma base128_bound l : 0 <= base128 l < 128 ^ Z.of_nat (length l).
Proof.
  induction l as [|b l IH]; cbn [base128 length]; [change (128 ^ Z.of_nat 0) with 1; lia|].
  rewrite pow128_S. Z.div_mod_to_equations; lia.
Qed.

Lemma acc_add_eq t acc byte i : 0 <= vbits t ->
  acc_add t acc byte i = (acc + (byte - 1) * 128 ^ Z.of_nat i) mod 2 ^ vbits t.
Proof.
  intros Hw. unfold acc_add. rewrite Z.shiftl_mul_pow2, <- pow128_2 by lia.
  rewrite Z.add_mod_idemp_r by (apply Z.pow_nonzero; lia).
  rewrite (Z.add_mod acc), Z.mul_mod_idemp_l by (apply Z.pow_nonzero; lia).
  rewrite <- Z.add_mod by (apply Z.pow_nonzero; lia). reflexivity.
Qed.

Lemma read_varint_value_eq t n : forall i pre mid rest acc, 0 <= vbits t ->
  length pre = i -> length mid = n -> 0 <= acc < 2 ^ vbits t ->
  read_varint_value t n i (pre ++ mid ++ rest) acc
  = VOk ((acc + raw i mid) mod 2 ^ vbits t) (i + n).
Proof.
  induction n as [|n IH]; intros i pre mid rest acc Hw Hp Hm Ha.
  - destruct mid; [|discriminate]. cbn [read_varint_value raw].
    rewrite Z.add_0_r, Z.mod_small by assumption. f_equal; lia.
  - destruct mid as [|b mid]; [discriminate|]. cbn [length] in Hm.
    cbn [read_varint_value].
    rewrite nth_error_app2, Hp, Nat.sub_diag by lia. cbn [nth_error app].
    replace (pre ++ b :: mid ++ rest) with ((pre ++ [b]) ++ mid ++ rest)
      by (rewrite <- !app_assoc; reflexivity).
    assert (P : 0 < 2 ^ vbits t) by (apply Z.pow_pos_nonneg; lia).
    rewrite (IH (S i) (pre ++ [b]) mid rest); try assumption.
    + f_equal; [|lia]. rewrite acc_add_eq by assumption. rewrite Z.add_mod_idemp_l by lia.
      cbn [raw]. f_equal; lia.
    + rewrite app_length; cbn [length]; lia.
    + lia.
    + unfold acc_add; apply Z.mod_pos_bound; assumption.
Qed.

(** The common specification of all reading loops, by the split of the source at its first
    byte without a continuation bit. *)
Fixpoint split_stop (src : list Z) : option (list Z * Z * list Z) :=
  match src with
  | [] => None
  | b :: src' =>
      if b <? 128 then Some ([], b, src')
      else match split_stop src' with
           | None => None
           | Some (p, c, r) => Some (b :: p, c, r)
           end
  end.

Definition decide_varint (t : vtype) (canonical : bool) (init : list Z) (b : Z) : vres :=
  if (vmax t <=? length init)%nat then VFail
  else if (Nat.eqb (length init) (vmax t - 1)) && too_big_last t b (length init) then VFail
  else if canonical && (b =? 0) && (1 <=? length init)%nat then VFail
  else VOk (base128 (init ++ [b])) (S (length init)).

Definition spec_read (t : vtype) (canonical : bool) (src : list Z) : vres :=
  match split_stop src with None => VFail | Some (p, c, _) => decide_varint t canonical p c end.

Lemma split_stop_app pre src : Forall cont pre ->
  split_stop (pre ++ src) = match split_stop src with
                            | None => None | Some (p, c, r) => Some (pre ++ p, c, r) end.
Proof.
  induction pre as [|b pre IH]; intros H; cbn [app split_stop].
  - destruct (split_stop src) as [[[p c] r]|]; reflexivity.
  - inversion H as [|? ? Hb Hl]; subst; red in Hb. destruct (Z.ltb_spec b 128); [lia|].
    rewrite IH by assumption. destruct (split_stop src) as [[[p c] r]|]; reflexivity.
Qed.
Lemma split_stop_spec src p c r : bytes src -> split_stop src = Some (p, c, r) ->
  src = p ++ c :: r /\ Forall cont p /\ 0 <= c < 128.
Proof.
  revert p; induction src as [|b src IH]; intros p Hb E; cbn [split_stop] in E; [discriminate|].
  apply bytes_cons in Hb; destruct Hb as [Hb Hs]; red in Hb.
  destruct (Z.ltb_spec b 128).
  - injection E as <- <- <-. repeat split; try constructor; lia.
  - destruct (split_stop src) as [[[p' c'] r']|] eqn:E'; [|discriminate].
    injection E as <- <- <-. destruct (IH p' Hs eq_refl) as (-> & Hp & Hc).
    repeat split; try lia. constructor; [red; lia|assumption].
Qed.
Lemma split_stop_none src : bytes src -> split_stop src = None -> Forall cont src.
Proof.
  induction src as [|b src IH]; intros Hb E; cbn [split_stop] in E; [constructor|].
  apply bytes_cons in Hb; destruct Hb as [Hb Hs]; red in Hb.
  destruct (Z.ltb_spec b 128); [discriminate|].
  destruct (split_stop src) as [[[p c] r]|]; [discriminate|].
  constructor; [red; lia|auto].
Qed.

Lemma too_big_pow t b i : vt_ok t -> (i <= vmax t - 1)%nat ->
  too_big_last t b i = (2 ^ (vbits t - Z.of_nat i * 7) <=? b).
Proof.
  intros [H1 H2] Hi. unfold too_big_last. rewrite Z.shiftl_mul_pow2 by lia. rewrite Z.mul_1_l; reflexivity.
Qed.

(** If accepted, the value fits. *)
Lemma decide_fits t init b : vt_ok t -> Forall cont init -> 0 <= b < 128 ->
  (length init < vmax t)%nat ->
  (length init = vmax t - 1)%nat /\ too_big_last t b (length init) = true \/
  base128 (init ++ [b]) < 2 ^ vbits t.
Proof.
  intros Ht Hi Hb Hl. pose proof Ht as [H1 H2].
  destruct (Nat.eq_dec (length init) (vmax t - 1)) as [He|Hne].
  - rewrite too_big_pow by (try assumption; lia).
    destruct (Z.leb_spec (2 ^ (vbits t - Z.of_nat (length init) * 7)) b); [left; auto|right].
    rewrite base128_app. cbn [base128]. rewrite (Z.mod_small b) by lia.
    pose proof (base128_bound init) as B. rewrite pow128_2 in *.
    replace (vbits t) with (Z.of_nat (length init) * 7 + (vbits t - Z.of_nat (length init) * 7)) at 1 by lia.
    rewrite Z.pow_add_r by lia. nia.
  - right. pose proof (base128_bound (init ++ [b])) as B.
    rewrite app_length in B; cbn [length] in B. rewrite pow128_2 in B.
    eapply Z.lt_le_trans; [apply B|]. apply Z.pow_le_mono_r; lia.
Qed.
Lemma decide_overflow t init b : vt_ok t -> 0 <= b < 128 ->
  length init = (vmax t - 1)%nat -> too_big_last t b (length init) = true ->
  2 ^ vbits t <= base128 (init ++ [b]).
Proof.
  intros Ht Hb He Hbig. pose proof Ht as [H1 H2].
  rewrite too_big_pow in Hbig by (try assumption; lia). apply Z.leb_le in Hbig.
  rewrite base128_app. cbn [base128]. rewrite (Z.mod_small b) by lia.
  pose proof (base128_bound init) as B. rewrite pow128_2 in *.
  replace (vbits t) with (Z.of_nat (length init) * 7 + (vbits t - Z.of_nat (length init) * 7)) at 1 by lia.
  rewrite Z.pow_add_r by lia. nia.
Qed.

Lemma too_big_cont t b : vt_ok t -> cont b -> too_big_last t b (vmax t - 1) = true.
Proof.
  intros Ht Hb. pose proof Ht as [H1 H2]. rewrite too_big_pow by (try assumption; lia).
  red in Hb. apply Z.leb_le. transitivity (2 ^ 7); [|lia]. apply Z.pow_le_mono_r; lia.
Qed.

Lemma mod_fits a v M : 0 <= v < M -> a mod M = v mod M -> a mod M = v.
Proof. intros H ->; apply Z.mod_small; exact H. Qed.

(** *** The array loop *)
Lemma array_loop_spec t c initial : forall k index pre src,
  vt_ok t -> (index + k = vmax t - 1)%nat -> (2 <= index)%nat -> (1 <= initial <= index)%nat ->
  length pre = index -> Forall cont pre -> bytes src ->
  array_loop t c initial k index (pre ++ src) ((1 + raw 0 (firstn initial pre)) mod 2 ^ vbits t)
  = spec_read t c (pre ++ src).
Proof.
  induction k as [|k IH]; intros index pre src Ht Hk Hi Hin Hl Hp Hb;
    pose proof Ht as [H1 H2];
    assert (P : 0 < 2 ^ vbits t) by (apply Z.pow_pos_nonneg; lia);
    unfold spec_read; rewrite split_stop_app by assumption;
    cbn [array_loop]; rewrite app_length, Hl;
    (destruct src as [|b src];
      [cbn [length split_stop]; rewrite Nat.add_0_r, Nat.eqb_refl; reflexivity|]);
    cbn [length]; (destruct (Nat.eqb_spec (index + S (length src)) index); [lia|]);
    rewrite nth_error_app2, Hl, Nat.sub_diag by lia; cbn [nth_error split_stop];
    apply bytes_cons in Hb; destruct Hb as [Hb Hsrc]; red in Hb.
  - (* last byte *)
    assert (Fin : 0 <= b < 128 -> too_big_last t b index = false ->
      read_varint_value t (S index - initial) initial (pre ++ b :: src)
         ((1 + raw 0 (firstn initial pre)) mod 2 ^ vbits t) = VOk (base128 (pre ++ [b])) (S index)).
    { intros Hb' Hs.
      replace (pre ++ b :: src) with (firstn initial pre ++ (skipn initial pre ++ [b]) ++ src)
        by (rewrite <- app_assoc, app_assoc, firstn_skipn; reflexivity).
      rewrite read_varint_value_eq.
      - f_equal; [|lia]. rewrite Z.add_mod_idemp_l by lia.
        rewrite <- Z.add_assoc.
        replace (raw 0 (firstn initial pre) + raw initial (skipn initial pre ++ [b]))
          with (raw 0 (pre ++ [b])).
        + rewrite raw_varint by assumption. apply Z.mod_small. split; [apply base128_bound|].
          destruct (decide_fits t pre b) as [[_ Hx]|Hx]; try assumption; [lia|].
          rewrite Hl in Hx; congruence.
        + rewrite <- (firstn_skipn initial pre) at 1. rewrite <- app_assoc, raw_app.
          rewrite firstn_length. do 2 f_equal. lia.
      - lia.
      - rewrite firstn_length; lia.
      - rewrite app_length, skipn_length; cbn [length]; lia.
      - apply Z.mod_pos_bound; assumption. }
    destruct (Z.ltb_spec b 128).
    + unfold decide_varint. rewrite app_nil_r, Hl.
      destruct (Nat.leb_spec (vmax t) index); [lia|].
      replace (Nat.eqb index (vmax t - 1)) with true by (symmetry; apply Nat.eqb_eq; lia).
      cbn [andb]. destruct (too_big_last t b index) eqn:Eb; [reflexivity|].
      replace (1 <=? index)%nat with true by (symmetry; apply Nat.leb_le; lia).
      rewrite andb_true_r. destruct (c && (b =? 0)); [reflexivity|]. apply Fin; [lia|reflexivity].
    + replace index with (vmax t - 1)%nat by lia. rewrite too_big_cont by (try assumption; red; lia).
      destruct (split_stop src) as [[[p' c'] r']|]; [|reflexivity].
      unfold decide_varint. rewrite app_length; cbn [length].
      destruct (Nat.leb_spec (vmax t) (length pre + S (length p'))); [reflexivity|lia].
  - destruct (Z.ltb_spec b 128) as [Hlt|Hge].
    + replace (128 <=? b) with false by lia.
      unfold decide_varint. rewrite app_nil_r, Hl.
      destruct (Nat.leb_spec (vmax t) index); [lia|].
      replace (Nat.eqb index (vmax t - 1)) with false by (symmetry; apply Nat.eqb_neq; lia).
      cbn [andb].
      replace (1 <=? index)%nat with true by (symmetry; apply Nat.leb_le; lia).
      rewrite andb_true_r. destruct (c && (b =? 0)); [reflexivity|].
      replace (pre ++ b :: src) with (firstn initial pre ++ (skipn initial pre ++ [b]) ++ src)
        by (rewrite <- app_assoc, app_assoc, firstn_skipn; reflexivity).
      rewrite read_varint_value_eq.
      * f_equal; [|lia]. rewrite Z.add_mod_idemp_l by lia.
        rewrite <- Z.add_assoc.
        replace (raw 0 (firstn initial pre) + raw initial (skipn initial pre ++ [b]))
          with (raw 0 (pre ++ [b])).
        -- rewrite raw_varint by (try assumption; lia). apply Z.mod_small. split; [apply base128_bound|].
           destruct (decide_fits t pre b) as [[Hx _]|Hx]; try assumption; lia.
        -- rewrite <- (firstn_skipn initial pre) at 1. rewrite <- app_assoc, raw_app.
           rewrite firstn_length. do 2 f_equal. lia.
      * lia.
      * rewrite firstn_length; lia.
      * rewrite app_length, skipn_length; cbn [length]; lia.
      * apply Z.mod_pos_bound; assumption.
    + replace (128 <=? b) with true by lia.
      assert (Hc : cont b) by (red; lia).
      replace (pre ++ b :: src) with ((pre ++ [b]) ++ src) by (rewrite <- app_assoc; reflexivity).
      replace (firstn initial pre) with (firstn initial (pre ++ [b])).
      2:{ rewrite firstn_app. replace (initial - length pre)%nat with 0%nat by lia.
          cbn [firstn]; apply app_nil_r. }
      rewrite IH; try assumption; try lia.
      * unfold spec_read. rewrite split_stop_app.
        -- destruct (split_stop src) as [[[p' c'] r']|]; [|reflexivity].
           rewrite <- app_assoc; reflexivity.
        -- apply Forall_app; split; [assumption|constructor; [assumption|constructor]].
      * rewrite app_length; cbn [length]; lia.
      * apply Forall_app; split; [assumption|constructor; [assumption|constructor]].
Qed.

Lemma acc01 t b0 b1 : vt_ok t -> cont b0 ->
  (b0 + (Z.shiftl ((b1 - 1) mod 2 ^ vbits t) 7) mod 2 ^ vbits t) mod 2 ^ vbits t
  = (1 + raw 0 [b0; b1]) mod 2 ^ vbits t.
Proof.
  intros [H1 H2] Hb. assert (P : 0 < 2 ^ vbits t) by (apply Z.pow_pos_nonneg; lia).
  pose proof (acc_add_eq t b0 b1 1) as E. unfold acc_add in E.
  change (Z.of_nat 1 * 7) with 7 in E. rewrite E by lia. f_equal. cbn [raw].
  change (128 ^ Z.of_nat 0) with 1; change (128 ^ Z.of_nat 1) with 128. lia.
Qed.

Lemma two_byte_value t b0 b1 : vt_ok t -> cont b0 -> 0 <= b1 < 128 ->
  (1 + raw 0 [b0; b1]) mod 2 ^ vbits t = base128 [b0; b1].
Proof.
  intros Ht Hb0 Hb1. pose proof Ht as [H1 H2].
  change [b0; b1] with ([b0] ++ [b1]).
  rewrite (raw_varint [b0] b1); [|constructor; [assumption|constructor]|assumption].
  apply Z.mod_small. pose proof (base128_bound ([b0] ++ [b1])) as B. split; [lia|].
  eapply Z.lt_le_trans; [apply B|]. cbn [length app]. rewrite pow128_2. apply Z.pow_le_mono_r; lia.
Qed.

Lemma ReadVarintArray_spec t c src : vt_ok t -> bytes src ->
  ReadVarintArray t c src = spec_read t c src.
Proof.
  intros Ht Hb. pose proof Ht as [H1 H2].
  destruct src as [|b0 src]; [reflexivity|]. cbn [ReadVarintArray].
  apply bytes_cons in Hb; destruct Hb as [Hb0 Hb]; red in Hb0.
  unfold spec_read; cbn [split_stop]. destruct (Z.ltb_spec b0 128).
  - unfold decide_varint. cbn [length app base128].
    destruct (Nat.leb_spec (vmax t) 0); [lia|].
    destruct (Nat.eqb_spec 0 (vmax t - 1)); [lia|]. cbn [andb].
    rewrite andb_false_r, Z.mod_small by lia. f_equal; lia.
  - destruct src as [|b1 src]; [reflexivity|].
    apply bytes_cons in Hb; destruct Hb as [Hb1 Hb]; red in Hb1.
    assert (Hc0 : cont b0) by (red; lia).
    cbn [split_stop]. rewrite acc01 by assumption. destruct (Z.ltb_spec b1 128).
    + unfold decide_varint. cbn [length app].
      destruct (Nat.leb_spec (vmax t) 1); [lia|].
      destruct (Nat.eqb_spec 1 (vmax t - 1)); [lia|]. cbn [andb Nat.leb]. rewrite andb_true_r.
      destruct (c && (b1 =? 0)); [reflexivity|]. rewrite two_byte_value by (try assumption; lia). reflexivity.
    + pose proof (array_loop_spec t c 2 (vmax t - 3) 2 [b0; b1] src) as A.
      cbn [firstn] in A. cbn [app] in A. rewrite A; try assumption; try lia.
      * unfold spec_read; cbn [split_stop].
        replace (b0 <? 128) with false by lia. replace (b1 <? 128) with false by lia. reflexivity.
      * reflexivity.
      * repeat (apply Forall_cons; [red; lia|]); apply Forall_nil.
Qed.

(** *** The reader loop *)
Lemma reader_loop_spec t c : forall k index pre src,
  vt_ok t -> (index + k = vmax t - 1)%nat -> (1 <= index)%nat ->
  length pre = index -> Forall cont pre -> bytes src ->
  reader_loop t c k index (pre ++ src) ((1 + raw 0 pre) mod 2 ^ vbits t)
  = spec_read t c (pre ++ src).
Proof.
  induction k as [|k IH]; intros index pre src Ht Hk Hi Hl Hp Hb;
    pose proof Ht as [H1 H2];
    assert (P : 0 < 2 ^ vbits t) by (apply Z.pow_pos_nonneg; lia);
    unfold spec_read; rewrite split_stop_app by assumption;
    cbn [reader_loop]; rewrite app_length, Hl;
    (destruct src as [|b src];
      [cbn [length split_stop]; destruct (Nat.ltb_spec (index + 0) (S index)); [reflexivity|lia]|]);
    cbn [length]; (destruct (Nat.ltb_spec (index + S (length src)) (S index)); [lia|]);
    rewrite nth_error_app2, Hl, Nat.sub_diag by lia; cbn [nth_error split_stop];
    apply bytes_cons in Hb; destruct Hb as [Hb Hsrc]; red in Hb;
    rewrite acc_add_eq, Z.add_mod_idemp_l by lia;
    replace (1 + raw 0 pre + (b - 1) * 128 ^ Z.of_nat index) with (1 + raw 0 (pre ++ [b]))
      by (rewrite raw_app; cbn [raw Nat.add]; rewrite Hl; lia).
  - destruct (Z.ltb_spec b 128).
    + unfold decide_varint. rewrite app_nil_r, Hl.
      destruct (Nat.leb_spec (vmax t) index); [lia|].
      replace (Nat.eqb index (vmax t - 1)) with true by (symmetry; apply Nat.eqb_eq; lia).
      cbn [andb]. destruct (too_big_last t b index) eqn:Eb; [reflexivity|].
      replace (1 <=? index)%nat with true by (symmetry; apply Nat.leb_le; lia).
      rewrite andb_true_r. destruct (c && (b =? 0)); [reflexivity|].
      f_equal. rewrite raw_varint by (try assumption; lia). apply Z.mod_small.
      split; [apply base128_bound|].
      destruct (decide_fits t pre b) as [[_ Hx]|Hx]; try assumption; try lia. rewrite Hl in Hx; congruence.
    + replace index with (vmax t - 1)%nat by lia. rewrite too_big_cont by (try assumption; red; lia).
      destruct (split_stop src) as [[[p' c'] r']|]; [|reflexivity].
      unfold decide_varint. rewrite app_length; cbn [length].
      destruct (Nat.leb_spec (vmax t) (length pre + S (length p'))); [reflexivity|lia].
  - destruct (Z.ltb_spec b 128) as [Hlt|Hge].
    + replace (128 <=? b) with false by lia.
      unfold decide_varint. rewrite app_nil_r, Hl.
      destruct (Nat.leb_spec (vmax t) index); [lia|].
      replace (Nat.eqb index (vmax t - 1)) with false by (symmetry; apply Nat.eqb_neq; lia).
      cbn [andb].
      replace (1 <=? index)%nat with true by (symmetry; apply Nat.leb_le; lia).
      rewrite andb_true_r. destruct (c && (b =? 0)); [reflexivity|].
      f_equal. rewrite raw_varint by (try assumption; lia). apply Z.mod_small.
      split; [apply base128_bound|].
      destruct (decide_fits t pre b) as [[Hx _]|Hx]; try assumption; lia.
    + replace (128 <=? b) with true by lia.
      assert (Hc : cont b) by (red; lia).
      replace (pre ++ b :: src) with ((pre ++ [b]) ++ src) by (rewrite <- app_assoc; reflexivity).
      rewrite IH; try assumption; try lia.
      * unfold spec_read. rewrite split_stop_app.
        -- destruct (split_stop src) as [[[p' c'] r']|]; [|reflexivity].
           rewrite <- app_assoc; reflexivity.
        -- apply Forall_app; split; [assumption|constructor; [assumption|constructor]].
      * rewrite app_length; cbn [length]; lia.
      * apply Forall_app; split; [assumption|constructor; [assumption|constructor]].
Qed.

(** The buffer loop agrees with the array loop as long as the buffer ends in a stop byte or
    is long enough: then it never runs off the buffer. *)
Lemma buffer_loop_array t c initial : forall k index buf acc,
  (index < length buf)%nat \/ buf = [] ->
  ((index + k < length buf)%nat \/
   exists j x, (index <= j < length buf)%nat /\ nth_error buf j = Some x /\ x < 128) ->
  buffer_loop t c initial k index buf acc = array_loop t c initial k index buf acc.
Proof.
  induction k as [|k IH]; intros index buf acc Hi Hx; cbn [buffer_loop array_loop].
  - destruct (Nat.eqb_spec (length buf) index) as [E|E]; [exfalso|reflexivity].
    destruct Hx as [Hx|(j & x & Hj & _)]; lia.
  - destruct (Nat.eqb_spec (length buf) index) as [E|E];
      [exfalso; destruct Hx as [Hx|(j & x & Hj & _)]; lia|].
    destruct (nth_error buf index) as [b|] eqn:En; [|reflexivity].
    destruct (Z.leb_spec 128 b) as [Hb|Hb]; [|reflexivity].
    apply IH.
    + destruct Hx as [Hx|(j & x & Hj & Hn & Hlt)]; [left; lia|].
      left. destruct (Nat.eq_dec j index) as [->|]; [|lia]. rewrite Hn in En; injection En as ->; lia.
    + destruct Hx as [Hx|(j & x & Hj & Hn & Hlt)]; [left; lia|].
      right. exists j, x. repeat split; try assumption; try lia.
      destruct (Nat.eq_dec j index) as [->|]; [|lia]. rewrite Hn in En; injection En as ->; lia.
Qed.

Lemma spec_read_prefix t c avail src p x : vt_ok t ->
  split_stop (firstn avail src) = Some p -> x = spec_read t c (firstn avail src) ->
  x = spec_read t c src.
Proof.
  intros Ht Hs ->. destruct p as [[p b] r]. unfold spec_read. rewrite Hs.
  assert (E : split_stop src = Some (p, b, r ++ skipn avail src)).
  { rewrite <- (firstn_skipn avail src) at 1. revert p Hs.
    generalize (skipn avail src); generalize (firstn avail src); clear; intros a s.
    induction a as [|y a IH]; intros p Hs; cbn [split_stop app] in *; [discriminate|].
    destruct (y <? 128); [injection Hs as <- <- <-; reflexivity|].
    destruct (split_stop a) as [[[p' c'] r']|]; [|discriminate].
    injection Hs as <- <- <-. rewrite (IH p' eq_refl). reflexivity. }
  rewrite E. reflexivity.
Qed.

Lemma spec_read_long t c avail src : vt_ok t -> (vmax t <= avail)%nat -> (avail <= length src)%nat ->
  bytes src -> spec_read t c (firstn avail src) = spec_read t c src.
Proof.
  intros Ht Hm Ha Hb.
  destruct (split_stop (firstn avail src)) as [p|] eqn:E;
    [eapply spec_read_prefix; eauto|].
  unfold spec_read at 1. rewrite E.
  assert (Hf : Forall cont (firstn avail src)).
  { apply split_stop_none; [|assumption]. rewrite <- (Nat2Z.id avail). apply (bytes_ztake (Z.of_nat avail)); assumption. }
  unfold spec_read. rewrite <- (firstn_skipn avail src), split_stop_app by assumption.
  destruct (split_stop (skipn avail src)) as [[[p' c'] r']|]; [|reflexivity].
  unfold decide_varint. rewrite app_length, firstn_length.
  destruct (Nat.leb_spec (vmax t) (Nat.min avail (length src) + length p')); [reflexivity|lia].
Qed.

Lemma ReadVarintReader_spec t c avail src : vt_ok t -> bytes src ->
  (1 <= avail <= length src)%nat -> ReadVarintReader t c avail src = spec_read t c src.
Proof.
  intros Ht Hb Ha. pose proof Ht as [H1 H2].
  destruct src as [|b0 src]; [cbn in Ha; lia|].
  rewrite <- ReadVarintArray_spec by assumption. cbn [ReadVarintReader ReadVarintArray].
  pose proof Hb as HB.
  apply bytes_cons in Hb; destruct Hb as [Hb0 Hb]; red in Hb0.
  destruct (Z.ltb_spec b0 128); [reflexivity|].
  assert (Hc0 : cont b0) by (red; lia).
  destruct (Nat.leb_spec 2 avail) as [Hav|Hav].
  - destruct src as [|b1 src]; [cbn in Ha; lia|].
    apply bytes_cons in Hb; destruct Hb as [Hb1 Hb]; red in Hb1.
    destruct (Z.ltb_spec b1 128); [reflexivity|].
    assert (Hc1 : cont b1) by (red; lia).
    rewrite acc01 by assumption.
    unfold ReadVarintFromReaderBuffer.
    assert (EA : forall s, bytes s -> array_loop t c 2 (vmax t - 3) 2 ([b0; b1] ++ s)
                  ((1 + raw 0 [b0; b1]) mod 2 ^ vbits t) = spec_read t c ([b0; b1] ++ s)).
    { intros s Hs. pose proof (array_loop_spec t c 2 (vmax t - 3) 2 [b0; b1] s) as A.
      cbn [firstn] in A. rewrite A; try assumption; try lia; [reflexivity|reflexivity|].
      repeat (apply Forall_cons; [red; lia|]); apply Forall_nil. }
    assert (Fb : exists s, firstn avail (b0 :: b1 :: src) = [b0; b1] ++ s /\ bytes s).
    { exists (firstn (avail - 2) src). split.
      - destruct avail as [|[|a]]; [lia|lia|]. cbn [firstn app]. do 3 f_equal; lia.
      - rewrite <- (Nat2Z.id (avail - 2)). apply (bytes_ztake (Z.of_nat (avail - 2))); assumption. }
    destruct Fb as (s & Fs & Hs).
    assert (Ls : (avail = 2 + length s)%nat).
    { apply (f_equal (@length Z)) in Fs. rewrite firstn_length, app_length in Fs.
      cbn [length] in Fs, Ha. lia. }
    rewrite (EA src Hb : array_loop t c 2 (vmax t - 3) 2 (b0 :: b1 :: src) _ = _).
    change ([b0; b1] ++ src) with (b0 :: b1 :: src).
    destruct (Nat.leb_spec (vmax t) avail) as [Hm|Hm]; cbn [orb].
    + rewrite Fs, buffer_loop_array.
      * rewrite EA by assumption. rewrite <- Fs. apply spec_read_long; try assumption. lia.
      * left. rewrite app_length; cbn [length]; lia.
      * left. rewrite app_length; cbn [length]; lia.
    + destruct (Z.ltb_spec (last (firstn avail (b0 :: b1 :: src)) 128) 128) as [Hlast|Hlast].
      * assert (Hnn : [b0; b1] ++ s <> []) by discriminate.
        rewrite Fs in Hlast.
        destruct (exists_last Hnn) as (ini & x & Ei).
        rewrite Ei, last_last in Hlast.
        assert (Lini : length ini = (avail - 1)%nat).
        { apply (f_equal (@length Z)) in Ei. rewrite !app_length in Ei. cbn [length] in Ei. lia. }
        assert (Hge3 : (2 <= length ini)%nat).
        { destruct ini as [|y [|z ini]]; [| |cbn [length]; lia].
          - cbn [app] in Ei. discriminate.
          - cbn [app] in Ei. injection Ei as <- <- _. lia. }
        rewrite Fs, buffer_loop_array.
        -- rewrite EA by assumption.
           destruct (split_stop ([b0; b1] ++ s)) as [p|] eqn:Ep.
           ++ eapply spec_read_prefix with (avail := avail); [assumption| |].
              ** rewrite Fs; exact Ep.
              ** rewrite Fs; reflexivity.
           ++ exfalso. assert (Hf : Forall cont ([b0; b1] ++ s)).
              { apply split_stop_none; [|assumption]. apply bytes_app; split; [|assumption].
                repeat (apply Forall_cons; [red; lia|]); apply Forall_nil. }
              rewrite Ei in Hf. apply Forall_app in Hf. destruct Hf as [_ Hf].
              inversion Hf as [|? ? Hcx _]; subst. red in Hcx; lia.
        -- left. rewrite app_length; cbn [length]; lia.
        -- right. exists (avail - 1)%nat, x. rewrite app_length; cbn [length].
           repeat split; try lia.
           rewrite Ei, nth_error_app2, Lini, Nat.sub_diag by lia. reflexivity.
      * pose proof (reader_loop_spec t c (vmax t - 3) 2 [b0; b1] src) as A.
        cbn [app] in A. rewrite A; try assumption; try lia; [reflexivity|reflexivity|].
        repeat (apply Forall_cons; [red; lia|]); apply Forall_nil.
  - assert (avail = 1%nat) by lia; subst avail.
    pose proof (reader_loop_spec t c (vmax t - 2) 1 [b0] src) as A. cbn [app] in A.
    assert (E0 : (1 + raw 0 [b0]) mod 2 ^ vbits t = b0).
    { cbn [raw]. change (128 ^ Z.of_nat 0) with 1. replace (1 + ((b0 - 1) * 1 + 0)) with b0 by lia.
      apply Z.mod_small. split; [lia|]. eapply Z.lt_le_trans with (2 ^ 8); [lia|]. apply Z.pow_le_mono_r; lia. }
    rewrite E0 in A. rewrite A; try assumption; try lia; try reflexivity.
    + rewrite <- ReadVarintArray_spec by assumption. cbn [ReadVarintArray].
      replace (b0 <? 128) with false by lia. reflexivity.
    + repeat (apply Forall_cons; [red; lia|]); apply Forall_nil.
Qed.

(** *** Skipping *)
Lemma skip_loop_array t c initial : forall k index src acc,
  (initial <= index)%nat ->
  skip_array_loop t c k index src
  = match array_loop t c initial k index src acc with VOk _ n => n | _ => 0%nat end.
Proof.
  assert (RV : forall t n i src acc, (i + n <= length src)%nat ->
    exists v, read_varint_value t n i src acc = VOk v (i + n)).
  { intros t0 n; induction n as [|n IHn]; intros i src acc Hl; cbn [read_varint_value].
    - exists acc. f_equal; lia.
    - destruct (nth_error src i) as [b|] eqn:E; [|apply nth_error_None in E; lia].
      destruct (IHn (S i) src (acc_add t0 acc b i)) as [v Hv]; [lia|]. exists v. rewrite Hv. f_equal; lia. }
  induction k as [|k IH]; intros index src acc Hi; cbn [skip_array_loop array_loop];
    (destruct (Nat.eqb_spec (length src) index); [reflexivity|]);
    (destruct (nth_error src index) as [b|] eqn:E; [|reflexivity]);
    assert (Hlt : (index < length src)%nat) by (apply nth_error_Some; congruence).
  - destruct (too_big_last t b index); [reflexivity|].
    destruct (c && (b =? 0)); [reflexivity|].
    destruct (RV t (S index - initial)%nat initial src acc) as [v ->]; lia.
  - destruct (128 <=? b); [apply IH; lia|].
    destruct (c && (b =? 0)); [reflexivity|].
    destruct (RV t (S index - initial)%nat initial src acc) as [v ->]; lia.
Qed.

Lemma SkipVarintArray_spec t c src :
  SkipVarintArray t c src = match ReadVarintArray t c src with VOk _ n => n | _ => 0%nat end.
Proof.
  destruct src as [|b0 src]; [reflexivity|]. cbn [SkipVarintArray ReadVarintArray].
  destruct (b0 <? 128); [reflexivity|]. destruct src as [|b1 src]; [reflexivity|].
  destruct (b1 <? 128); [destruct (c && (b1 =? 0)); reflexivity|].
  apply skip_loop_array; lia.
Qed.

(** *** Relation to the specification *)
Lemma spec_read_iff t c src v n : vt_ok t -> bytes src ->
  spec_read t c src = VOk v n <->
  exists l rest, src = l ++ rest /\ is_varint l /\ length l = n /\ (n <= vmax t)%nat /\
    v = base128 l /\ v < 2 ^ vbits t /\ (c = true -> is_shortest l).
Proof.
  intros Ht Hb. pose proof Ht as [H1 H2]. split.
  - unfold spec_read. destruct (split_stop src) as [[[p b] r]|] eqn:E; [|discriminate].
    destruct (split_stop_spec src p b r Hb E) as (-> & Hp & Hbb).
    unfold decide_varint. destruct (Nat.leb_spec (vmax t) (length p)); [discriminate|].
    destruct (Nat.eqb (length p) (vmax t - 1) && too_big_last t b (length p)) eqn:Eb; [discriminate|].
    destruct (c && (b =? 0) && (1 <=? length p)%nat) eqn:Ec; [discriminate|].
    intros EE; injection EE as <- <-. exists (p ++ [b]), r.
    rewrite <- app_assoc. repeat split.
    + exists p, b. repeat split; try lia. exact Hp.
    + rewrite app_length; cbn [length]; lia.
    + lia.
    + destruct (decide_fits t p b) as [[Hx1 Hx2]|Hx]; try assumption.
      rewrite Hx2, andb_true_r in Eb. apply Nat.eqb_neq in Eb; lia.
    + intros ->. unfold is_shortest. rewrite app_length, last_last; cbn [length].
      cbn [andb] in Ec. destruct (Z.eqb_spec b 0); [|right; assumption].
      cbn [andb] in Ec. apply Nat.leb_gt in Ec. left; lia.
  - intros (l & rest & -> & (p & b & -> & Hbb & Hp) & Hl & Hn & -> & Hv & Hs).
    unfold spec_read. rewrite <- app_assoc, split_stop_app by exact Hp.
    cbn [app split_stop]. replace (b <? 128) with true by lia. rewrite app_nil_r.
    unfold decide_varint. rewrite app_length in Hl; cbn [length] in Hl.
    destruct (Nat.leb_spec (vmax t) (length p)); [lia|].
    destruct (Nat.eqb (length p) (vmax t - 1) && too_big_last t b (length p)) eqn:Eb.
    { apply andb_prop in Eb; destruct Eb as [E1 E2]. apply Nat.eqb_eq in E1.
      pose proof (decide_overflow t p b Ht Hbb E1 E2); lia. }
    destruct (c && (b =? 0) && (1 <=? length p)%nat) eqn:Ec.
    { exfalso. apply andb_prop in Ec; destruct Ec as [Ec E3]; apply andb_prop in Ec; destruct Ec as [E1 E2].
      specialize (Hs E1). unfold is_shortest in Hs. rewrite app_length, last_last in Hs; cbn [length] in Hs.
      apply Nat.leb_le in E3. lia. }
    f_equal; lia.
Qed.

Lemma spec_read_not_fault t c src : spec_read t c src <> VFault.
Proof.
  unfold spec_read, decide_varint. destruct (split_stop src) as [[[p b] r]|]; [|discriminate].
  repeat match goal with |- (if ?x then _ else _) <> _ => destruct x end; discriminate.
Qed.

(** *** Writing *)
Lemma write_loop_spec fuel : forall data, 128 <= data < 128 ^ Z.of_nat (S fuel) ->
  exists init b, write_varint_loop fuel data = init ++ [b] /\ Forall cont init /\ 0 < b < 128 /\
    base128 (init ++ [b]) = data /\ (length init <= fuel)%nat /\
    128 ^ Z.of_nat (length init) <= data < 128 ^ Z.of_nat (S (length init)).
Proof.
  induction fuel as [|fuel IH]; intros data Hd.
  - change (128 ^ Z.of_nat 1) with 128 in Hd; lia.
  - cbn [write_varint_loop]. rewrite Z.shiftr_div_pow2 by lia. change (2 ^ 7) with 128.
    rewrite !byte_cast_mod.
    assert (Ed : Z.lor data 128 mod 256 = 128 + data mod 128).
    { change 256 with (2 ^ 8). rewrite <- Z.land_ones by lia. rewrite Z.land_lor_distr_l.
      rewrite !Z.land_ones by lia. change (128 mod 2 ^ 8) with (Z.shiftl 1 7).
      assert (Hcase : data mod 2 ^ 8 = data mod 128 \/ data mod 2 ^ 8 = data mod 128 + 128).
      { change (2 ^ 8) with (128 * 2). rewrite Z.rem_mul_r by lia.
        pose proof (Z.mod_pos_bound (data / 128) 2). assert (data / 128 mod 2 = 0 \/ data / 128 mod 2 = 1) by lia.
        lia. }
      pose proof (Z.mod_pos_bound data 128).
      destruct Hcase as [->| ->].
      - rewrite lor_shl_add by (cbn; lia). lia.
      - replace (data mod 128 + 128) with (Z.lor (data mod 128) (Z.shiftl 1 7)).
        + rewrite <- Z.lor_assoc, Z.lor_diag. rewrite lor_shl_add by (cbn; lia). lia.
        + rewrite lor_shl_add by (cbn; lia). lia. }
    rewrite Ed. pose proof (Z.mod_pos_bound data 128).
    rewrite pow128_S in Hd.
    destruct (Z.leb_spec 128 (data / 128)).
    + destruct (IH (data / 128)) as (init & b & -> & Hi & Hb & Hv & Hl & Hbd).
      { split; [lia|]. apply Z.div_lt_upper_bound; lia. }
      exists ((128 + data mod 128) :: init), b. repeat split; try lia.
      * constructor; [red; lia|assumption].
      * cbn [app base128]. rewrite Hv. clear - H. Z.div_mod_to_equations; lia.
      * cbn [length]; lia.
      * cbn [length]. rewrite pow128_S. Z.div_mod_to_equations; nia.
      * cbn [length]. rewrite pow128_S. Z.div_mod_to_equations; nia.
    + assert (0 < data / 128) by (apply Z.div_str_pos; lia).
      exists [128 + data mod 128], (data / 128). rewrite (Z.mod_small (data / 128)) by lia.
      cbn [app base128 length]. split; [reflexivity|]. repeat split; try lia.
      constructor; [red; lia|constructor].
Qed.

Lemma WriteVarint_spec t data : vt_ok t -> 0 <= data < 2 ^ vbits t ->
  is_varint (WriteVarint t data) /\ base128 (WriteVarint t data) = data /\
  is_shortest (WriteVarint t data) /\ (length (WriteVarint t data) <= vmax t)%nat /\
  (length (WriteVarint t data) = 1%nat /\ data < 128 \/
   128 ^ Z.of_nat (length (WriteVarint t data) - 1) <= data < 128 ^ Z.of_nat (length (WriteVarint t data))).
Proof.
  intros Ht Hd. pose proof Ht as [H1 H2]. unfold WriteVarint. destruct (Z.ltb_spec data 128).
  - rewrite byte_cast_mod, Z.mod_small by lia. repeat split.
    + exists [], data. repeat split; [lia|lia|constructor].
    + cbn [base128]. rewrite Z.mod_small by lia. lia.
    + left; reflexivity.
    + cbn [length]; lia.
    + left; split; [reflexivity|lia].
  - destruct (write_loop_spec (vmax t) data) as (init & b & -> & Hi & Hb & Hv & Hl & Hbd).
    { split; [lia|]. rewrite pow128_2. eapply Z.lt_le_trans; [apply Hd|]. apply Z.pow_le_mono_r; lia. }
    repeat split.
    + exists init, b. repeat split; [lia|lia|exact Hi].
    + exact Hv.
    + right. rewrite last_last. lia.
    + rewrite app_length; cbn [length].
      destruct (Nat.le_gt_cases (length init + 1) (vmax t)); [assumption|exfalso].
      assert (Hpl : 128 ^ Z.of_nat (length init) < 2 ^ vbits t) by lia.
      rewrite pow128_2 in Hpl. assert (Hq : 2 ^ vbits t <= 2 ^ (Z.of_nat (length init) * 7)) by (apply Z.pow_le_mono_r; lia). lia.
    + right. rewrite app_length; cbn [length].
      replace (length init + 1 - 1)%nat with (length init) by lia.
      replace (length init + 1)%nat with (S (length init)) by lia. exact Hbd.
Qed.

Lemma is_varint_bytes l : is_varint l -> bytes l.
Proof.
  intros (p & b & -> & Hb & Hp). apply bytes_app; split.
  - eapply Forall_impl; [|exact Hp]. cbv beta. intros x Hx; red; lia.
  - constructor; [red; lia|constructor].
Qed.

Lemma WriteVarint_bytes t data : vt_ok t -> 0 <= data < 2 ^ vbits t -> bytes (WriteVarint t data).
Proof. intros; apply is_varint_bytes; apply WriteVarint_spec; assumption. Qed.

Lemma ReadVarintArray_Write t c data rest : vt_ok t -> 0 <= data < 2 ^ vbits t -> bytes rest ->
  ReadVarintArray t c (WriteVarint t data ++ rest) = VOk data (length (WriteVarint t data)).
Proof.
  intros Ht Hd Hr. pose proof (WriteVarint_spec t data Ht Hd) as (W1 & W2 & W3 & W4 & _).
  rewrite ReadVarintArray_spec; [|assumption|apply bytes_app; split; [apply is_varint_bytes|]; assumption].
  apply spec_read_iff; [assumption|apply bytes_app; split; [apply is_varint_bytes|]; assumption|].
  exists (WriteVarint t data), rest. repeat split; try assumption; try lia; auto.
Qed.

Lemma skipn_app_exact {A} (a b : list A) : skipn (length a) (a ++ b) = b.
Proof. rewrite skipn_app, Nat.sub_diag, skipn_all; reflexivity. Qed.
Lemma firstn_app_exact {A} (a b : list A) : firstn (length a) (a ++ b) = a.
Proof. rewrite firstn_app, Nat.sub_diag, firstn_all; cbn [firstn]; apply app_nil_r. Qed.

Lemma ReadVarint_Write t data rest : vt_ok t -> 0 <= data < 2 ^ vbits t -> bytes rest ->
  ReadVarint t (WriteVarint t data ++ rest) = Some (data, rest).
Proof.
  intros. unfold ReadVarint. rewrite ReadVarintArray_Write by assumption.
  rewrite skipn_app_exact; reflexivity.
Qed.

Lemma ReadVarint_sound t src v rest : vt_ok t -> bytes src -> ReadVarint t src = Some (v, rest) ->
  exists l, src = l ++ rest /\ is_varint l /\ base128 l = v /\ 0 <= v < 2 ^ vbits t /\ (length l <= vmax t)%nat.
Proof.
  intros Ht Hb. unfold ReadVarint. rewrite ReadVarintArray_spec by assumption.
  destruct (spec_read t false src) as [| |v' n] eqn:E; try discriminate.
  apply spec_read_iff in E; [|assumption|assumption].
  destruct E as (l & r & -> & Hv & <- & Hn & -> & Hlt & _). intros EE; injection EE as <- <-.
  rewrite skipn_app_exact. exists l. repeat split; try assumption; apply base128_bound.
Qed.

Lemma LengthVarint_small data : 0 <= data < 128 -> LengthVarint data = 1.
Proof.
  intros Hd. unfold LengthVarint.
  assert (0 <= Z.lor data 1 < 2 ^ 7).
  { split; [apply Z.lor_nonneg; lia|].
    destruct (Z.eq_dec (Z.lor data 1) 0) as [->|]; [lia|].
    apply Z.log2_lt_pow2; [assert (0 <= Z.lor data 1) by (apply Z.lor_nonneg; lia); lia|].
    rewrite Z.log2_lor by lia. change (Z.log2 1) with 0.
    destruct (Z.eq_dec data 0) as [->|]; [cbn; lia|].
    assert (Z.log2 data < 7) by (apply Z.log2_lt_pow2; lia). lia. }
  assert (0 <= Z.log2 (Z.lor data 1)) by apply Z.log2_nonneg.
  assert (Z.log2 (Z.lor data 1) < 7).
  { destruct (Z.eq_dec (Z.lor data 1) 0) as [->|]; [cbn; lia|]. apply Z.log2_lt_pow2; lia. }
  Z.div_mod_to_equations; lia.
Qed.

Lemma LengthVarint_spec t data : vt_ok t -> 0 <= data < 2 ^ vbits t -> vbits t <= 64 ->
  LengthVarint data = zlen (WriteVarint t data).
Proof.
  intros Ht Hd H64. pose proof Ht as [H1 H2].
  pose proof (WriteVarint_spec t data Ht Hd) as (_ & _ & _ & Hm & Hl).
  unfold zlen. destruct Hl as [[-> Hs]|Hl]; [rewrite LengthVarint_small by lia; reflexivity|].
  set (n := length (WriteVarint t data)) in *.
  destruct (Nat.eq_dec n 0) as [E0|E0]; [rewrite E0 in *; cbn in Hl; lia|].
  destruct (Nat.eq_dec n 1) as [E1|E1].
  { rewrite E1 in *. change (128 ^ Z.of_nat 1) with 128 in Hl. rewrite LengthVarint_small by lia. reflexivity. }
  assert (Hpos : 0 < data).
  { rewrite pow128_2 in Hl. pose proof (Z.pow_pos_nonneg 2 (Z.of_nat (n - 1) * 7)). lia. }
  unfold LengthVarint. rewrite Z.log2_lor by lia. change (Z.log2 1) with 0.
  assert (L0 : 0 <= Z.log2 data) by apply Z.log2_nonneg. rewrite Z.max_l by lia.
  rewrite !pow128_2 in Hl.
  assert (A1 : Z.of_nat (n - 1) * 7 <= Z.log2 data) by (apply Z.log2_le_pow2; lia).
  assert (A2 : Z.log2 data < Z.of_nat n * 7) by (apply Z.log2_lt_pow2; lia).
  assert (A3 : Z.log2 data < 64).
  { apply Z.log2_lt_pow2; [lia|]. eapply Z.lt_le_trans; [apply Hd|]. apply Z.pow_le_mono_r; lia. }
  Z.div_mod_to_equations; lia.
Qed.

(** *** Zigzag *)
Lemma lxor_ones x w : 0 <= w -> 0 <= x < 2 ^ w -> Z.lxor x (2 ^ w - 1) = 2 ^ w - 1 - x.
Proof.
  intros Hw Hx. replace (2 ^ w - 1) with (Z.ones w) by (rewrite Z.ones_equiv; lia).
  assert (Hh : forall i, w <= i -> Z.testbit x i = false).
  { intros i Hi. rewrite <- (Z.mod_small x (2 ^ w)) by lia. apply Z.mod_pow2_bits_high; lia. }
  rewrite Z.sub_nocarry_ldiff.
  - apply Z.bits_inj'; intros i Hi. rewrite Z.lxor_spec, Z.ldiff_spec.
    destruct (Z.lt_ge_cases i w).
    + rewrite Z.ones_spec_low by lia. destruct (Z.testbit x i); reflexivity.
    + rewrite Z.ones_spec_high by lia. rewrite Hh by lia. reflexivity.
  - apply Z.bits_inj'; intros i Hi. rewrite Z.ldiff_spec, Z.bits_0.
    destruct (Z.lt_ge_cases i w).
    + rewrite Z.ones_spec_low by lia. apply andb_false_r.
    + rewrite Hh by lia. reflexivity.
Qed.

Lemma EncodeVarintSigned_eq t v : vt_ok t -> - 2 ^ (vbits t - 1) <= v < 2 ^ (vbits t - 1) ->
  EncodeVarintSigned t v = if v <? 0 then -2 * v - 1 else 2 * v.
Proof.
  intros [H1 H2] Hv. unfold EncodeVarintSigned. set (w := vbits t) in *.
  assert (E : 2 ^ w = 2 * 2 ^ (w - 1)).
  { replace w with (1 + (w - 1)) at 1 by lia. rewrite Z.pow_add_r by lia. reflexivity. }
  assert (P : 0 < 2 ^ (w - 1)) by (apply Z.pow_pos_nonneg; lia).
  rewrite Z.shiftl_mul_pow2, Z.shiftr_div_pow2 by lia. change (2 ^ 1) with 2.
  rewrite Z.mul_mod_idemp_l by lia.
  destruct (Z.ltb_spec v 0).
  - replace ((v * 2) mod 2 ^ w) with (2 ^ w + v * 2) by (apply Z.mod_unique with (-1); lia).
    replace (v / 2 ^ (w - 1)) with (-1) by (apply Z.div_unique with (v + 2 ^ (w - 1)); lia).
    replace ((-1) mod 2 ^ w) with (2 ^ w - 1) by (apply Z.mod_unique with (-1); lia).
    rewrite lxor_ones by lia. lia.
  - rewrite Z.mod_small by lia. rewrite Z.div_small by lia. rewrite Z.mod_0_l by lia.
    rewrite Z.lxor_0_r. lia.
Qed.

Lemma DecodeVarintSigned_eq t r : vt_ok t -> 0 <= r < 2 ^ vbits t ->
  DecodeVarintSigned t r = if Z.even r then r / 2 else - (r / 2) - 1.
Proof.
  intros [H1 H2] Hr. unfold DecodeVarintSigned. set (w := vbits t) in *.
  assert (E : 2 ^ w = 2 * 2 ^ (w - 1)).
  { replace w with (1 + (w - 1)) at 1 by lia. rewrite Z.pow_add_r by lia. reflexivity. }
  assert (P : 0 < 2 ^ (w - 1)) by (apply Z.pow_pos_nonneg; lia).
  rewrite Z.shiftr_div_pow2 by lia. change (2 ^ 1) with 2.
  assert (Hd : 0 <= r / 2 < 2 ^ (w - 1)) by (Z.div_mod_to_equations; lia).
  replace (Z.land r 1) with (r mod 2) by (change 1 with (Z.ones 1); rewrite Z.land_ones by lia; reflexivity).
  rewrite Zmod_even. destruct (Z.even r).
  - replace (2 ^ w - 1 - 0 + 1) with (2 ^ w) by lia. rewrite Z_mod_same_full, Z.lxor_0_r.
    unfold to_signed. destruct (Z.ltb_spec (r / 2) (2 ^ (w - 1))); lia.
  - replace (2 ^ w - 1 - 1 + 1) with (2 ^ w - 1) by lia. rewrite Z.mod_small by lia.
    rewrite lxor_ones by lia. unfold to_signed.
    destruct (Z.ltb_spec (2 ^ w - 1 - r / 2) (2 ^ (w - 1))); lia.
Qed.

Lemma zigzag_decode_encode t v : vt_ok t -> - 2 ^ (vbits t - 1) <= v < 2 ^ (vbits t - 1) ->
  DecodeVarintSigned t (EncodeVarintSigned t v) = v /\ 0 <= EncodeVarintSigned t v < 2 ^ vbits t.
Proof.
  intros Ht Hv. pose proof Ht as [H1 H2].
  assert (E : 2 ^ vbits t = 2 * 2 ^ (vbits t - 1)).
  { replace (vbits t) with (1 + (vbits t - 1)) at 1 by lia. rewrite Z.pow_add_r by lia. reflexivity. }
  assert (B : 0 <= EncodeVarintSigned t v < 2 ^ vbits t).
  { rewrite EncodeVarintSigned_eq by assumption. destruct (Z.ltb_spec v 0); lia. }
  split; [|exact B].
  rewrite DecodeVarintSigned_eq by assumption. rewrite EncodeVarintSigned_eq by assumption.
  destruct (Z.ltb_spec v 0).
  - replace (-2 * v - 1) with (1 + 2 * (- v - 1)) by lia.
    rewrite Z.even_add_mul_2. change (Z.even 1) with false. cbn iota. Z.div_mod_to_equations; lia.
  - rewrite Z.even_mul. change (Z.even 2) with true. cbn [orb]. Z.div_mod_to_equations; lia.
Qed.

Lemma zigzag_encode_decode t r : vt_ok t -> 0 <= r < 2 ^ vbits t ->
  EncodeVarintSigned t (DecodeVarintSigned t r) = r /\
  - 2 ^ (vbits t - 1) <= DecodeVarintSigned t r < 2 ^ (vbits t - 1).
Proof.
  intros Ht Hr. pose proof Ht as [H1 H2].
  assert (E : 2 ^ vbits t = 2 * 2 ^ (vbits t - 1)).
  { replace (vbits t) with (1 + (vbits t - 1)) at 1 by lia. rewrite Z.pow_add_r by lia. reflexivity. }
  assert (Hmod : r mod 2 = if Z.even r then 0 else 1) by apply Zmod_even.
  assert (B : - 2 ^ (vbits t - 1) <= DecodeVarintSigned t r < 2 ^ (vbits t - 1)).
  { rewrite DecodeVarintSigned_eq by assumption. destruct (Z.even r); Z.div_mod_to_equations; lia. }
  split; [|exact B].
  rewrite EncodeVarintSigned_eq by assumption. rewrite DecodeVarintSigned_eq by assumption.
  destruct (Z.even r).
  - destruct (Z.ltb_spec (r / 2) 0); Z.div_mod_to_equations; lia.
  - destruct (Z.ltb_spec (- (r / 2) - 1) 0); Z.div_mod_to_equations; lia.
Qed.

(** *** CountVarints *)
Lemma CountVarints_spec value : bytes value ->
  CountVarints value = zlen (filter (fun b => b <? 128) value).
Proof.
  intros Hb. unfold CountVarints.
  assert (G : forall n, fold_left (fun n byte => n - Z.shiftr byte 7) value n
                        = n - zlen value + zlen (filter (fun b => b <? 128) value)).
  { induction value as [|b value IH]; intros n; cbn [fold_left filter]; [rewrite !zlen_nil; lia|].
    apply bytes_cons in Hb; destruct Hb as [Hb Hv]; red in Hb.
    rewrite IH by assumption. rewrite Z.shiftr_div_pow2 by lia. change (2 ^ 7) with 128.
    destruct (Z.ltb_spec b 128); rewrite ?zlen_cons; Z.div_mod_to_equations; lia. }
  rewrite G; lia.
Qed.
