(** Byte strings as lists of [Z], lists indexed by [Z], fixed-width integers.
    This file models no code of /repo; it is the vocabulary of the model. *)
From Coq Require Export ZArith List Bool Lia.
From Coq Require Export ZifyBool ZifyNat.
Export ListNotations.
Open Scope Z_scope.
#[export] Unset Lia Cache.

(** ** Lengths and slices indexed by [Z] *)
Definition zlen {A} (l : list A) : Z := Z.of_nat (length l).
Definition ztake {A} (n : Z) (l : list A) : list A := firstn (Z.to_nat n) l.
Definition zdrop {A} (n : Z) (l : list A) : list A := skipn (Z.to_nat n) l.
(** [zslice p n l]: the [n] elements of [l] beginning at index [p]. *)
Definition zslice {A} (p n : Z) (l : list A) : list A := ztake n (zdrop p l).
Definition zeros (n : Z) : list Z := repeat 0 (Z.to_nat n).

(** ** Bytes *)
Definition is_byte (b : Z) : Prop := 0 <= b < 256.
Definition bytes (l : list Z) : Prop := Forall is_byte l.
Definition is_byteb (b : Z) : bool := (0 <=? b) && (b <? 256).
Definition bytesb (l : list Z) : bool := forallb is_byteb l.

(** ** Unsigned machine integers *)
Definition u8 (x : Z) : Z := x mod 2 ^ 8.
Definition u32 (x : Z) : Z := x mod 2 ^ 32.
Definition u64 (x : Z) : Z := x mod 2 ^ 64.

Definition list_eqb (a b : list Z) : bool :=
  (zlen a =? zlen b) && forallb (fun p => fst p =? snd p) (combine a b).

(** ** Lexicographic comparison of byte strings as unsigned bytes (memcmp order,
    shorter prefix first) *)
Fixpoint lex_cmp (a b : list Z) : comparison :=
  match a, b with
  | [], [] => Eq
  | [], _ :: _ => Lt
  | _ :: _, [] => Gt
  | x :: a', y :: b' =>
      match Z.compare x y with Eq => lex_cmp a' b' | c => c end
  end.
Definition lex_lt (a b : list Z) : Prop := lex_cmp a b = Lt.

(** ** Lemmas *)
Section ZList.
  Context {A : Type}.
  Implicit Types l : list A.

  Lemma zlen_nonneg l : 0 <= zlen l.
  Proof. unfold zlen; lia. Qed.
  Lemma zlen_nil : zlen (@nil A) = 0.
  Proof. reflexivity. Qed.
  Lemma zlen_cons x l : zlen (x :: l) = 1 + zlen l.
  Proof. unfold zlen; cbn [length]; lia. Qed.
  Lemma zlen_app l1 l2 : zlen (l1 ++ l2) = zlen l1 + zlen l2.
  Proof. unfold zlen; rewrite app_length; lia. Qed.
  Lemma zlen_rev l : zlen (rev l) = zlen l.
  Proof. unfold zlen; rewrite rev_length; lia. Qed.
  Lemma zlen_0_nil l : zlen l = 0 -> l = [].
  Proof. unfold zlen; destruct l; cbn [length]; [reflexivity|lia]. Qed.
  Lemma zlen_repeat (x : A) n : zlen (repeat x n) = Z.of_nat n.
  Proof. unfold zlen; rewrite repeat_length; lia. Qed.

  Lemma zlen_ztake n l : zlen (ztake n l) = Z.max 0 (Z.min n (zlen l)).
  Proof. unfold zlen, ztake; rewrite firstn_length; lia. Qed.
  Lemma zlen_zdrop n l : zlen (zdrop n l) = Z.max 0 (zlen l - Z.max 0 n).
  Proof. unfold zlen, zdrop; rewrite skipn_length; lia. Qed.

  Lemma ztake_zdrop n l : ztake n l ++ zdrop n l = l.
  Proof. apply firstn_skipn. Qed.
  Lemma ztake_nonpos n l : n <= 0 -> ztake n l = [].
  Proof. intros H; unfold ztake; replace (Z.to_nat n) with 0%nat by lia; reflexivity. Qed.
  Lemma zdrop_nonpos n l : n <= 0 -> zdrop n l = l.
  Proof. intros H; unfold zdrop; replace (Z.to_nat n) with 0%nat by lia; reflexivity. Qed.
  Lemma ztake_all n l : zlen l <= n -> ztake n l = l.
  Proof. intros H; unfold ztake; apply firstn_all2; unfold zlen in H; lia. Qed.
  Lemma zdrop_all n l : zlen l <= n -> zdrop n l = [].
  Proof. intros H; unfold zdrop; apply skipn_all2; unfold zlen in H; lia. Qed.
  Lemma ztake_nil n : ztake n (@nil A) = [].
  Proof. unfold ztake; apply firstn_nil. Qed.
  Lemma zdrop_nil n : zdrop n (@nil A) = [].
  Proof. unfold zdrop; apply skipn_nil. Qed.

  Lemma ztake_app_l n l1 l2 : n <= zlen l1 -> ztake n (l1 ++ l2) = ztake n l1.
  Proof.
    intros H; unfold ztake, zlen in *; rewrite firstn_app.
    replace (Z.to_nat n - length l1)%nat with 0%nat by lia.
    cbn [firstn]; rewrite app_nil_r; reflexivity.
  Qed.
  Lemma ztake_app_r n l1 l2 : zlen l1 <= n -> ztake n (l1 ++ l2) = l1 ++ ztake (n - zlen l1) l2.
  Proof.
    intros H; unfold ztake, zlen in *; rewrite firstn_app.
    rewrite firstn_all2 by lia; do 2 f_equal; lia.
  Qed.
  Lemma zdrop_app_l n l1 l2 : n <= zlen l1 -> zdrop n (l1 ++ l2) = zdrop n l1 ++ l2.
  Proof.
    intros H; unfold zdrop, zlen in *; rewrite skipn_app.
    replace (Z.to_nat n - length l1)%nat with 0%nat by lia; reflexivity.
  Qed.
  Lemma zdrop_app_r n l1 l2 : zlen l1 <= n -> zdrop n (l1 ++ l2) = zdrop (n - zlen l1) l2.
  Proof.
    intros H; unfold zdrop, zlen in *; rewrite skipn_app.
    rewrite skipn_all2 by lia; cbn [app]; f_equal; lia.
  Qed.
  Lemma ztake_app_exact l1 l2 : ztake (zlen l1) (l1 ++ l2) = l1.
  Proof. rewrite ztake_app_l by lia; apply ztake_all; lia. Qed.
  Lemma zdrop_app_exact l1 l2 : zdrop (zlen l1) (l1 ++ l2) = l2.
  Proof. rewrite zdrop_app_r by lia. rewrite Z.sub_diag; apply zdrop_nonpos; lia. Qed.

  Lemma zdrop_zdrop a b l : 0 <= a -> 0 <= b -> zdrop a (zdrop b l) = zdrop (a + b) l.
  Proof.
    intros Ha Hb; unfold zdrop.
    replace (Z.to_nat (a + b)) with (Z.to_nat b + Z.to_nat a)%nat by lia.
    generalize (Z.to_nat a) (Z.to_nat b); clear; intros n m.
    revert l; induction m as [|m IH]; intros l; cbn [skipn Nat.add]; [reflexivity|].
    destruct l as [|x l]; [apply skipn_nil|apply IH].
  Qed.
  Lemma ztake_ztake a b l : ztake a (ztake b l) = ztake (Z.min a b) l.
  Proof. unfold ztake; rewrite firstn_firstn; f_equal; lia. Qed.
  Lemma zdrop_ztake a b l : 0 <= a -> zdrop a (ztake b l) = ztake (b - a) (zdrop a l).
  Proof.
    intros H; unfold zdrop, ztake; rewrite skipn_firstn_comm; f_equal; lia.
  Qed.
  Lemma ztake_split a b l : 0 <= a -> 0 <= b ->
    ztake (a + b) l = ztake a l ++ ztake b (zdrop a l).
  Proof.
    intros Ha Hb. unfold ztake, zdrop.
    replace (Z.to_nat (a + b)) with (Z.to_nat a + Z.to_nat b)%nat by lia.
    generalize (Z.to_nat a) (Z.to_nat b); clear; intros n m; revert l.
    induction n as [|n IH]; intros l; [reflexivity|].
    destruct l as [|x l]; cbn [firstn skipn Nat.add app].
    - rewrite firstn_nil; reflexivity.
    - rewrite IH; reflexivity.
  Qed.
  Lemma ztake_zdrop_comm a b l : 0 <= a -> ztake b (zdrop a l) = zdrop a (ztake (a + b) l).
  Proof. intros H; rewrite zdrop_ztake by assumption; f_equal; lia. Qed.

  Lemma ztake_cons n x l : 0 < n -> ztake n (x :: l) = x :: ztake (n - 1) l.
  Proof.
    intros H; unfold ztake; replace (Z.to_nat n) with (S (Z.to_nat (n - 1))) by lia; reflexivity.
  Qed.
  Lemma zdrop_cons n x l : 0 < n -> zdrop n (x :: l) = zdrop (n - 1) l.
  Proof.
    intros H; unfold zdrop; replace (Z.to_nat n) with (S (Z.to_nat (n - 1))) by lia; reflexivity.
  Qed.
  Lemma app_inv_zlen l1 l2 l1' l2' :
    l1 ++ l2 = l1' ++ l2' -> zlen l1 = zlen l1' -> l1 = l1' /\ l2 = l2'.
  Proof.
    unfold zlen; revert l1'; induction l1 as [|x l1 IH]; intros [|y l1'] E Hl;
      cbn [length app] in *; try lia; [split; auto|].
    injection E as -> E. destruct (IH l1' E) as [-> ->]; [lia|auto].
  Qed.
End ZList.

Lemma zlen_map {A B} (f : A -> B) l : zlen (map f l) = zlen l.
Proof. unfold zlen; rewrite map_length; reflexivity. Qed.
Lemma zlen_zeros n : zlen (zeros n) = Z.max 0 n.
Proof. unfold zeros; rewrite zlen_repeat; lia. Qed.
Lemma zeros_app a b : 0 <= a -> 0 <= b -> zeros a ++ zeros b = zeros (a + b).
Proof.
  intros; unfold zeros; rewrite Z2Nat.inj_add by lia; rewrite repeat_app; reflexivity.
Qed.
Lemma zeros_nonpos n : n <= 0 -> zeros n = [].
Proof. intros; unfold zeros; replace (Z.to_nat n) with 0%nat by lia; reflexivity. Qed.

Lemma bytes_nil : bytes [].
Proof. constructor. Qed.
Lemma bytes_cons b l : bytes (b :: l) <-> is_byte b /\ bytes l.
Proof. unfold bytes; split; [intros H; inversion H; auto|intros [? ?]; constructor; auto]. Qed.
Lemma bytes_app a b : bytes (a ++ b) <-> bytes a /\ bytes b.
Proof. unfold bytes; apply Forall_app. Qed.
Lemma bytes_rev a : bytes (rev a) <-> bytes a.
Proof.
  unfold bytes; rewrite !Forall_forall; split; intros H x Hx; apply H.
  - rewrite <- in_rev; exact Hx.
  - apply in_rev; exact Hx.
Qed.
Lemma bytes_ztake n l : bytes l -> bytes (ztake n l).
Proof. intros H; rewrite <- (ztake_zdrop n l) in H; apply bytes_app in H; tauto. Qed.
Lemma bytes_zdrop n l : bytes l -> bytes (zdrop n l).
Proof. intros H; rewrite <- (ztake_zdrop n l) in H; apply bytes_app in H; tauto. Qed.
Lemma bytes_zeros n : bytes (zeros n).
Proof.
  unfold bytes, zeros; apply Forall_forall; intros x Hx; apply repeat_spec in Hx; subst; red; lia.
Qed.
Lemma bytesb_spec l : bytesb l = true <-> bytes l.
Proof.
  unfold bytesb, bytes; rewrite forallb_forall, Forall_forall.
  split; intros H x Hx; specialize (H x Hx); unfold is_byteb, is_byte in *; lia.
Qed.

Lemma list_eqb_refl a : list_eqb a a = true.
Proof.
  unfold list_eqb; rewrite Z.eqb_refl; cbn [andb].
  induction a as [|x a IH]; cbn [combine forallb fst snd]; [reflexivity|rewrite Z.eqb_refl; exact IH].
Qed.
Lemma list_eqb_eq a b : list_eqb a b = true <-> a = b.
Proof.
  split; [|intros ->; apply list_eqb_refl].
  unfold list_eqb; revert b; induction a as [|x a IH]; intros [|y b];
    rewrite ?zlen_cons, ?zlen_nil; cbn [combine forallb fst snd]; try reflexivity;
    intros H; apply andb_prop in H; destruct H as [H1 H2].
  - pose proof (zlen_nonneg b); lia.
  - pose proof (zlen_nonneg a); lia.
  - apply andb_prop in H2; destruct H2 as [H2 H3].
    assert (x = y) by lia; subst; f_equal; apply IH.
    rewrite H3, andb_true_r; lia.
Qed.

(** ** Lexicographic order *)
Lemma lex_cmp_refl a : lex_cmp a a = Eq.
Proof. induction a as [|x a IH]; cbn [lex_cmp]; [reflexivity|rewrite Z.compare_refl; exact IH]. Qed.
Lemma lex_cmp_eq a b : lex_cmp a b = Eq <-> a = b.
Proof.
  split; [|intros ->; apply lex_cmp_refl].
  revert b; induction a as [|x a IH]; intros [|y b]; cbn [lex_cmp]; try discriminate; [reflexivity|].
  destruct (Z.compare_spec x y); try discriminate; intros Hc; subst; f_equal; auto.
Qed.
Lemma lex_cmp_antisym a b : lex_cmp b a = CompOpp (lex_cmp a b).
Proof.
  revert b; induction a as [|x a IH]; intros [|y b]; cbn [lex_cmp]; try reflexivity.
  rewrite (Z.compare_antisym x y); destruct (Z.compare x y); cbn [CompOpp]; auto.
Qed.
Lemma lex_lt_irrefl a : ~ lex_lt a a.
Proof. unfold lex_lt; rewrite lex_cmp_refl; discriminate. Qed.
Lemma lex_lt_trans a b c : lex_lt a b -> lex_lt b c -> lex_lt a c.
Proof.
  unfold lex_lt; revert b c; induction a as [|x a IH]; intros [|y b] [|z c]; cbn [lex_cmp];
    try discriminate; try reflexivity.
  destruct (Z.compare_spec x y); destruct (Z.compare_spec y z); try discriminate; intros H1 H2;
    destruct (Z.compare_spec x z); try reflexivity; try lia; eauto.
Qed.
Lemma lex_cmp_app_same p a b : lex_cmp (p ++ a) (p ++ b) = lex_cmp a b.
Proof. induction p as [|x p IH]; cbn [app lex_cmp]; [reflexivity|rewrite Z.compare_refl; exact IH]. Qed.
(** Equal-length strings already different decide, whatever follows. *)
Lemma lex_cmp_app_len a b s t :
  zlen a = zlen b -> lex_cmp a b <> Eq -> lex_cmp (a ++ s) (b ++ t) = lex_cmp a b.
Proof.
  revert b; induction a as [|x a IH]; intros [|y b]; rewrite ?zlen_cons, ?zlen_nil;
    cbn [lex_cmp app]; intros Hl Hne.
  - congruence.
  - pose proof (zlen_nonneg b); lia.
  - pose proof (zlen_nonneg a); lia.
  - destruct (Z.compare x y); auto. apply IH; [lia|exact Hne].
Qed.

(** ** Fixed-width values of byte lists *)
Fixpoint le_val (l : list Z) : Z :=
  match l with [] => 0 | b :: l' => b + 256 * le_val l' end.
Fixpoint le_bytes (n : nat) (v : Z) : list Z :=
  match n with O => [] | S n' => v mod 256 :: le_bytes n' (v / 256) end.
Definition be_val (l : list Z) : Z := le_val (rev l).
Definition be_bytes (n : nat) (v : Z) : list Z := rev (le_bytes n v).

Lemma le_bytes_length n v : length (le_bytes n v) = n.
Proof. revert v; induction n as [|n IH]; intros v; cbn [le_bytes length]; [reflexivity|rewrite IH; reflexivity]. Qed.
Lemma zlen_le_bytes n v : zlen (le_bytes n v) = Z.of_nat n.
Proof. unfold zlen; rewrite le_bytes_length; reflexivity. Qed.
Lemma zlen_be_bytes n v : zlen (be_bytes n v) = Z.of_nat n.
Proof. unfold be_bytes; rewrite zlen_rev; apply zlen_le_bytes. Qed.
Lemma le_bytes_bytes n v : bytes (le_bytes n v).
Proof.
  revert v; induction n as [|n IH]; intros v; cbn [le_bytes]; [constructor|].
  apply bytes_cons; split; [red; apply Z.mod_pos_bound; lia|apply IH].
Qed.
Lemma be_bytes_bytes n v : bytes (be_bytes n v).
Proof. unfold be_bytes; apply bytes_rev; apply le_bytes_bytes. Qed.
Lemma pow256_S n : 2 ^ (8 * Z.of_nat (S n)) = 256 * 2 ^ (8 * Z.of_nat n).
Proof. replace (8 * Z.of_nat (S n)) with (8 + 8 * Z.of_nat n) by lia. rewrite Z.pow_add_r by lia. reflexivity. Qed.
Lemma le_val_bytes n v : 0 <= v < 2 ^ (8 * Z.of_nat n) -> le_val (le_bytes n v) = v.
Proof.
  revert v; induction n as [|n IH]; intros v Hv; cbn [le_bytes le_val].
  - change (2 ^ (8 * Z.of_nat 0)) with 1 in Hv; lia.
  - rewrite pow256_S in Hv. rewrite IH; [|Z.div_mod_to_equations; lia].
    Z.div_mod_to_equations; lia.
Qed.
Lemma le_val_mod n v : le_val (le_bytes n v) = v mod 2 ^ (8 * Z.of_nat n).
Proof.
  revert v; induction n as [|n IH]; intros v; cbn [le_bytes le_val].
  - change (2 ^ (8 * Z.of_nat 0)) with 1; rewrite Z.mod_1_r; reflexivity.
  - rewrite IH, pow256_S. rewrite (Z.rem_mul_r v 256); [reflexivity|lia|].
    apply Z.pow_pos_nonneg; lia.
Qed.
Lemma le_val_bound l : bytes l -> 0 <= le_val l < 2 ^ (8 * zlen l).
Proof.
  induction l as [|b l IH]; intros H; cbn [le_val].
  - change (2 ^ (8 * zlen (@nil Z))) with 1; lia.
  - apply bytes_cons in H; destruct H as [Hb Hl]; specialize (IH Hl). red in Hb.
    unfold zlen in *; cbn [length]. rewrite pow256_S. lia.
Qed.
Lemma le_bytes_val l : bytes l -> le_bytes (length l) (le_val l) = l.
Proof.
  induction l as [|b l IH]; intros H; cbn [le_val length le_bytes]; [reflexivity|].
  apply bytes_cons in H; destruct H as [Hb Hl]; red in Hb.
  replace ((b + 256 * le_val l) mod 256) with b by (Z.div_mod_to_equations; lia).
  replace ((b + 256 * le_val l) / 256) with (le_val l) by (Z.div_mod_to_equations; lia).
  rewrite IH by exact Hl; reflexivity.
Qed.
Lemma le_val_inj l1 l2 : bytes l1 -> bytes l2 -> length l1 = length l2 ->
  le_val l1 = le_val l2 -> l1 = l2.
Proof. intros H1 H2 Hl Hv. rewrite <- (le_bytes_val l1 H1), <- (le_bytes_val l2 H2), Hl, Hv. reflexivity. Qed.
Lemma be_val_bytes n v : 0 <= v < 2 ^ (8 * Z.of_nat n) -> be_val (be_bytes n v) = v.
Proof. intros; unfold be_val, be_bytes; rewrite rev_involutive; apply le_val_bytes; assumption. Qed.
Lemma be_bytes_val l : bytes l -> be_bytes (length l) (be_val l) = l.
Proof.
  intros; unfold be_val, be_bytes. rewrite <- (rev_length l), le_bytes_val; [apply rev_involutive|].
  apply bytes_rev; assumption.
Qed.
Lemma be_val_bound l : bytes l -> 0 <= be_val l < 2 ^ (8 * zlen l).
Proof. intros; unfold be_val; rewrite <- (zlen_rev l); apply le_val_bound; apply bytes_rev; assumption. Qed.
Lemma le_val_app a b : le_val (a ++ b) = le_val a + 2 ^ (8 * zlen a) * le_val b.
Proof.
  induction a as [|x a IH].
  - cbn [app le_val]; change (2 ^ (8 * zlen (@nil Z))) with 1; lia.
  - cbn [app le_val]. rewrite IH. unfold zlen; cbn [length]. rewrite pow256_S. lia.
Qed.
Lemma be_val_app a b : be_val (a ++ b) = be_val a * 2 ^ (8 * zlen b) + be_val b.
Proof. unfold be_val; rewrite rev_app_distr, le_val_app, zlen_rev; lia. Qed.
Lemma be_val_cons x l : be_val (x :: l) = x * 2 ^ (8 * zlen l) + be_val l.
Proof. change (x :: l) with ([x] ++ l); rewrite be_val_app; unfold be_val at 1; cbn [rev app le_val]; lia. Qed.

(** Big-endian digits order lexicographically exactly as their values. *)
Lemma be_cmp_val a b : bytes a -> bytes b -> zlen a = zlen b ->
  lex_cmp a b = Z.compare (be_val a) (be_val b).
Proof.
  revert b; induction a as [|x a IH]; intros [|y b] Ha Hb Hl;
    rewrite ?zlen_cons, ?zlen_nil in Hl.
  - reflexivity.
  - pose proof (zlen_nonneg b); lia.
  - pose proof (zlen_nonneg a); lia.
  - apply bytes_cons in Ha, Hb; destruct Ha as [Hx Ha], Hb as [Hy Hb]; red in Hx, Hy.
    cbn [lex_cmp]; rewrite !be_val_cons.
    assert (Hl' : zlen a = zlen b) by lia; rewrite <- Hl'.
    pose proof (be_val_bound a Ha) as Ba; pose proof (be_val_bound b Hb) as Bb; rewrite <- Hl' in Bb.
    destruct (Z.compare_spec x y) as [->|Hlt|Hgt].
    + rewrite (IH b Ha Hb Hl').
      destruct (Z.compare_spec (be_val a) (be_val b)); symmetry;
        [apply Z.compare_eq_iff|apply Z.compare_lt_iff|apply Z.compare_gt_iff]; lia.
    + symmetry; apply Z.compare_lt_iff. nia.
    + symmetry; apply Z.compare_gt_iff. nia.
Qed.

(** ** Bit operations as arithmetic *)
Lemma land_ones_mod x n : 0 <= n -> Z.land x (2 ^ n - 1) = x mod 2 ^ n.
Proof. intros H. rewrite <- Z.land_ones by lia. rewrite Z.ones_equiv. f_equal; lia. Qed.
Lemma lor_disjoint_add a b n : 0 <= n -> 0 <= a < 2 ^ n -> b mod 2 ^ n = 0 -> Z.lor a b = a + b.
Proof.
  intros Hn Ha Hb.
  assert (L : Z.land a b = 0).
  { apply Z.bits_inj'; intros i Hi. rewrite Z.land_spec, Z.bits_0.
    destruct (Z.lt_ge_cases i n) as [Hlt|Hge].
    - replace (Z.testbit b i) with false; [apply andb_false_r|].
      symmetry. rewrite <- (Z.mod_pow2_bits_low b n i) by lia. rewrite Hb; apply Z.bits_0.
    - replace (Z.testbit a i) with false; [reflexivity|].
      symmetry. replace a with (a mod 2 ^ n) by (apply Z.mod_small; lia).
      apply Z.mod_pow2_bits_high; lia. }
  rewrite <- Z.lxor_lor by exact L. symmetry; apply Z.add_nocarry_lxor; exact L.
Qed.
Lemma lor_shl_add a b n : 0 <= n -> 0 <= a < 2 ^ n -> Z.lor a (Z.shiftl b n) = a + b * 2 ^ n.
Proof.
  intros Hn Ha. rewrite Z.shiftl_mul_pow2 by lia.
  apply lor_disjoint_add with (n := n); try assumption. apply Z_mod_mult.
Qed.
