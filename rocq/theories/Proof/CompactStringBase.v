(** The representation of a CompactString: the bytes of its whole capacity, of which the first ones are its value. *)
From Verif Require Import Base.Bytes Model.CompactString.
From Coq Require Import Permutation.

Definition limit : Z := 2 ^ 60.
(** What the allocator promises in a state *)
Definition env_at (E : env) (h : heap) : Prop := forall n, 0 <= n <= max_allocation ->
  find_block h (place E h n) = None /\ 0 < place E h n /\ place E h n mod 8 = 0 /\ place E h n + 16 < 2 ^ 64 /\ zlen (contents E h n) = n /\ bytes (contents E h n).

(** ** The heap *)
Definition keys (h : heap) : list Z := map fst h.
Lemma find_none h b : find_block h b = None <-> ~ In b (keys h).
Proof.
  induction h as [|[k l] h IH]; cbn; [tauto|]. destruct (Z.eqb_spec k b) as [->|N]; [split; [discriminate|intros H; exfalso; apply H; now left]|]. rewrite IH. tauto.
Qed.
Lemma find_some h b l : find_block h b = Some l -> In b (keys h).
Proof. intros H. destruct (in_dec Z.eq_dec b (keys h)) as [I|N]; [exact I|]. apply find_none in N. congruence. Qed.
Lemma keys_set h b v : keys (set_block h b v) = keys h.
Proof. unfold keys. induction h as [|[k l] h IH]; cbn; [reflexivity|]. destruct (k =? b); cbn; [reflexivity|now rewrite IH]. Qed.
Lemma find_set_same h b v l : find_block h b = Some l -> find_block (set_block h b v) b = Some v.
Proof. induction h as [|[k x] h IH]; cbn; [discriminate|]. destruct (k =? b) eqn:EK; cbn; rewrite EK; [reflexivity|exact IH]. Qed.
Lemma find_set_other h b b' v : b' <> b -> find_block (set_block h b v) b' = find_block h b'.
Proof.
  intros N. induction h as [|[k x] h IH]; cbn; [reflexivity|]. destruct (Z.eqb_spec k b) as [->|K]; cbn.
  - destruct (Z.eqb_spec b b'); [congruence|reflexivity].
  - destruct (k =? b'); [reflexivity|exact IH].
Qed.
Lemma find_remove_other h b b' : b' <> b -> find_block (remove_block h b) b' = find_block h b'.
Proof.
  intros N. induction h as [|[k x] h IH]; cbn; [reflexivity|]. destruct (Z.eqb_spec k b) as [->|K]; cbn.
  - destruct (Z.eqb_spec b b'); [congruence|reflexivity].
  - destruct (k =? b'); [reflexivity|exact IH].
Qed.
Lemma keys_remove h b l : find_block h b = Some l -> Permutation (keys h) (b :: keys (remove_block h b)).
Proof.
  unfold keys. induction h as [|[k x] h IH]; cbn; [discriminate|]. destruct (Z.eqb_spec k b) as [->|K]; cbn; [reflexivity|]. intros H. rewrite (IH H). apply perm_swap.
Qed.

(** ** Bytes *)
Lemma zlen_overwrite l off v : 0 <= off -> off + zlen v <= zlen l -> zlen (overwrite l off v) = zlen l.
Proof. intros A B. unfold overwrite. rewrite !zlen_app, zlen_ztake, zlen_zdrop. pose proof (zlen_nonneg v). lia. Qed.
Lemma bytes_overwrite l off v : bytes l -> bytes v -> bytes (overwrite l off v).
Proof. intros A B. unfold overwrite. rewrite !bytes_app. auto using bytes_ztake, bytes_zdrop. Qed.
Lemma overwrite_app a l off v : zlen a <= off -> overwrite (a ++ l) off v = a ++ overwrite l (off - zlen a) v.
Proof.
  intros A. unfold overwrite. pose proof (zlen_nonneg v). rewrite ztake_app_r, zdrop_app_r by lia. rewrite <- app_assoc. now replace (off + zlen v - zlen a) with (off - zlen a + zlen v) by lia.
Qed.
Lemma overwrite_head a a' l : zlen a = zlen a' -> overwrite (a ++ l) 0 a' = a' ++ l.
Proof. intros A. unfold overwrite. rewrite ztake_nonpos by lia. cbn [app]. rewrite Z.add_0_l, <- A, zdrop_app_exact. reflexivity. Qed.
Lemma zslice_app (a l : list Z) off n : zlen a <= off -> zslice off n (a ++ l) = zslice (off - zlen a) n l.
Proof. intros A. unfold zslice. now rewrite zdrop_app_r. Qed.
Lemma zslice_head (a l : list Z) k : k = zlen a -> zslice 0 k (a ++ l) = a.
Proof. intros ->. unfold zslice. rewrite zdrop_nonpos by lia. apply ztake_app_exact. Qed.
Lemma ztake_overwrite l off v n : 0 <= off -> n = off + zlen v -> off + zlen v <= zlen l -> ztake n (overwrite l off v) = ztake off l ++ v.
Proof.
  intros A -> B. unfold overwrite. pose proof (zlen_nonneg v). rewrite app_assoc. rewrite ztake_app_l by (rewrite zlen_app, zlen_ztake; lia). apply ztake_all. rewrite zlen_app, zlen_ztake. lia.
Qed.
Lemma zlen_zslice (l : list Z) off n : 0 <= off -> 0 <= n -> off + n <= zlen l -> zlen (zslice off n l) = n.
Proof. intros. unfold zslice. rewrite zlen_ztake, zlen_zdrop. lia. Qed.
Lemma bytes_zslice off n l : bytes l -> bytes (zslice off n l).
Proof. intros. unfold zslice. auto using bytes_ztake, bytes_zdrop. Qed.

(** ** The representation *)
Definition wide (w : nat) : Prop := w = 1%nat \/ w = 2%nat \/ w = 8%nat.
(** [rep h r n full]: the size is [n], the bytes of the capacity are [full] *)
Definition in_place (r n : Z) (full : list Z) : Prop := zlen full = 7 /\ r = le_val ((8 * n + 6) :: full).
Definition allocated (h : heap) (r n : Z) (full : list Z) : Prop :=
  exists w b, wide w /\ r = b + 2 * Z.of_nat w /\ 0 < b /\ b mod 8 = 0 /\ b + 16 < 2 ^ 64 /\ 7 < zlen full < 2 ^ (8 * Z.of_nat w) /\ zlen full <= 2 ^ 61 /\
  find_block h b = Some (le_bytes w (zlen full) ++ le_bytes w n ++ full).
Definition rep (h : heap) (r n : Z) (full : list Z) : Prop := bytes full /\ 0 <= n <= zlen full /\ (in_place r n full \/ allocated h r n full).
(** The allocations of a representation *)
Definition blocks (r : Z) : list Z := if tag r =? kInlineTag then [] else [base r].

Lemma tag_mod r : tag r = r mod 8. Proof. unfold tag, kTagMask. change 7 with (2 ^ 3 - 1). rewrite land_ones_mod by lia. reflexivity. Qed.
Lemma in_place_tag r n full : in_place r n full -> tag r = 6.
Proof. intros (_ & ->). rewrite tag_mod. cbn [le_val]. rewrite Z.add_mod by lia. replace (256 * le_val full) with ((32 * le_val full) * 8) by lia. rewrite Z.mod_mul, Z.add_0_r, Z.mod_mod by lia. replace (8 * n + 6) with (6 + n * 8) by lia. rewrite Z.mod_add by lia. reflexivity. Qed.
Definition tag_of (w : nat) : Z := match w with 8%nat => 0 | _ => 2 * Z.of_nat w end.
Lemma wide_tag w b : wide w -> b mod 8 = 0 -> tag (b + 2 * Z.of_nat w) = tag_of w.
Proof. intros W B. rewrite tag_mod, Z.add_mod, B by lia. destruct W as [->|[->| ->]]; reflexivity. Qed.
Lemma wide_header w : wide w -> header (tag_of w) = 2 * Z.of_nat w.
Proof. intros [->|[->| ->]]; reflexivity. Qed.
Lemma wide_inline w : wide w -> tag_of w =? kInlineTag = false.
Proof. intros [->|[->| ->]]; reflexivity. Qed.
Lemma wide_pos w : wide w -> 0 < Z.of_nat w. Proof. intros [->|[->| ->]]; reflexivity. Qed.
Lemma wide_bound w : wide w -> 2 ^ (8 * Z.of_nat w) <= 2 ^ 64. Proof. intros [->|[->| ->]]; cbv; discriminate. Qed.
Lemma wide_base w b : wide w -> b mod 8 = 0 -> base (b + 2 * Z.of_nat w) = b.
Proof. intros W B. unfold base. rewrite wide_tag, wide_header by assumption. lia. Qed.

Lemma repr_bytes n full : bytes full -> zlen full = 7 -> 0 <= n <= 7 -> le_bytes 8 (le_val ((8 * n + 6) :: full)) = (8 * n + 6) :: full.
Proof.
  intros B L N. replace 8%nat with (length ((8 * n + 6) :: full)) by (unfold zlen in L; cbn [length]; lia). apply le_bytes_val. apply bytes_cons. split; [unfold is_byte; lia|exact B].
Qed.
Lemma low_byte a X : 0 <= a < 256 -> Z.land (a + 256 * X) 255 = a.
Proof. intros A. change 255 with (2 ^ 8 - 1). rewrite land_ones_mod by lia. change (2 ^ 8) with 256. replace (a + 256 * X) with (a + X * 256) by lia. rewrite Z.mod_add by lia. now apply Z.mod_small. Qed.
Lemma inline_size_ok r n full : in_place r n full -> 0 <= n <= 7 -> inline_size r = Some n.
Proof.
  intros P N. unfold inline_size. rewrite (in_place_tag _ _ _ P). cbn [Z.eqb check kInlineTag Pos.eqb]. destruct P as (_ & ->). cbn [le_val]. rewrite low_byte by lia.
  rewrite Z.shiftr_div_pow2 by lia. change (2 ^ 3) with 8. replace (8 * n + 6) with (6 + n * 8) by lia. rewrite Z.div_add by lia. change (6 / 8) with 0. rewrite Z.add_0_l.
  destruct (Z.leb_spec n kInlineCapacity); [reflexivity|unfold kInlineCapacity in *; lia].
Qed.
Lemma set_inline_ok r n full m : in_place r n full -> 0 <= n <= 7 -> 0 <= m <= 7 -> exists r', set_inline_size m r = Some r' /\ in_place r' m full.
Proof.
  intros P N M. unfold set_inline_size. rewrite (in_place_tag _ _ _ P). cbn [Z.eqb check kInlineTag Pos.eqb]. destruct P as (L & ->). eexists. split; [reflexivity|]. split; [exact L|]. cbn [le_val]. set (X := le_val full).
  assert (A : Z.land (8 * n + 6 + 256 * X) (Z.lnot 248) = 6 + 256 * X).
  { replace (8 * n + 6 + 256 * X) with (8 * n + 6 + X * 2 ^ 8) by lia. rewrite <- (lor_shl_add (8 * n + 6) X 8) by lia. rewrite Z.land_lor_distr_l.
    replace (Z.land (8 * n + 6) (Z.lnot 248)) with 6. 2: { assert (n = 0 \/ n = 1 \/ n = 2 \/ n = 3 \/ n = 4 \/ n = 5 \/ n = 6 \/ n = 7) as K by lia. repeat destruct K as [-> |K]; try reflexivity. rewrite K. reflexivity. }
    replace (Z.land (Z.shiftl X 8) (Z.lnot 248)) with (Z.shiftl X 8). { rewrite lor_shl_add by lia. lia. }
    apply Z.bits_inj'. intros i I. rewrite Z.land_spec. destruct (Z.lt_ge_cases i 8) as [S8|S8]; [rewrite Z.shiftl_spec_low by lia; reflexivity|].
    rewrite Z.lnot_spec by lia. rewrite (Z.bits_above_log2 248 i); [cbn [negb]; now rewrite andb_true_r|lia|cbn; lia]. }
  rewrite A. rewrite Z.shiftl_mul_pow2 by lia. change (2 ^ 3) with 8. replace (6 + 256 * X) with (6 + X * 2 ^ 8) by lia. rewrite <- (lor_shl_add 6 X 8) by lia. rewrite (Z.lor_comm 6), <- Z.lor_assoc.
  replace (Z.lor 6 (m * 8)) with (8 * m + 6). 2: { assert (m = 0 \/ m = 1 \/ m = 2 \/ m = 3 \/ m = 4 \/ m = 5 \/ m = 6 \/ m = 7) as K by lia. repeat destruct K as [-> |K]; try reflexivity. rewrite K. reflexivity. }
  rewrite Z.lor_comm, lor_shl_add by lia. lia.
Qed.

Section Rep.
Variables (h : heap) (r n : Z) (full : list Z).

(** Reading and writing of allocated memory *)
Lemma load_some b l off k : find_block h b = Some l -> 0 <= off -> 0 <= k -> off + k <= zlen l -> load h b off k = Some (zslice off k l).
Proof. intros F A B C. unfold load. rewrite F. unfold check. replace ((0 <=? off) && (0 <=? k) && (off + k <=? zlen l)) with true by (symmetry; rewrite !andb_true_iff, !Z.leb_le; lia). reflexivity. Qed.
Lemma store_some b l off v : find_block h b = Some l -> 0 <= off -> off + zlen v <= zlen l -> store h b off v = Some (set_block h b (overwrite l off v)).
Proof. intros F A C. unfold store. rewrite F. unfold check. replace ((0 <=? off) && (off + zlen v <=? zlen l)) with true by (symmetry; rewrite !andb_true_iff, !Z.leb_le; lia). reflexivity. Qed.

Lemma rep_tag : rep h r n full -> (in_place r n full /\ tag r =? kInlineTag = true) \/ (allocated h r n full /\ tag r =? kInlineTag = false).
Proof.
  intros (_ & _ & [P|A]); [left; split; [exact P|rewrite (in_place_tag _ _ _ P); reflexivity]|right; split; [exact A|]].
  destruct A as (w & b & W & -> & _ & B & _). rewrite wide_tag by assumption. now apply wide_inline.
Qed.
Lemma rep_blocks : allocated h r n full -> blocks r = [base r].
Proof. intros A. unfold blocks. destruct A as (w & b & W & -> & _ & B & _). rewrite wide_tag by assumption. now rewrite wide_inline. Qed.
Lemma allocated_data_ok w b : wide w -> b mod 8 = 0 -> allocated_data (b + 2 * Z.of_nat w) = Some (In_heap b (2 * Z.of_nat w)).
Proof. intros W B. unfold allocated_data. rewrite wide_tag, wide_inline, wide_header, wide_base by assumption. reflexivity. Qed.

Lemma capacity_ok : rep h r n full -> capacity h r = Some (zlen full).
Proof.
  intros R. unfold capacity. destruct (rep_tag R) as [(P & ->)|(A & ->)]; [destruct P as (-> & _); reflexivity|].
  destruct A as (w & b & W & -> & B0 & B & B1 & K & _ & F). rewrite wide_tag by assumption.
  assert (X : allocated_capacity w h (b + 2 * Z.of_nat w) = Some (zlen full)).
  { unfold allocated_capacity. rewrite allocated_data_ok, wide_tag, wide_header, Z.eqb_refl by assumption. cbn [check advance read]. rewrite Z.add_opp_diag_r.
    pose proof (wide_pos w W). erewrite load_some; [|exact F|lia|lia|rewrite !zlen_app, !zlen_le_bytes; pose proof (zlen_nonneg full); lia].
    rewrite zslice_head by (now rewrite zlen_le_bytes). rewrite le_val_bytes by lia. destruct (Z.ltb_spec kInlineCapacity (zlen full)); [reflexivity|unfold kInlineCapacity in *; lia]. }
  unfold allocated_capacity_for_tag. destruct W as [->|[->| ->]]; exact X.
Qed.
Lemma size_ok : rep h r n full -> size h r = Some n.
Proof.
  intros R. unfold size. destruct (rep_tag R) as [(P & ->)|(A & ->)]. { destruct R as (_ & N & _). apply (inline_size_ok _ _ _ P). destruct P as (L & _). lia. }
  destruct A as (w & b & W & -> & B0 & B & B1 & K & _ & F). rewrite wide_tag by assumption. destruct R as (_ & N & _).
  assert (X : allocated_size w h (b + 2 * Z.of_nat w) = Some n).
  { unfold allocated_size. rewrite allocated_data_ok, wide_tag, wide_header, Z.eqb_refl by assumption. cbn [check advance read].
    pose proof (wide_pos w W). erewrite load_some; [|exact F|lia|lia|rewrite !zlen_app, !zlen_le_bytes; pose proof (zlen_nonneg full); lia].
    rewrite zslice_app by (rewrite zlen_le_bytes; lia). rewrite zlen_le_bytes. replace (2 * Z.of_nat w + - Z.of_nat w - Z.of_nat w) with 0 by lia. rewrite zslice_head by (now rewrite zlen_le_bytes). rewrite le_val_bytes by lia. reflexivity. }
  unfold allocated_size_for_tag. destruct W as [->|[->| ->]]; exact X.
Qed.
Definition data_ptr : ptr := if tag r =? kInlineTag then In_repr 1 else In_heap (base r) (header (tag r)).
Lemma data_ok : rep h r n full -> data r = Some data_ptr.
Proof. intros R. unfold data, data_ptr, inline_data, allocated_data. destruct (tag r =? kInlineTag); reflexivity. Qed.
Lemma read_ok off k : rep h r n full -> 0 <= off -> 0 <= k -> off + k <= zlen full -> read h r (advance data_ptr off) k = Some (zslice off k full).
Proof.
  intros R A B C. unfold data_ptr. destruct (rep_tag R) as [(P & ->)|(A' & ->)]; cbn [advance read].
  - destruct P as (L & ->). destruct R as (BY & N & _). rewrite repr_bytes by (auto; lia). unfold check. replace ((0 <=? 1 + off) && (0 <=? k) && (1 + off + k <=? 8)) with true by (symmetry; rewrite !andb_true_iff, !Z.leb_le; lia).
    change ((8 * n + 6) :: full) with ([8 * n + 6] ++ full). rewrite zslice_app by (change (zlen [8 * n + 6]) with 1; lia). change (zlen [8 * n + 6]) with 1. now replace (1 + off - 1) with off by lia.
  - destruct A' as (w & b & W & -> & B0 & B' & B1 & K & _ & F). rewrite wide_tag, wide_header, wide_base by assumption. pose proof (wide_pos w W).
    erewrite load_some; [|exact F|lia|lia|rewrite !zlen_app, !zlen_le_bytes; lia]. rewrite app_assoc. rewrite zslice_app by (rewrite zlen_app, !zlen_le_bytes; lia). rewrite zlen_app, !zlen_le_bytes. do 2 f_equal. lia.
Qed.

End Rep.

(** What a call on one CompactString may do to the heap: [G] are the allocations of others *)
Definition frame (h h' : heap) (r' : Z) (G : list Z) : Prop := Permutation (keys h') (blocks r' ++ G) /\ NoDup (keys h') /\ forall b, In b G -> find_block h' b = find_block h b.
Definition owns (h : heap) (r : Z) (G : list Z) : Prop := NoDup (keys h) /\ Permutation (keys h) (blocks r ++ G).
Lemma frame_refl h r G : owns h r G -> frame h h r G. Proof. intros (ND & PM). split; [exact PM|]. split; [exact ND|reflexivity]. Qed.
Lemma own_not_G h r G : owns h r G -> blocks r = [base r] -> ~ In (base r) G.
Proof. intros (ND & PM) E I. assert (N : NoDup (blocks r ++ G)) by (eapply Permutation_NoDup; [exact PM|exact ND]). rewrite E in N. cbn in N. inversion N. auto. Qed.
Lemma frame_set h r G v b0 : owns h r G -> blocks r = [base r] -> base r = b0 -> frame h (set_block h b0 v) r G.
Proof. intros O E <-. pose proof O as (ND & PM). unfold frame. rewrite keys_set. split; [exact PM|]. split; [exact ND|]. intros b I. apply find_set_other. intros ->. now apply (own_not_G _ _ _ O E). Qed.

Lemma set_size_ok h r n full G m : owns h r G -> rep h r n full -> 0 <= m <= zlen full -> exists h' r', set_size h r m = Some (h', r') /\ rep h' r' m full /\ frame h h' r' G.
Proof.
  intros OW R M. pose proof OW as (ND & PM). unfold set_size. rewrite (capacity_ok _ _ _ _ R). unfold check. replace (m <=? zlen full) with true by (symmetry; apply Z.leb_le; lia).
  destruct (rep_tag _ _ _ _ R) as [(P & T)|(A & T)]; rewrite T.
  - destruct R as (BY & N & _). destruct (set_inline_ok r n full m P) as (r' & -> & P'); [destruct P; lia|destruct P; lia|]. exists h, r'. split; [reflexivity|]. split; [now split; [|split; [lia|left]]|].
    unfold frame, blocks in *. rewrite T in PM. rewrite (in_place_tag _ _ _ P'). cbn [Z.eqb kInlineTag Pos.eqb]. cbn [app] in *. split; [exact PM|]. split; [exact ND|reflexivity].
  - pose proof (rep_blocks _ _ _ _ A) as RB. destruct A as (w & b & W & -> & B0 & B & B1 & K & K1 & F). destruct R as (BY & N & _). pose proof (wide_pos w W) as WP. pose proof (zlen_nonneg full).
    assert (X : set_allocated_size w h m (b + 2 * Z.of_nat w) = Some (set_block h b (le_bytes w (zlen full) ++ le_bytes w m ++ full))).
    { unfold set_allocated_size. rewrite allocated_data_ok, wide_tag, wide_header, Z.eqb_refl by assumption. unfold check. replace (m <? 2 ^ (8 * Z.of_nat w)) with true by (symmetry; apply Z.ltb_lt; lia).
      cbn [advance write]. erewrite store_some; [|exact F|lia|rewrite !zlen_app, !zlen_le_bytes; lia]. rewrite overwrite_app by (rewrite zlen_le_bytes; lia). rewrite zlen_le_bytes.
      replace (2 * Z.of_nat w + - Z.of_nat w - Z.of_nat w) with 0 by lia. rewrite overwrite_head by (rewrite !zlen_le_bytes; reflexivity). reflexivity. }
    assert (Y : set_allocated_size_for_tag (tag_of w) h m (b + 2 * Z.of_nat w) = Some (set_block h b (le_bytes w (zlen full) ++ le_bytes w m ++ full))).
    { unfold set_allocated_size_for_tag. destruct W as [->|[->| ->]]; exact X. }
    rewrite wide_tag by assumption. rewrite Y. do 2 eexists. split; [reflexivity|]. split.
    + split; [exact BY|]. split; [lia|]. right. exists w, b. repeat split; try assumption; try lia. eapply find_set_same, F.
    + apply frame_set; [exact OW|exact RB|now apply wide_base].
Qed.
Lemma write_ok h r n full G off v : owns h r G -> rep h r n full -> 0 <= off -> off + zlen v <= zlen full -> bytes v ->
  exists h' r', write h r (advance (data_ptr r) off) v = Some (h', r') /\ rep h' r' n (overwrite full off v) /\ frame h h' r' G.
Proof.
  intros OW R O V BV. pose proof OW as (ND & PM). unfold data_ptr. destruct (rep_tag _ _ _ _ R) as [(P & T)|(A & T)]; rewrite T; cbn [advance write].
  - destruct P as (L & ->). destruct R as (BY & N & _). rewrite repr_bytes by (auto; lia). unfold check. replace ((0 <=? 1 + off) && (1 + off + zlen v <=? 8)) with true by (symmetry; rewrite !andb_true_iff, !Z.leb_le; lia).
    change ((8 * n + 6) :: full) with ([8 * n + 6] ++ full). rewrite overwrite_app by (change (zlen [8 * n + 6]) with 1; lia). change (zlen [8 * n + 6]) with 1. replace (1 + off - 1) with off by lia.
    assert (IP : in_place (le_val ([8 * n + 6] ++ overwrite full off v)) n (overwrite full off v)) by (split; [rewrite zlen_overwrite by lia; exact L|reflexivity]).
    do 2 eexists. split; [reflexivity|]. split. { split; [now apply bytes_overwrite|]. split; [rewrite zlen_overwrite by lia; lia|left; exact IP]. }
    unfold frame, blocks in *. rewrite T in PM. rewrite (in_place_tag _ _ _ IP). cbn [Z.eqb kInlineTag Pos.eqb app] in *. split; [exact PM|]. split; [exact ND|reflexivity].
  - pose proof (rep_blocks _ _ _ _ A) as RB. destruct A as (w & b & W & -> & B0 & B & B1 & K & K1 & F). destruct R as (BY & N & _). pose proof (wide_pos w W) as WP.
    rewrite wide_tag, wide_header by assumption. pose proof (wide_base w b W B) as WB. rewrite WB. erewrite store_some; [|exact F|lia|rewrite !zlen_app, !zlen_le_bytes; lia]. do 2 eexists. split; [reflexivity|]. split.
    + split; [now apply bytes_overwrite|]. split; [rewrite zlen_overwrite by lia; lia|]. right. exists w, b. rewrite !zlen_overwrite by lia. repeat split; try assumption; try lia.
      rewrite app_assoc, overwrite_app by (rewrite zlen_app, !zlen_le_bytes; lia). rewrite zlen_app, !zlen_le_bytes, <- app_assoc. replace (2 * Z.of_nat w + off - (Z.of_nat w + Z.of_nat w)) with off by lia. eapply find_set_same, F.
    + apply frame_set; [exact OW|exact RB|exact WB].
Qed.
Lemma delete_ok h r n full G : owns h r G -> rep h r n full -> exists h', DeleteRepr h r = Some h' /\ Permutation (keys h') G /\ NoDup (keys h') /\ forall b, In b G -> find_block h' b = find_block h b.
Proof.
  intros OW R. pose proof OW as (ND & PM). pose proof (capacity_ok _ _ _ _ R) as C. unfold capacity in C. unfold DeleteRepr. destruct (rep_tag _ _ _ _ R) as [(P & T)|(A & T)]; rewrite T in *.
  - exists h. split; [reflexivity|]. unfold blocks in PM. rewrite T in PM. auto.
  - pose proof (rep_blocks _ _ _ _ A) as RB. rewrite C. destruct A as (w & b & W & -> & B0 & B & B1 & K & K1 & F). rewrite wide_tag, wide_header by assumption. pose proof (wide_base w b W B) as WB. rewrite WB in RB.
    replace (b + 2 * Z.of_nat w - 2 * Z.of_nat w) with b by lia. unfold Free. rewrite F. unfold check. rewrite !zlen_app, !zlen_le_bytes.
    replace (Z.of_nat w + (Z.of_nat w + zlen full) =? zlen full + 2 * Z.of_nat w) with true by (symmetry; apply Z.eqb_eq; lia). eexists. split; [reflexivity|].
    pose proof (keys_remove h b _ F) as KR. assert (PG : Permutation (keys (remove_block h b)) G). { apply (Permutation_cons_inv (a := b)). rewrite <- KR, PM, RB. reflexivity. }
    split; [exact PG|]. assert (NG : NoDup (b :: keys (remove_block h b))) by (eapply Permutation_NoDup; [exact KR|exact ND]). inversion NG as [|? ? N1 N2]. subst. split; [exact N2|].
    intros b' I. apply find_remove_other. intros ->. apply N1. eapply Permutation_in; [symmetry; exact PG|exact I].
Qed.
(** ** New representations *)
Section Make.
Variables (E : env) (h : heap) (EO : env_at E h).

Lemma round_ok x : 0 <= x <= 2 ^ 63 -> Z.max x 32 <= EstimatedAllocatedSize x <= Z.max x 32 + 15.
Proof.
  intros X. unfold EstimatedAllocatedSize, RoundUp16. set (m := Z.max x 32). assert (M : 32 <= m <= 2 ^ 63) by (subst m; lia).
  assert (A : u64 (m - 1) = m - 1) by (unfold u64; apply Z.mod_small; lia). rewrite A.
  pose proof (Z.div_mod (m - 1) 16). assert (B : Z.lor (m - 1) 15 = (m - 1) / 16 * 16 + 15).
  { replace (m - 1) with ((m - 1) mod 16 + (m - 1) / 16 * 2 ^ 4) at 1 by (change (2 ^ 4) with 16; lia). rewrite <- (lor_shl_add ((m - 1) mod 16) ((m - 1) / 16) 4) by (try lia; apply Z.mod_pos_bound; lia). rewrite (Z.lor_comm (_ mod _)), <- Z.lor_assoc.
    replace (Z.lor ((m - 1) mod 16) 15) with 15. { rewrite Z.lor_comm, lor_shl_add by lia. change (2 ^ 4) with 16. lia. }
    pose proof (Z.mod_pos_bound (m - 1) 16 ltac:(lia)) as MB. set (q := (m - 1) mod 16) in *. clearbody q.
    assert (q = 0 \/ q = 1 \/ q = 2 \/ q = 3 \/ q = 4 \/ q = 5 \/ q = 6 \/ q = 7 \/ q = 8 \/ q = 9 \/ q = 10 \/ q = 11 \/ q = 12 \/ q = 13 \/ q = 14 \/ q = 15) as Q by lia.
    repeat destruct Q as [-> |Q]; try reflexivity. rewrite Q. reflexivity. }
  rewrite B. pose proof (Z.mod_pos_bound (m - 1) 16 ltac:(lia)). unfold u64. rewrite Z.mod_small by lia. lia.
Qed.

Lemma make_slow_ok size cap : NoDup (keys h) -> 0 <= size <= cap -> 7 < cap <= 2 ^ 61 - 64 ->
  exists h' r full, MakeReprSlow E h size cap = Some (h', r) /\ rep h' r size full /\ allocated h' r size full /\ cap <= zlen full /\ zlen full <= cap + 48 /\
    keys h' = base r :: keys h /\ ~ In (base r) (keys h) /\ (forall b, In b (keys h) -> find_block h' b = find_block h b).
Proof using EO.
  intros ND S C. unfold MakeReprSlow. unfold check at 1 2. replace (size <=? cap) with true by (symmetry; apply Z.leb_le; lia). replace (kInlineCapacity <? cap) with true by (symmetry; apply Z.ltb_lt; unfold kInlineCapacity; lia).
  assert (MK : forall w req, wide w -> cap + 2 * Z.of_nat w <= req <= cap + 48 -> req - 2 * Z.of_nat w < 2 ^ (8 * Z.of_nat w) ->
    exists h' r full, MakeReprSized E w h size req = Some (h', r) /\ rep h' r size full /\ allocated h' r size full /\ cap <= zlen full /\ zlen full <= cap + 48 /\
    keys h' = base r :: keys h /\ ~ In (base r) (keys h) /\ (forall b, In b (keys h) -> find_block h' b = find_block h b)).
  { intros w req W RQ RB. unfold MakeReprSized. pose proof (wide_pos w W) as WP. pose proof (wide_bound w W) as WB0. assert (MA : 0 <= req <= max_allocation) by (unfold max_allocation; lia). destruct (EO req MA) as (F0 & B0 & B & B1 & L & BY).
    unfold Allocate. unfold check at 1. replace (req <=? max_allocation) with true by (symmetry; apply Z.leb_le; lia). set (b := place E h req) in *. set (l := contents E h req) in *.
    assert (U : u64 (req - 2 * Z.of_nat w) = req - 2 * Z.of_nat w) by (unfold u64; apply Z.mod_small; lia). rewrite U. set (k := req - 2 * Z.of_nat w) in *.
    pose proof (wide_base w b W B) as WB. set (r := b + 2 * Z.of_nat w) in *. set (full := zdrop (2 * Z.of_nat w) l). assert (LF : zlen full = k) by (subst full k; rewrite zlen_zdrop; lia).
    assert (Z1 : zlen (zdrop (Z.of_nat w) l) = req - Z.of_nat w) by (rewrite zlen_zdrop; lia).
    assert (X1 : set_allocated_capacity w ((b, l) :: h) k r = Some ((b, le_bytes w k ++ zdrop (Z.of_nat w) l) :: h)).
    { unfold set_allocated_capacity. unfold r. rewrite allocated_data_ok, wide_tag, wide_header, Z.eqb_refl by assumption. unfold check. replace (k <? 2 ^ (8 * Z.of_nat w)) with true by (symmetry; apply Z.ltb_lt; lia). cbn [advance write]. rewrite Z.add_opp_diag_r.
      erewrite store_some; [|cbn; rewrite Z.eqb_refl; reflexivity|lia|rewrite zlen_le_bytes; lia]. cbn [set_block]. rewrite Z.eqb_refl. unfold overwrite. rewrite ztake_nonpos by lia. rewrite zlen_le_bytes. reflexivity. }
    rewrite X1.
    assert (X2 : set_allocated_size w ((b, le_bytes w k ++ zdrop (Z.of_nat w) l) :: h) size r = Some ((b, le_bytes w k ++ le_bytes w size ++ full) :: h)).
    { unfold set_allocated_size. unfold r. rewrite allocated_data_ok, wide_tag, wide_header, Z.eqb_refl by assumption. unfold check. replace (size <? 2 ^ (8 * Z.of_nat w)) with true by (symmetry; apply Z.ltb_lt; lia). cbn [advance write].
      erewrite store_some; [|cbn; rewrite Z.eqb_refl; reflexivity|lia|rewrite zlen_app, !zlen_le_bytes; lia]. cbn [set_block]. rewrite Z.eqb_refl. rewrite overwrite_app by (rewrite zlen_le_bytes; lia). rewrite zlen_le_bytes.
      replace (2 * Z.of_nat w + - Z.of_nat w - Z.of_nat w) with 0 by lia. unfold overwrite. rewrite ztake_nonpos by lia. rewrite zlen_le_bytes, zdrop_zdrop by lia. subst full. cbn [app]. replace (0 + Z.of_nat w + Z.of_nat w) with (2 * Z.of_nat w) by lia. reflexivity. }
    rewrite X2. exists ((b, le_bytes w k ++ le_bytes w size ++ full) :: h), r, full. split; [reflexivity|].
    assert (AL : allocated ((b, le_bytes w k ++ le_bytes w size ++ full) :: h) r size full). { exists w, b. rewrite LF. repeat split; try assumption; try lia. cbn. rewrite Z.eqb_refl. reflexivity. }
    split. { split; [unfold full; now apply bytes_zdrop|]. split; [lia|right; exact AL]. } split; [exact AL|]. split; [lia|]. split; [lia|]. rewrite WB. split; [reflexivity|]. split; [now apply find_none|].
    intros b' I. cbn. destruct (Z.eqb_spec b b') as [E1|N]; [|reflexivity]. subst b'. exfalso. apply find_none in F0. contradiction. }
  destruct (Z.leb_spec cap 255) as [C1|C1]; [|destruct (Z.leb_spec cap 65535) as [C2|C2]].
  - pose proof (round_ok (cap + 2) ltac:(lia)). apply MK; [now left| |]; change (Z.of_nat 1) with 1; change (2 ^ (8 * 1)) with 256; lia.
  - pose proof (round_ok (cap + 4) ltac:(lia)). apply MK; [now right; left| |]; change (Z.of_nat 2) with 2; change (2 ^ (8 * 2)) with 65536; lia.
  - unfold check. replace (cap <=? max_size) with true by (symmetry; apply Z.leb_le; unfold max_size; lia). pose proof (round_ok (cap + 16) ltac:(lia)). apply MK; [now right; right| |]; change (Z.of_nat 8) with 8; change (2 ^ (8 * 8)) with (2 ^ 64); lia.
Qed.
End Make.
