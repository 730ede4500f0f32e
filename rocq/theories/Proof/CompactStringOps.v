(** The calls on one CompactString. *)
From Verif Require Import Base.Bytes Model.CompactString Proof.CompactStringBase.
From Coq Require Import Permutation.

Lemma rep_len h r n full : rep h r n full -> 7 <= zlen full <= 2 ^ 61.
Proof. intros (_ & _ & [(L & _)|A]); [lia|]. destruct A as (w & b & _ & _ & _ & _ & _ & K & K1 & _). lia. Qed.
Lemma rep_frame h h' r n full : rep h r n full -> (forall b, In b (blocks r) -> find_block h' b = find_block h b) -> rep h' r n full.
Proof.
  intros R F. destruct R as (BY & N & [P|A]); split; [exact BY|split; [exact N|now left]|exact BY|split; [exact N|right]].
  pose proof (rep_blocks h r n full A) as RB. destruct A as (w & b & W & ER & B0 & B & B1 & K & K1 & FB). exists w, b. repeat split; try assumption; try lia. rewrite F; [exact FB|]. rewrite RB, ER, wide_base by assumption. now left.
Qed.
Lemma rep_in_keys h r n full b : rep h r n full -> In b (blocks r) -> In b (keys h).
Proof.
  intros R I. destruct (rep_tag _ _ _ _ R) as [(_ & T)|(A & T)]; unfold blocks in I; rewrite T in I; [destruct I|]. destruct I as [<-|[]].
  destruct A as (w & b & W & ER & _ & B & _ & _ & _ & FB). rewrite ER, wide_base by assumption. eapply find_some, FB.
Qed.
Lemma frame_owns h h' r' G : frame h h' r' G -> owns h' r' G. Proof. intros (A & B & _). now split. Qed.
Lemma frame_trans h h1 r1 h2 r2 G : frame h h1 r1 G -> frame h1 h2 r2 G -> frame h h2 r2 G.
Proof. intros (_ & _ & A) (B & C & D). split; [exact B|]. split; [exact C|]. intros b I. now rewrite D, A. Qed.
Lemma advance_0 p : advance p 0 = p. Proof. destruct p; cbn; now rewrite Z.add_0_r. Qed.
Lemma advance_add p a b : advance (advance p a) b = advance p (a + b). Proof. destruct p; cbn; now rewrite Z.add_assoc. Qed.
Lemma rep_not_zero h r n full : rep h r n full -> r <> 0 /\ Z.land r 1 = 0.
Proof.
  intros R. assert (LT : forall x, Z.land x 1 = tag x mod 2). { intros x. rewrite tag_mod. change 1 with (2 ^ 1 - 1). rewrite land_ones_mod by lia. change (2 ^ 1) with 2. clear. Z.to_euclidean_division_equations. lia. }
  rewrite LT. destruct R as (BY & N & [P|A]).
  - rewrite (in_place_tag _ _ _ P). split; [|reflexivity]. destruct P as (L & ->). cbn [le_val]. pose proof (le_val_bound full BY). lia.
  - destruct A as (w & b & W & -> & B0 & B & _). pose proof (wide_pos w W). rewrite wide_tag by assumption. split; [lia|]. destruct W as [->|[->| ->]]; reflexivity.
Qed.
Lemma view_ok h r n full : rep h r n full -> ViewFromRaw h r = Some (ztake n full).
Proof.
  intros R. destruct (rep_not_zero _ _ _ _ R) as (A & B). unfold ViewFromRaw. unfold check at 1 2. rewrite B. destruct (Z.eqb_spec r 0); [contradiction|]. cbn [negb Z.eqb].
  pose proof (size_ok _ _ _ _ R) as S. pose proof (data_ok _ _ _ _ R) as D. pose proof R as (_ & N & _). pose proof (read_ok _ _ _ _ 0 n R ltac:(lia) ltac:(lia) ltac:(lia)) as RD. rewrite advance_0 in RD.
  replace (zslice 0 n full) with (ztake n full) in RD by (unfold zslice; rewrite zdrop_nonpos by lia; reflexivity).
  unfold size in S. unfold data in D. destruct (tag r =? kInlineTag); rewrite D, S; exact RD.
Qed.
Lemma set_size_same h r m h' r' : tag r =? kInlineTag = false -> set_size h r m = Some (h', r') -> r' = r.
Proof.
  intros T. unfold set_size. rewrite T. destruct (capacity h r); [|discriminate]. unfold check. destruct (m <=? z); [|discriminate]. destruct (set_allocated_size_for_tag _ _ _ _); [|discriminate]. now intros [= _ <-].
Qed.

Section Ops.
Variable (E : env).

Lemma make_slow_frame h (EO : env_at E h) size cap : NoDup (keys h) -> 0 <= size <= cap -> 7 < cap <= 2 ^ 61 - 64 ->
  exists h' r full, MakeReprSlow E h size cap = Some (h', r) /\ rep h' r size full /\ allocated_data r = Some (data_ptr r) /\ cap <= zlen full <= cap + 48 /\ frame h h' r (keys h).
Proof.
  intros ND S C. destruct (make_slow_ok E h EO size cap ND S C) as (h' & r & full & X & R & A & C1 & C2 & K & N & F). exists h', r, full. split; [exact X|]. split; [exact R|].
  pose proof (rep_blocks _ _ _ _ A) as RB. split. { pose proof (data_ok _ _ _ _ R) as D. unfold data, blocks in *. destruct (tag r =? kInlineTag); [discriminate|exact D]. } split; [lia|].
  split; [rewrite K, RB; reflexivity|]. split; [rewrite K; now constructor|exact F].
Qed.
Lemma inline_new n : 0 <= n <= 7 -> in_place (Z.shiftl n 3 + 6) n (zeros 7).
Proof. intros N. split; [reflexivity|]. cbn [le_val]. replace (le_val (zeros 7)) with 0 by reflexivity. rewrite Z.shiftl_mul_pow2 by lia. change (2 ^ 3) with 8. lia. Qed.
Lemma make_frame h (EO : env_at E h) size cap : NoDup (keys h) -> 0 <= size <= cap -> cap <= 2 ^ 61 - 64 ->
  exists h' r full, MakeRepr E h size cap = Some (h', r) /\ rep h' r size full /\ (if cap <=? kInlineCapacity then inline_data r else allocated_data r) = Some (data_ptr r) /\ cap <= zlen full <= cap + 48 /\ frame h h' r (keys h).
Proof.
  intros ND S C. unfold MakeRepr. unfold check. replace (size <=? cap) with true by (symmetry; apply Z.leb_le; lia). destruct (Z.leb_spec cap kInlineCapacity) as [I|I]; unfold kInlineCapacity in I.
  - pose proof (inline_new size ltac:(lia)) as P. change kInlineTag with 6. set (r := Z.shiftl size 3 + 6) in *. exists h, r, (zeros 7). split; [reflexivity|]. change (zlen (zeros 7)) with 7. split. { split; [apply bytes_zeros|]. split; [change (zlen (zeros 7)) with 7; lia|now left]. }
    pose proof (in_place_tag _ _ _ P) as T. split. { unfold inline_data, data_ptr. rewrite T. reflexivity. } split; [lia|]. unfold frame, blocks. rewrite T. cbn [Z.eqb kInlineTag Pos.eqb app]. auto.
  - destruct (make_slow_frame _ EO size cap ND S ltac:(lia)) as (h' & r & full & X). exists h', r, full. exact X.
Qed.

(** The bytes which are passed *)
Definition passes (h : heap) (old n full_len : Z) (full : list Z) (src : source) (s : list Z) : Prop :=
  bytes s /\ (src = Elsewhere s \/ (rep h old n full /\ exists off k, src = Here (advance (data_ptr old) off) k /\ 0 <= off /\ 0 <= k /\ off + k <= zlen full /\ s = zslice off k full)).
Lemma passes_size h old n l full src s : passes h old n l full src s -> source_size src = zlen s.
Proof. intros (_ & [->|(_ & off & k & -> & A & B & C & ->)]); [reflexivity|]. cbn. now rewrite zlen_zslice. Qed.
Lemma passes_read h old n l full src s h' : passes h old n l full src s -> (forall b, In b (keys h) -> find_block h' b = find_block h b) -> read_source h' old src = Some s.
Proof.
  intros (_ & [->|(R & off & k & -> & A & B & C & ->)]) F; [reflexivity|]. cbn [read_source]. eapply read_ok; [|exact A|exact B|exact C]. eapply rep_frame; [exact R|]. intros b I. apply F. eapply rep_in_keys; eauto.
Qed.
Lemma overwrite_prefix full s n : n = zlen s -> zlen s <= zlen full -> ztake n (overwrite full 0 s) = s.
Proof. intros -> L. rewrite ztake_overwrite by lia. now rewrite ztake_nonpos by lia. Qed.

Lemma make_from_ok h (EO : env_at E h) old n l full src s cap : NoDup (keys h) -> passes h old n l full src s -> zlen s <= cap <= 2 ^ 61 - 64 ->
  exists h' r full', MakeReprFrom E h old src cap = Some (h', r) /\ rep h' r (zlen s) full' /\ ztake (zlen s) full' = s /\ cap <= zlen full' <= cap + 48 /\ frame h h' r (keys h).
Proof.
  intros ND PS C. pose proof (zlen_nonneg s). unfold MakeReprFrom. rewrite (passes_size _ _ _ _ _ _ _ PS). destruct (make_frame _ EO (zlen s) cap ND ltac:(lia) ltac:(lia)) as (h1 & r & f1 & -> & R & -> & L & F).
  rewrite (passes_read _ _ _ _ _ _ _ h1 PS) by (exact (proj2 (proj2 F))). destruct (write_ok h1 r (zlen s) f1 (keys h) 0 s (frame_owns _ _ _ _ F) R ltac:(lia) ltac:(lia) (proj1 PS)) as (h2 & r2 & W & R2 & F2). rewrite advance_0 in W.
  exists h2, r2, (overwrite f1 0 s). split; [exact W|]. split; [exact R2|]. split; [apply overwrite_prefix; lia|]. split; [rewrite zlen_overwrite by lia; exact L|]. eapply frame_trans; eauto.
Qed.
(** An old representation is deleted after a new one was made *)
Lemma replace_ok h r n full G h1 new n1 full1 : owns h r G -> rep h r n full -> rep h1 new n1 full1 -> frame h h1 new (keys h) ->
  exists h2, DeleteRepr h1 r = Some h2 /\ rep h2 new n1 full1 /\ frame h h2 new G.
Proof.
  intros (ND & PM) R R1 (K & N & F). assert (OW : owns h1 r (blocks new ++ G)). { split; [exact N|]. rewrite K, PM, !app_assoc. apply Permutation_app_tail, Permutation_app_comm. }
  assert (R' : rep h1 r n full) by (eapply rep_frame; [exact R|]; intros b I; apply F; eapply rep_in_keys; eauto).
  destruct (delete_ok h1 r n full _ OW R') as (h2 & X & K2 & N2 & F2). exists h2. split; [exact X|]. split. { eapply rep_frame; [exact R1|]. intros b I. apply F2. apply in_or_app. now left. }
  split; [exact K2|]. split; [exact N2|]. intros b I. rewrite F2 by (apply in_or_app; now right). apply F. eapply Permutation_in; [symmetry; exact PM|]. apply in_or_app. now right.
Qed.

(** [x] is a CompactString with the value [s] *)
Definition gives (h : heap) (G : list Z) (x : option (heap * Z)) (s : list Z) : Prop :=
  exists h' r' full', x = Some (h', r') /\ rep h' r' (zlen s) full' /\ ztake (zlen s) full' = s /\ frame h h' r' G.
Lemma growth c : 0 <= c <= 2 ^ 60 -> u64 (c + c / 2) = c + c / 2. Proof. intros C. unfold u64. apply Z.mod_small. lia. Qed.

Lemma assign_slow_ok h (EO : env_at E h) r n full G src s : owns h r G -> rep h r n full -> passes h r n 0 full src s -> zlen full < zlen s <= limit -> gives h G (AssignSlow E h r src) s.
Proof.
  intros OW R PS L. unfold AssignSlow. rewrite (capacity_ok _ _ _ _ R), (passes_size _ _ _ _ _ _ _ PS). pose proof (rep_len _ _ _ _ R). unfold limit in *. rewrite growth by lia.
  destruct (make_from_ok _ EO r n 0 full src s (Z.max (zlen s) (zlen full + zlen full / 2)) (proj1 OW) PS ltac:(lia)) as (h1 & r1 & f1 & -> & R1 & T & _ & F1).
  destruct (replace_ok h r n full G h1 r1 _ _ OW R R1 F1) as (h2 & -> & R2 & F2). exists h2, r1, f1. auto.
Qed.
(** set_size() and writing of the value *)
Lemma overwrite_ok h r n full G src s : owns h r G -> rep h r n full -> passes h r n 0 full src s -> zlen s <= zlen full ->
  gives h G (let* (h, r) := set_size h r (zlen s) in let* p := data r in let* s := read_source h r src in write h r p s) s.
Proof.
  intros OW R PS L. pose proof (zlen_nonneg s). destruct (set_size_ok h r n full G (zlen s) OW R ltac:(lia)) as (h1 & r1 & X & R1 & F1). rewrite X. rewrite (data_ok _ _ _ _ R1).
  assert (RS : read_source h1 r1 src = Some s).
  { destruct PS as (_ & [->|(_ & off & k & -> & A & B & C & ->)]); [reflexivity|]. cbn [read_source].
    assert (DP : data_ptr r = data_ptr r1). { destruct (rep_tag _ _ _ _ R) as [(P & T)|(P & T)]; [|now rewrite (set_size_same _ _ _ _ _ T X)].
      unfold set_size in X. rewrite (capacity_ok _ _ _ _ R), T in X. unfold check in X. destruct (_ <=? _) in X; [|discriminate]. destruct (set_inline_ok r n full (zlen (zslice off k full)) P) as (r2 & Y & P2); [destruct R as (_ & N & _); destruct P; lia|destruct P; lia|].
      rewrite Y in X. injection X as _ <-. unfold data_ptr. rewrite T, (in_place_tag _ _ _ P2). reflexivity. }
    rewrite DP. now apply (read_ok _ _ _ _ off k R1). }
  rewrite RS. destruct (write_ok h1 r1 (zlen s) full G 0 s (frame_owns _ _ _ _ F1) R1 ltac:(lia) ltac:(lia) (proj1 PS)) as (h2 & r2 & W & R2 & F2). rewrite advance_0 in W.
  exists h2, r2, (overwrite full 0 s). split; [exact W|]. split; [exact R2|]. split; [apply overwrite_prefix; lia|]. eapply frame_trans; eauto.
Qed.
Lemma assign_ok h (EO : env_at E h) r n full G src s : owns h r G -> rep h r n full -> passes h r n 0 full src s -> zlen s <= limit -> gives h G (Assign E h r src) s.
Proof.
  intros OW R PS L. unfold Assign. rewrite (capacity_ok _ _ _ _ R), (passes_size _ _ _ _ _ _ _ PS). destruct (Z.leb_spec (zlen s) (zlen full)) as [C|C]; [eapply overwrite_ok; eauto|].
  eapply assign_slow_ok; eauto; lia.
Qed.
Lemma copy_ok h (EO : env_at E h) r n full : NoDup (keys h) -> rep h r n full -> n <= limit ->
  (exists h' r' full', Copy E h r = Some (h', r') /\ rep h' r' n full' /\ ztake n full' = ztake n full /\ frame h h' r' (keys h)).
Proof.
  intros ND R L. unfold Copy. destruct (rep_tag _ _ _ _ R) as [(P & T)|(A & T)]; rewrite T.
  - exists h, r, full. split; [reflexivity|]. split; [exact R|]. split; [reflexivity|]. unfold frame, blocks. rewrite T. cbn [app]. auto.
  - pose proof (data_ok _ _ _ _ R) as D. unfold data in D. rewrite T in D. rewrite D. pose proof (size_ok _ _ _ _ R) as S. unfold size in S. rewrite T in S. rewrite S. destruct R as (BY & N & X).
    assert (LZ : zlen (zslice 0 n full) = n) by (apply zlen_zslice; lia). unfold limit in *.
    destruct (make_from_ok _ EO r n 0 full (Here (data_ptr r) n) (zslice 0 n full) n ND) as (h1 & r1 & f1 & E1 & R1 & T1 & _ & F1).
    { split; [now apply bytes_zslice|]. right. split; [now split|]. exists 0, n. rewrite advance_0. repeat split; lia. } { lia. }
    rewrite LZ in *. exists h1, r1, f1. split; [exact E1|]. split; [exact R1|]. split; [|exact F1]. rewrite T1. unfold zslice. now rewrite zdrop_nonpos by lia.
Qed.
Lemma assign_copy_ok h (EO : env_at E h) r n full G that n2 full2 : owns h r G -> rep h r n full -> rep h that n2 full2 -> (that = r /\ n2 = n /\ full2 = full) \/ incl (blocks that) G -> n2 <= limit ->
  gives h G (AssignCopy E h r that) (ztake n2 full2).
Proof.
  intros OW R R2 TH L. pose proof R2 as (BY2 & N2 & _). assert (LZ : zlen (ztake n2 full2) = n2) by (rewrite zlen_ztake; lia). unfold AssignCopy.
  destruct (rep_tag _ _ _ _ R2) as [(P2 & T2)|(A2 & T2)]; rewrite T2.
  - destruct (rep_tag _ _ _ _ R) as [(P & T)|(A & T)]; rewrite T.
    + exists h, that, full2. rewrite LZ. split; [reflexivity|]. split; [exact R2|]. split; [reflexivity|]. destruct OW as (ND & PM). unfold frame, blocks in *. rewrite T2. rewrite T in PM. auto.
    + rewrite (inline_size_ok _ _ _ P2) by (destruct P2; lia). destruct P2 as (L2 & EQ2).
      destruct (set_size_ok h r n full G n2 OW R) as (h1 & r1 & X & R1 & F1). { pose proof (rep_len _ _ _ _ R). lia. }
      pose proof (set_size_same _ _ _ _ _ T X) as ->. unfold set_size in X. rewrite (capacity_ok _ _ _ _ R), T in X. unfold check in X at 1. destruct (n2 <=? zlen full); [|discriminate].
      destruct (set_allocated_size_for_tag (tag r) h n2 r) as [h1'|]; [|discriminate]. injection X as ->. rewrite (capacity_ok _ _ _ _ R1). pose proof (rep_len _ _ _ _ R1). unfold check at 1.
      replace (kInlineCapacity <=? zlen full) with true by (symmetry; apply Z.leb_le; unfold kInlineCapacity; lia). pose proof (data_ok _ _ _ _ R1) as D. unfold data in D. rewrite T in D. rewrite D.
      pose proof (data_ok _ _ _ _ R2) as D2. unfold data in D2. rewrite T2 in D2. rewrite D2.
      assert (RR : rep h1 that n2 full2). { split; [exact BY2|]. split; [exact N2|]. left. now split. }
      pose proof (read_ok h1 that n2 full2 0 kInlineCapacity RR ltac:(lia) ltac:(unfold kInlineCapacity; lia) ltac:(unfold kInlineCapacity; lia)) as RD. rewrite advance_0 in RD. rewrite RD.
      assert (SL : zslice 0 kInlineCapacity full2 = full2). { unfold zslice. rewrite zdrop_nonpos by lia. apply ztake_all. unfold kInlineCapacity. lia. } rewrite SL.
      destruct (write_ok h1 r n2 full G 0 full2 (frame_owns _ _ _ _ F1) R1 ltac:(lia) ltac:(lia) BY2) as (h3 & r3 & W & R3 & F3). rewrite advance_0 in W.
      exists h3, r3, (overwrite full 0 full2). rewrite LZ. split; [exact W|]. split; [exact R3|]. split; [|eapply frame_trans; eauto].
      unfold overwrite. rewrite (ztake_nonpos 0 full) by lia. cbn [app]. rewrite ztake_app_l by lia. reflexivity.
  - pose proof (data_ok _ _ _ _ R2) as D2. unfold data in D2. rewrite T2 in D2. pose proof (size_ok _ _ _ _ R2) as S2. unfold size in S2. rewrite T2 in S2. rewrite S2, (capacity_ok _ _ _ _ R), D2.
    assert (ZS : zslice 0 n2 full2 = ztake n2 full2) by (unfold zslice; now rewrite zdrop_nonpos by lia).
    destruct (Z.leb_spec n2 (zlen full)) as [C|C].
    + destruct (set_size_ok h r n full G n2 OW R ltac:(lia)) as (h1 & r1 & X & R1 & F1). rewrite X. rewrite (data_ok _ _ _ _ R1).
      assert (RD : read h1 that (data_ptr that) n2 = Some (ztake n2 full2)).
      { rewrite <- ZS, <- (advance_0 (data_ptr that)). destruct TH as [(-> & -> & ->)|IN].
        - pose proof (set_size_same _ _ _ _ _ T2 X) as ->. eapply read_ok; [exact R1|lia|lia|lia].
        - eapply (read_ok h1 that n2 full2); [|lia|lia|lia]. eapply rep_frame; [exact R2|]. intros b I. now apply F1, IN. }
      rewrite RD. destruct (write_ok h1 r1 n2 full G 0 (ztake n2 full2) (frame_owns _ _ _ _ F1) R1 ltac:(lia) ltac:(lia) (bytes_ztake _ _ BY2)) as (h3 & r3 & W & R3 & F3). rewrite advance_0 in W.
      exists h3, r3, (overwrite full 0 (ztake n2 full2)). rewrite LZ. split; [exact W|]. split; [exact R3|]. split; [apply overwrite_prefix; lia|]. eapply frame_trans; eauto.
    + pose proof (read_ok h that n2 full2 0 n2 R2 ltac:(lia) ltac:(lia) ltac:(lia)) as RD. rewrite advance_0, ZS in RD. rewrite RD. eapply assign_slow_ok; eauto; [split; [now apply bytes_ztake|now left]|lia].
Qed.

(** A longer allocation with the first bytes kept *)
Definition keeps (h : heap) (G : list Z) (x : option (heap * Z)) (n' used : Z) (full : list Z) (cap : Z) : Prop :=
  exists h' r' full', x = Some (h', r') /\ rep h' r' n' full' /\ ztake used full' = ztake used full /\ cap <= zlen full' /\ frame h h' r' G.
Lemma moved h (EO : env_at E h) r n full G new_size cap used : owns h r G -> rep h r n full -> 0 <= used <= n -> used <= new_size -> new_size <= cap -> 7 < cap <= 2 ^ 61 - 64 ->
  exists h1 new q, MakeReprSlow E h new_size cap = Some (h1, new) /\ allocated_data new = Some q /\ data r = Some (data_ptr r) /\ read h1 r (data_ptr r) used = Some (ztake used full) /\
  exists h2 new2, write h1 new q (ztake used full) = Some (h2, new2) /\ keeps h G (let* h := DeleteRepr h2 r in Some (h, new2)) new_size used full cap.
Proof.
  intros OW R U U1 C C1. pose proof R as (BY & N & _). destruct (make_slow_frame _ EO new_size cap (proj1 OW) ltac:(lia) ltac:(lia)) as (h1 & new & f1 & X & R1 & D & L & F1). exists h1, new, (data_ptr new). split; [exact X|]. split; [exact D|].
  split; [eapply data_ok, R|]. assert (R' : rep h1 r n full) by (eapply rep_frame; [exact R|]; intros b I; apply F1; eapply rep_in_keys; eauto).
  split. { pose proof (read_ok h1 r n full 0 used R' ltac:(lia) ltac:(lia) ltac:(lia)) as RD. rewrite advance_0 in RD. rewrite RD. unfold zslice. now rewrite zdrop_nonpos by lia. }
  assert (LZ : zlen (ztake used full) = used) by (rewrite zlen_ztake; lia).
  destruct (write_ok h1 new new_size f1 (keys h) 0 (ztake used full) (frame_owns _ _ _ _ F1) R1 ltac:(lia) ltac:(lia) (bytes_ztake _ _ BY)) as (h2 & r2 & W & R2 & F2). rewrite advance_0 in W. exists h2, r2. split; [exact W|].
  destruct (replace_ok h r n full G h2 r2 _ _ OW R R2 (frame_trans _ _ _ _ _ _ F1 F2)) as (h3 & -> & R3 & F3). exists h3, r2, (overwrite f1 0 (ztake used full)). split; [reflexivity|]. split; [exact R3|]. split; [apply overwrite_prefix; lia|]. split; [rewrite zlen_overwrite by lia; lia|exact F3].
Qed.
Lemma resize_slow_ok h (EO : env_at E h) r n full G new_size min_cap used : owns h r G -> rep h r n full -> 0 <= used <= n -> used <= new_size -> new_size <= min_cap -> zlen full < min_cap <= limit + 1 ->
  keeps h G (ResizeSlow E h r new_size min_cap used) new_size used full min_cap.
Proof.
  intros OW R U U1 C C1. pose proof (rep_len _ _ _ _ R). unfold limit in *. unfold ResizeSlow. rewrite (size_ok _ _ _ _ R), (capacity_ok _ _ _ _ R). unfold check.
  replace (new_size <=? min_cap) with true by (symmetry; apply Z.leb_le; lia). replace (used <=? n) with true by (symmetry; apply Z.leb_le; lia). replace (used <=? new_size) with true by (symmetry; apply Z.leb_le; lia).
  replace (kInlineCapacity <? min_cap) with true by (symmetry; apply Z.ltb_lt; unfold kInlineCapacity; lia). rewrite growth by lia.
  destruct (moved _ EO r n full G new_size (Z.max min_cap (zlen full + zlen full / 2)) used OW R U U1 ltac:(lia) ltac:(lia)) as (h1 & new & q & -> & -> & -> & -> & h2 & new2 & -> & K).
  destruct K as (h3 & r3 & f3 & A & B & D & F & G3). exists h3, r3, f3. repeat split; try assumption; try apply B; try apply G3; lia.
Qed.
Lemma set_size_keeps h r n full G m used : owns h r G -> rep h r n full -> 0 <= m <= zlen full -> keeps h G (set_size h r m) m used full 0.
Proof. intros OW R M. destruct (set_size_ok h r n full G m OW R M) as (h1 & r1 & X & R1 & F1). exists h1, r1, full. pose proof (zlen_nonneg full). auto. Qed.
Lemma keeps_weaken h G x n u full c : keeps h G x n u full c -> 0 <= c -> keeps h G x n u full 0.
Proof. intros (h1 & r1 & f1 & A & B & C & D & F) H. exists h1, r1, f1. repeat split; try assumption; try apply B; try apply F; lia. Qed.
Lemma resize_ok h (EO : env_at E h) r n full G m : owns h r G -> rep h r n full -> 0 <= m <= limit -> keeps h G (resize E h r m) m (Z.min m n) full 0.
Proof.
  intros OW R M. pose proof R as (_ & N & _). unfold resize. rewrite (capacity_ok _ _ _ _ R). destruct (Z.leb_spec m (zlen full)) as [C|C]; [eapply set_size_keeps; eauto; lia|]. rewrite (size_ok _ _ _ _ R).
  replace (Z.min m n) with n by lia. eapply keeps_weaken; [apply (resize_slow_ok _ EO r n); auto; lia|lia].
Qed.
Lemma resize_used_ok h (EO : env_at E h) r n full G m used : owns h r G -> rep h r n full -> 0 <= m <= limit -> 0 <= used <= n -> used <= m -> keeps h G (resize_used E h r m used) m used full 0.
Proof.
  intros OW R M U U1. pose proof R as (_ & N & _). unfold resize_used. rewrite (size_ok _ _ _ _ R), (capacity_ok _ _ _ _ R). unfold check. replace (used <=? n) with true by (symmetry; apply Z.leb_le; lia). replace (used <=? m) with true by (symmetry; apply Z.leb_le; lia).
  destruct (Z.leb_spec m (zlen full)) as [C|C]; [eapply set_size_keeps; eauto; lia|]. eapply keeps_weaken; [apply (resize_slow_ok _ EO r n); auto; lia|lia].
Qed.
Lemma reserve_ok h (EO : env_at E h) r n full G m : owns h r G -> rep h r n full -> m <= limit -> keeps h G (reserve E h r m) n n full m.
Proof.
  intros OW R M. pose proof R as (_ & N & _). unfold reserve. rewrite (capacity_ok _ _ _ _ R). destruct (Z.leb_spec m (zlen full)) as [C|C].
  - exists h, r, full. split; [reflexivity|]. split; [exact R|]. split; [reflexivity|]. split; [exact C|now apply frame_refl].
  - rewrite (size_ok _ _ _ _ R). apply (resize_slow_ok _ EO r n); auto; lia.
Qed.
Lemma append_length_ok h (EO : env_at E h) r n full G m : owns h r G -> rep h r n full -> 0 <= m -> n + m <= limit -> keeps h G (append_length E h r m) (n + m) n full 0.
Proof.
  intros OW R M L. pose proof R as (_ & N & _). unfold append_length. rewrite (size_ok _ _ _ _ R), (capacity_ok _ _ _ _ R). destruct (Z.leb_spec m (zlen full - n)) as [C|C]; [eapply set_size_keeps; eauto; lia|].
  unfold check. replace (m <=? max_size - n) with true by (symmetry; apply Z.leb_le; unfold max_size, limit in *; lia). eapply keeps_weaken; [apply (resize_slow_ok _ EO r n); auto; lia|lia].
Qed.
Lemma fill_ok h G x n' used full c fill : keeps h G x n' used full c -> 0 <= used -> used <= zlen full -> n' = used + zlen fill -> bytes fill -> gives h G (fill_at x used fill) (ztake used full ++ fill).
Proof.
  intros (h1 & r1 & f1 & -> & R & T & C & F) U UF N BF. pose proof R as (BY & NN & _). cbn [fill_at]. rewrite (data_ok _ _ _ _ R). assert (LZ : zlen (ztake used full) = used) by (rewrite zlen_ztake; lia).
  destruct (write_ok h1 r1 n' f1 G used fill (frame_owns _ _ _ _ F) R U ltac:(lia) BF) as (h2 & r2 & -> & R2 & F2). exists h2, r2, (overwrite f1 used fill). rewrite zlen_app, LZ, <- N. split; [reflexivity|]. split; [exact R2|]. split; [|eapply frame_trans; eauto].
  rewrite ztake_overwrite by lia. now rewrite T.
Qed.
Lemma append_ok h (EO : env_at E h) r n full G src s : owns h r G -> rep h r n full -> passes h r n 0 full src s -> (forall p k, src = Here p k -> exists off, p = advance (data_ptr r) off /\ 0 <= off /\ off + k <= n) -> n + zlen s <= limit ->
  gives h G (append E h r src) (ztake n full ++ s).
Proof.
  intros OW R PS IN L. pose proof R as (BY & N & _). pose proof (zlen_nonneg s) as SN. pose proof (rep_len _ _ _ _ R) as RL. pose proof (passes_size _ _ _ _ _ _ _ PS) as SZ. assert (LZ : zlen (ztake n full) = n) by (rewrite zlen_ztake; lia).
  unfold append. rewrite (size_ok _ _ _ _ R), (capacity_ok _ _ _ _ R), SZ. destruct (Z.leb_spec (zlen s) (zlen full - n)) as [C|C].
  - destruct (set_size_ok h r n full G (n + zlen s) OW R ltac:(lia)) as (h1 & r1 & X & R1 & F1). rewrite X, (data_ok _ _ _ _ R1).
    assert (RS : read_source h1 r1 src = Some s).
    { destruct PS as (_ & [->|(_ & off & k & -> & A & B & D & ->)]); [reflexivity|]. cbn [read_source].
      assert (DP : data_ptr r = data_ptr r1). { destruct (rep_tag _ _ _ _ R) as [(P & T)|(P & T)]; [|now rewrite (set_size_same _ _ _ _ _ T X)].
        unfold set_size in X. rewrite (capacity_ok _ _ _ _ R), T in X. unfold check in X. destruct (_ <=? _) in X; [|discriminate]. destruct (set_inline_ok r n full (n + zlen (zslice off k full)) P) as (r2 & Y & P2); [destruct P; lia|destruct P; lia|].
        rewrite Y in X. injection X as _ <-. unfold data_ptr. rewrite T, (in_place_tag _ _ _ P2). reflexivity. }
      rewrite DP. now apply (read_ok _ _ _ _ off k R1). }
    rewrite RS. destruct (write_ok h1 r1 (n + zlen s) full G n s (frame_owns _ _ _ _ F1) R1 ltac:(lia) ltac:(lia) (proj1 PS)) as (h2 & r2 & -> & R2 & F2). exists h2, r2, (overwrite full n s). rewrite zlen_app, LZ. split; [reflexivity|]. split; [exact R2|]. split; [apply ztake_overwrite; lia|eapply frame_trans; eauto].
  - unfold limit in *. unfold check. replace (zlen s <=? max_size - n) with true by (symmetry; apply Z.leb_le; unfold max_size in *; lia). replace (kInlineCapacity <? n + zlen s) with true by (symmetry; apply Z.ltb_lt; unfold kInlineCapacity; lia). rewrite growth by lia.
    set (cap := Z.max (n + zlen s) (zlen full + zlen full / 2)). destruct (make_slow_frame _ EO (n + zlen s) cap (proj1 OW) ltac:(subst cap; lia) ltac:(subst cap; lia)) as (h1 & new & f1 & -> & R1 & D & LF & F1). rewrite D, (data_ok _ _ _ _ R).
    assert (R' : rep h1 r n full) by (eapply rep_frame; [exact R|]; intros b I; apply F1; eapply rep_in_keys; eauto). pose proof (read_ok h1 r n full 0 n R' ltac:(lia) ltac:(lia) ltac:(lia)) as RD. rewrite advance_0 in RD. rewrite RD.
    replace (zslice 0 n full) with (ztake n full) by (unfold zslice; now rewrite zdrop_nonpos by lia).
    destruct (write_ok h1 new (n + zlen s) f1 (keys h) 0 (ztake n full) (frame_owns _ _ _ _ F1) R1 ltac:(lia) ltac:(subst cap; lia) (bytes_ztake _ _ BY)) as (h2 & r2 & W & R2 & F2). rewrite advance_0 in W.
    assert (NA : tag new =? kInlineTag = false). { unfold allocated_data in D. destruct (tag new =? kInlineTag); [discriminate|reflexivity]. }
    assert (r2 = new). { unfold data_ptr in W. rewrite NA in W. cbn [write] in W. destruct (store h1 _ _ _); [|discriminate]. now injection W as _ <-. } subst r2. rewrite W.
    pose proof (frame_trans _ _ _ _ _ _ F1 F2) as F12. rewrite (passes_read _ _ _ _ _ _ _ h2 PS) by (exact (proj2 (proj2 F12))).
    assert (L2 : zlen (overwrite f1 0 (ztake n full)) = zlen f1) by (apply zlen_overwrite; subst cap; lia).
    destruct (write_ok h2 new (n + zlen s) _ (keys h) n s (frame_owns _ _ _ _ F12) R2 ltac:(lia) ltac:(subst cap; lia) (proj1 PS)) as (h3 & r3 & -> & R3 & F3).
    destruct (replace_ok h r n full G h3 r3 _ _ OW R R3 (frame_trans _ _ _ _ _ _ F12 F3)) as (h4 & -> & R4 & F4). exists h4, r3, (overwrite (overwrite f1 0 (ztake n full)) n s). rewrite zlen_app, LZ. split; [reflexivity|]. split; [exact R4|]. split; [|exact F4].
    rewrite ztake_overwrite by (subst cap; lia). f_equal. apply overwrite_prefix; subst cap; lia.
Qed.
Lemma shrink_ok h (EO : env_at E h) r n full G : owns h r G -> rep h r n full -> n <= limit -> gives h G (shrink_to_fit E h r) (ztake n full).
Proof.
  intros OW R L. pose proof R as (BY & N & _). assert (LZ : zlen (ztake n full) = n) by (rewrite zlen_ztake; lia).
  assert (SAME : gives h G (Some (h, r)) (ztake n full)). { exists h, r, full. rewrite LZ. split; [reflexivity|]. split; [exact R|]. split; [reflexivity|now apply frame_refl]. }
  unfold shrink_to_fit. pose proof (size_ok _ _ _ _ R) as S. pose proof (capacity_ok _ _ _ _ R) as C. pose proof (data_ok _ _ _ _ R) as D. unfold size, capacity, data in *. destruct (rep_tag _ _ _ _ R) as [(P & T)|(A & T)]; rewrite T in *; [exact SAME|]. rewrite D.
  set (again := let* (h0, new) := MakeReprFrom E h r (Here (data_ptr r) n) n in let* h1 := DeleteRepr h0 r in Some (h1, new)).
  assert (AG : gives h G again (ztake n full)).
  { subst again. unfold limit in *. destruct (make_from_ok _ EO r n 0 full (Here (data_ptr r) n) (ztake n full) n (proj1 OW)) as (h1 & r1 & f1 & -> & R1 & T1 & _ & F1).
    { split; [now apply bytes_ztake|]. right. split; [exact R|]. exists 0, n. rewrite advance_0. repeat split; lia. } { lia. }
    destruct (replace_ok h r n full G h1 r1 _ _ OW R R1 F1) as (h2 & -> & R2 & F2). exists h2, r1, f1. auto. }
  unfold allocated_size_for_tag, allocated_capacity_for_tag in *. destruct (tag r =? 2); [rewrite S, C; now destruct (_ && _)|]. destruct (tag r =? 4); [rewrite S, C; now destruct (_ && _)|]. destruct (tag r =? 0); [rewrite S, C; now destruct (_ && _)|discriminate].
Qed.
Lemma c_str_ok h (EO : env_at E h) r n full G : owns h r G -> rep h r n full -> n <= limit ->
  exists h' r' full', c_str E h r = Some (h', r', ztake n full ++ [0]) /\ rep h' r' n full' /\ ztake n full' = ztake n full /\ frame h h' r' G.
Proof.
  intros OW R L. pose proof R as (BY & N & _). unfold c_str. rewrite (size_ok _ _ _ _ R), (capacity_ok _ _ _ _ R). assert (LZ : zlen (ztake n full) = n) by (rewrite zlen_ztake; lia).
  assert (K : keeps h G (if n =? zlen full then ReserveOneMoreByteSlow E h r else Some (h, r)) n n full (n + 1)).
  { destruct (Z.eqb_spec n (zlen full)) as [X|X].
    - unfold ReserveOneMoreByteSlow. rewrite (size_ok _ _ _ _ R). pose proof (rep_len _ _ _ _ R). unfold check. replace (kInlineCapacity <? n + 1) with true by (symmetry; apply Z.ltb_lt; unfold kInlineCapacity; lia). unfold limit in *.
      destruct (moved _ EO r n full G n (n + 1) n OW R ltac:(lia) ltac:(lia) ltac:(lia) ltac:(lia)) as (h1 & new & q & -> & -> & -> & -> & h2 & new2 & -> & K). exact K.
    - exists h, r, full. split; [reflexivity|]. split; [exact R|]. split; [reflexivity|]. split; [lia|now apply frame_refl]. }
  destruct K as (h1 & r1 & f1 & -> & R1 & T & C & F). rewrite (data_ok _ _ _ _ R1). destruct (write_ok h1 r1 n f1 G n [0] (frame_owns _ _ _ _ F) R1 ltac:(lia)) as (h2 & r2 & W & R2 & F2).
  { change (zlen [0]) with 1. lia. } { constructor; [split; lia|constructor]. } rewrite W.
  assert (DP : data_ptr r1 = data_ptr r2).
  { unfold data_ptr in W. destruct (rep_tag _ _ _ _ R1) as [(P & T1)|(P & T1)]; rewrite T1 in W; cbn [advance write] in W.
    - destruct (rep_tag _ _ _ _ R2) as [(P2 & T2)|(A2 & T2)]; [unfold data_ptr; now rewrite T1, T2|]. exfalso. unfold check in W. destruct (_ && _) in W; [|discriminate].
      assert (ER : r2 = le_val (overwrite (le_bytes 8 r1) (1 + n) [0])) by (apply (f_equal (fun x => match x with Some (_, y) => y | None => r2 end)) in W; symmetry; exact W). rewrite ER in T2. clear W ER R2.
      destruct P as (L1 & ->). destruct R1 as (BY1 & N1 & _). rewrite repr_bytes in T2 by (auto; lia). change ((8 * n + 6) :: f1) with ([8 * n + 6] ++ f1) in T2. rewrite overwrite_app in T2 by (change (zlen [8 * n + 6]) with 1; lia).
      change (zlen [8 * n + 6]) with 1 in T2. cbn [app] in T2. rewrite (in_place_tag _ n (overwrite f1 (1 + n - 1) [0])) in T2; [discriminate|]. split; [|reflexivity]. rewrite zlen_overwrite; [exact L1|lia|change (zlen [0]) with 1; lia].
    - destruct (store _ _ _ _); [|discriminate]. now injection W as _ <-. }
  assert (Z1 : zlen (overwrite f1 n [0]) = zlen f1) by (apply zlen_overwrite; [lia|change (zlen [0]) with 1; lia]).
  pose proof (read_ok h2 r2 n _ 0 (n + 1) R2 ltac:(lia) ltac:(lia) ltac:(lia)) as RD. rewrite advance_0, <- DP in RD. rewrite RD. exists h2, r2, (overwrite f1 n [0]).
  assert (ZS : zslice 0 (n + 1) (overwrite f1 n [0]) = ztake n full ++ [0]). { unfold zslice. rewrite zdrop_nonpos by lia. rewrite ztake_overwrite; [now rewrite T|lia|reflexivity|change (zlen [0]) with 1; lia]. }
  rewrite ZS. split; [reflexivity|]. split; [exact R2|]. split; [|eapply frame_trans; eauto]. unfold overwrite. rewrite ztake_app_l by (rewrite zlen_ztake; lia). rewrite ztake_all by (rewrite zlen_ztake; lia). exact T.
Qed.
End Ops.
