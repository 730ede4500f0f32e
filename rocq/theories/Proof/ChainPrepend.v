(** Prepending to a Chain. *)
From Verif Require Import Base.Bytes Model.BufferSizer Model.Chain Proof.ChainHeap Proof.ChainSteps Proof.ChainAppend Proof.ChainAppendChain Proof.ChainRaw.

Section A.
Context (E : env) (EO : env_ok E).

Lemma new_two_p R h k x y : Inv h R -> 0 < R x -> 0 < R y -> 0 < k <= kMaxCapacity -> size h x + size h y <= k ->
  exists n h1 h2 h3, NewInternal E h k = Some (n, h1) /\ Block_Prepend h1 n (data h1 x) = Some h2 /\ Block_Prepend h2 n (data h2 y) = Some h3 /\
    Inv h3 (fun z => R z + one n z) /\ R n = 0 /\ (forall z, z <> n -> data h3 z = data h z) /\ (forall z, z <> n -> data h2 z = data h z) /\ data h3 n = data h y ++ data h x.
Proof.
  intros I Px Py K L. destruct (new_step E EO h R k I K) as (n & h1 & k' & E1 & I1 & D1 & RN & _ & DN & KB & _ & AB1 & _).
  assert (Nx : x <> n) by (intros ->; lia). assert (Ny : y <> n) by (intros ->; lia). pose proof (size_nonneg h y).
  destruct (PB_prepend h1 (fun z => R z + one n z) n k' (data h1 x) I1) as (h2 & E2 & I2 & AB2 & D2 & D2'); [rewrite one_same; lia|assumption|unfold size; rewrite DN, D1 by assumption; fold (size h x); change (zlen (@nil Z)) with 0; lia|].
  rewrite DN, D1, app_nil_r in D2 by assumption.
  destruct (PB_prepend h2 (fun z => R z + one n z) n k' (data h2 y) I2) as (h3 & E3 & I3 & AB3 & D3 & D3'); [rewrite one_same; lia|assumption| |].
  { unfold size. rewrite D2, D2', D1 by assumption. fold (size h x). fold (size h y). lia. }
  exists n, h1, h2, h3. split; [assumption|]. split; [assumption|]. split; [assumption|]. split; [assumption|]. split; [assumption|].
  assert (Q : forall z, z <> n -> data h2 z = data h z) by (intros z N; rewrite D2', D1 by assumption; reflexivity).
  split; [intros z N; rewrite D3' by assumption; auto|]. split; [assumption|]. rewrite D3, D2, Q by assumption. reflexivity.
Qed.
Lemma new_data_p R h k s : Inv h R -> 0 < k <= kMaxCapacity -> zlen s <= k ->
  exists n h1 k', NewInternal E h k = Some (n, h1) /\ (forall z, z <> n -> data h1 z = data h z) /\ R n = 0 /\ k <= k' /\
    exists h2, Block_Prepend h1 n s = Some h2 /\ PB h2 n k' /\ Inv h2 (fun z => R z + one n z) /\ (forall z, z <> n -> data h2 z = data h z) /\ data h2 n = s.
Proof.
  intros I K L. destruct (new_step E EO h R k I K) as (n & h1 & k' & E1 & I1 & D1 & RN & _ & DN & KB & _ & AB1 & _).
  exists n, h1, k'. split; [assumption|]. split; [assumption|]. split; [assumption|]. split; [lia|].
  destruct (PB_prepend h1 (fun z => R z + one n z) n k' s I1) as (h2 & E2 & I2 & AB2 & D2 & D2'); [rewrite one_same; lia|assumption|unfold size; rewrite DN; change (zlen (@nil Z)) with 0; lia|].
  exists h2. split; [assumption|]. split; [assumption|]. split; [assumption|]. split; [intros z N; rewrite D2', D1 by assumption; reflexivity|]. now rewrite D2, DN, app_nil_r.
Qed.
Lemma new_one_p R h k x : Inv h R -> 0 < R x -> 0 < k <= kMaxCapacity -> size h x <= k ->
  exists n h1 h2 k', NewInternal E h k = Some (n, h1) /\ Block_Prepend h1 n (data h1 x) = Some h2 /\ k <= k' /\ PB h2 n k' /\
    Inv h2 (fun z => R z + one n z) /\ R n = 0 /\ (forall z, z <> n -> data h2 z = data h z) /\ data h2 n = data h x.
Proof.
  intros I Px K L. destruct (new_data_p R h k (data h x) I K L) as (n & h1 & k' & E1 & D1 & RN & KL & h2 & E2 & P2 & I2 & D2 & DN).
  exists n, h1, h2, k'. rewrite D1 by (intros ->; lia). repeat (split; [assumption|]). assumption.
Qed.
Lemma new_short_p R h k s : Inv h R -> 0 < k <= kMaxCapacity -> zlen s <= k ->
  exists n h1 h2 k', NewInternal E h k = Some (n, h1) /\ Block_Prepend h1 n s = Some h2 /\ k <= k' /\ PB h2 n k' /\
    Inv h2 (fun z => R z + one n z) /\ R n = 0 /\ (forall z, z <> n -> data h2 z = data h z) /\ data h2 n = s.
Proof.
  intros I K L. destruct (new_data_p R h k s I K L) as (n & h1 & k' & E1 & D1 & RN & KL & h2 & E2 & P2 & I2 & D2 & DN).
  exists n, h1, h2, k'. repeat (split; [assumption|]). assumption.
Qed.

Lemma PB_can h b k n : PB h b k -> size h b + n <= k -> can_prepend h b n = true.
Proof.
  intros (C & R1 & S0) L. pose proof (size_nonneg h b). unfold can_prepend. rewrite (mutable_of _ _ _ C R1). unfold space_before, capacity. rewrite C. cbn [andb]. apply Z.leb_le.
  destruct (is_empty h b) eqn:EM; [lia|]. apply is_empty_false in EM. lia.
Qed.
Context (F : Z -> Z) (PF : forall x, 0 <= F x).
(** Block pointers *)
Lemma plus_nonneg l x : 0 <= plus F l x. Proof. pose proof (PF x). pose proof (plus_le F l x). lia. Qed.
Lemma push_front_st h c b : Inv h (fun x => plus F (cblocks c) x + one b x) -> Cok h c -> St F h (PushFront h c b).
Proof.
  intros I K. split; [|now apply Cok_PushFront]. eapply Inv_ext; [|exact I]. intros x. unfold plus. cbn [PushFront with_blocks cblocks]. rewrite cnt_cons. lia.
Qed.
Lemma swap_front h c b : Inv h (fun x => plus F (cblocks c) x + one b x) -> cblocks c <> [] -> Inv h (fun x => plus F (b :: tl (cblocks c)) x + one (front c) x).
Proof. intros I N. eapply Inv_ext; [|exact I]. intros x. unfold plus. rewrite (split_front c N) at 1. rewrite !cnt_cons. lia. Qed.
Lemma set_front_st h c b : Inv h (fun x => plus F (cblocks c) x + one b x) -> Cok h c -> cblocks c <> [] ->
  St F (Unref h (front c)) (RefreshFront h (SetFrontSameSize_keep c b)) /\ keeps (plus F (b :: tl (cblocks c))) h (Unref h (front c)) /\ (rc (blk h b) = 1 -> blk (Unref h (front c)) b = blk h b).
Proof.
  intros I K N. pose proof (swap_front h c b I N) as I0. destruct (Inv_Unref h (plus F (b :: tl (cblocks c))) (front c) I0) as (I1 & K1); [apply plus_nonneg|].
  split; [|split; [exact K1|]].
  2:{ intros R1. eapply Unref_blk; [exact I0|apply plus_nonneg| |exact R1]. apply in_plus; [exact PF|now left]. }
  split; [exact I1|]. apply (Cok_keep h); [intros x HI; apply K1; now apply in_plus|]. apply Cok_RefreshFront; [discriminate|]. apply CokT_SetFront; [exact N|]. now apply Cok_tail.
Qed.
Lemma set_front_same_st h c b : Inv h (fun x => plus F (cblocks c) x + one b x) -> Cok h c -> cblocks c <> [] -> size h b = size h (front c) ->
  St F (Unref h (front c)) (SetFrontSameSize_keep c b) /\ keeps (plus F (b :: tl (cblocks c))) h (Unref h (front c)).
Proof.
  intros I K N SE. pose proof (swap_front h c b I N) as I0. destruct (Inv_Unref h (plus F (b :: tl (cblocks c))) (front c) I0) as (I1 & K1); [apply plus_nonneg|].
  split; [|exact K1]. split; [exact I1|]. apply (Cok_keep h); [intros x HI; apply K1; now apply in_plus|]. now apply Cok_SetFrontSame.
Qed.
Lemma pop_front_st h c : St F h c -> cblocks c <> [] -> St F (Unref h (front c)) (PopFront c) /\ keeps (plus F (tl (cblocks c))) h (Unref h (front c)).
Proof.
  intros [I K] N. destruct (Inv_Unref h (plus F (tl (cblocks c))) (front c)) as (I1 & K1).
  - eapply Inv_ext; [|exact I]. intros x. unfold plus. rewrite (split_front c N) at 1. rewrite cnt_cons. lia.
  - apply plus_nonneg.
  - split; [|exact K1]. split; [exact I1|]. apply (Cok_keep h); [|now apply Cok_PopFront]. intros x HI. apply K1. now apply in_plus.
Qed.
Lemma front_changed h h' c : St F h c -> cblocks c <> [] -> is_mutable h (front c) = true -> Inv h' (plus F (cblocks c)) -> (forall x, x <> front c -> data h' x = data h x) ->
  Cok h' (RefreshFront h' c) /\ keeps F h h' /\ flat h' (cblocks c) = data h' (front c) ++ flat h (tl (cblocks c)).
Proof.
  intros [I K] N M I' D. destruct (own_front F h c PF I N M) as [F0 NI]. split; [|split].
  - apply Cok_RefreshFront; [exact N|]. apply (CokT_keep h); [|now apply Cok_tail]. intros x HI. apply D. intros ->. contradiction.
  - intros x P. apply D. intros ->. lia.
  - rewrite flat_split_front by assumption. f_equal. apply flat_keep. intros x HI. apply D. intros ->. contradiction.
Qed.

Lemma prepend_finish h c mn mx fill : Inv h (plus F (cblocks c)) -> Cok h c -> cblocks c <> [] -> can_prepend h (front c) mn = true -> csize c = zlen (flat h (cblocks c)) -> 0 <= mn <= mx -> mn <= SIZE_MAX - csize c ->
  (forall n, 0 <= n <= mx -> zlen (fill n) = n) ->
  exists n h' c', (let* (n, h1) := Block_PrependBuffer h (front c) (Z.min mx (SIZE_MAX - csize c)) fill in check (mn <=? n) (Some (n, h1, with_size (RefreshFront h1 c) (csize c + n)))) = Some (n, h', c') /\
    mn <= n <= mx /\ Post F h h' c' (fill n ++ flat h (cblocks c)).
Proof.
  intros I K N CA SZ MN MS FI. assert (ST : St F h c) by (split; assumption). unfold can_prepend in CA. apply andb_prop in CA as [M L]. apply Z.leb_le in L.
  pose proof (in_plus F _ _ PF (front_in c N)) as PB0. destruct (mutable_unique _ _ _ I PB0 M) as (k & C & R1 & _ & _).
  destruct (inv_live _ _ _ I PB0) as (_ & _ & KO). unfold block_ok in KO. rewrite C in KO. fold (data h (front c)) in KO. fold (size h (front c)) in KO. pose proof (size_nonneg h (front c)) as SN.
  unfold Block_PrependBuffer. rewrite M. cbn [check]. unfold space_before, capacity in *. rewrite C in *.
  set (s := if is_empty h (front c) then k else sb (blk h (front c))) in *.
  assert (SB : 0 <= s /\ mn <= s /\ s + size h (front c) <= k).
  { unfold s in *. destruct (is_empty h (front c)) eqn:EM; [|lia]. pose proof (is_empty_spec _ _ EM) as D0. assert (size h (front c) = 0) by (unfold size; now rewrite D0). lia. }
  clearbody s. set (n := Z.min s (Z.min mx (SIZE_MAX - csize c))). assert (NB : mn <= n <= mx /\ n <= s) by lia. clearbody n.
  destruct (Z.leb_spec mn n); [|lia]. eexists n, _, _. split; [reflexivity|]. split; [lia|].
  pose proof (FI n ltac:(lia)) as FL.
  destruct (write_step h _ (front c) k (s - n) (fill n ++ data h (front c)) I PB0 C R1) as (A1 & A2 & A3 & _); [lia|rewrite zlen_app, FL; fold (size h (front c)); lia|].
  set (h' := set_blk h (front c) (with_dat (blk h (front c)) (s - n) (fill n ++ data h (front c)))) in *. clearbody h'.
  destruct (front_changed h h' c ST N M A1 A3) as (K' & KE & FL').
  assert (CT : flat h' (cblocks c) = fill n ++ flat h (cblocks c)) by (rewrite FL', A2, (flat_split_front h c N); now rewrite app_assoc).
  apply passed_fin; [split; [exact A1|exact K']| |exact CT|exact KE]. rewrite zlen_app, FL. lia.
Qed.
Lemma front_push h c b : front (PushFront h c b) = b. Proof. reflexivity. Qed.
Lemma pushf_ne h c b : cblocks (PushFront h c b) <> []. Proof. discriminate. Qed.

(** a new first block *)
Lemma prepend_fresh h c mn rec mx opt fill : opt_ok opt -> St F h c -> csize c = zlen (flat h (cblocks c)) -> 1 <= mn <= mx -> mn <= kMaxCapacity -> mn <= SIZE_MAX - csize c -> (forall n, 0 <= n <= mx -> zlen (fill n) = n) ->
  exists n h' c', (let* k := NewBlockCapacity c 0 mn rec opt in let* (b, h) := NewInternal E h k in
     let* (n, h1) := Block_PrependBuffer h (front (PushFront h c b)) (Z.min mx (SIZE_MAX - csize (PushFront h c b))) fill in check (mn <=? n) (Some (n, h1, with_size (RefreshFront h1 (PushFront h c b)) (csize (PushFront h c b) + n)))) = Some (n, h', c') /\
    mn <= n <= mx /\ Post F h h' c' (fill n ++ flat h (cblocks c)).
Proof.
  intros OO [I K] SZ MN MC MS FI. pose proof (zlen_nonneg (flat h (cblocks c))). destruct (new_capacity c 0 mn rec opt OO) as (k & EK & KL & KB); [lia|lia|lia|lia|]. rewrite EK.
  destruct (new_step E EO h _ k I KB) as (n & h1 & k' & E1 & I1 & D1 & RN & _ & DN & KB' & _ & PB1 & _). rewrite E1.
  assert (KE : keeps (plus F (cblocks c)) h h1) by (eapply fresh_keeps; eassumption).
  assert (FK : flat h1 (cblocks c) = flat h (cblocks c)) by (eapply keeps_flat; [exact KE|intros x HI; now apply in_plus]).
  assert (ST1 : St F h1 (PushFront h1 c n)). { apply push_front_st; [exact I1|]. eapply Cok_keep; [|exact K]. intros x HI. apply KE. now apply in_plus. }
  assert (FP : flat h1 (cblocks (PushFront h1 c n)) = flat h (cblocks c)) by (cbn [PushFront with_blocks cblocks]; rewrite flat_cons, DN, FK; reflexivity).
  destruct (prepend_finish h1 (PushFront h1 c n) mn mx fill) as (m & h' & c' & E2 & MB & PO).
  - apply ST1.
  - apply ST1.
  - apply pushf_ne.
  - rewrite front_push. eapply PB_can; [exact PB1|]. unfold size. rewrite DN. change (zlen (@nil Z)) with 0. lia.
  - rewrite FP. exact SZ.
  - lia.
  - exact MS.
  - exact FI.
  - exists m, h', c'. split; [exact E2|]. split; [exact MB|]. apply (Post_trans _ h h1); [eapply keeps_F; exact KE|]. rewrite FP in PO. exact PO.
Qed.

Lemma PrependBuffer_ok h c mn rec mx opt fill : opt_ok opt -> Inv h (plus F (cblocks c)) -> Ok h c -> 0 <= mn <= mx -> mn <= kMaxCapacity -> csize c + mn <= SIZE_MAX -> (forall n, 0 <= n <= mx -> zlen (fill n) = n) ->
  exists n h' c', PrependBuffer E h c mn rec mx opt fill = Some (n, h', c') /\ mn <= n <= mx /\ Post F h h' c' (fill n ++ content h c).
Proof.
  intros OO I OK MN MC MS FI. pose proof OK as [SZ SH CK]. assert (ST : St F h c) by (split; assumption).
  assert (SN : 0 <= csize c) by (rewrite SZ; apply zlen_nonneg).
  assert (NOP : mn = 0 -> exists n h' c', Some (0, h, c) = Some (n, h', c') /\ mn <= n <= mx /\ Post F h h' c' (fill n ++ content h c)).
  { intros ->. exists 0, h, c. split; [reflexivity|]. split; [lia|]. split; [exact I|]. split; [exact OK|]. split; [|apply keeps_refl].
    pose proof (FI 0 ltac:(lia)) as F0. destruct (fill 0); [reflexivity|]. rewrite zlen_cons in F0. pose proof (zlen_nonneg l). lia. }
  unfold PrependBuffer. unfold check at 1 2. destruct (Z.leb_spec mn mx); [|lia]. destruct (Z.leb_spec mn (SIZE_MAX - csize c)); [|lia].
  destruct (cblocks c) as [|b0 bs0] eqn:EB.
  - specialize (SH eq_refl). unfold check at 1. destruct (Z.leb_spec (csize c) kMaxShortDataSize); [|lia].
    rewrite (content_short h c EB) in *. destruct ((mn <=? kMaxShortDataSize - csize c) && (rec <=? kMaxShortDataSize - csize c) && hint_small opt) eqn:C1.
    { apply andb_prop in C1 as [C1 _]. apply andb_prop in C1 as [C1 _]. apply Z.leb_le in C1. set (n := Z.min mx (kMaxShortDataSize - csize c)). assert (NB : mn <= n <= mx /\ n <= kMaxShortDataSize - csize c) by lia. clearbody n.
      eexists _, _, _. split; [reflexivity|]. split; [lia|]. pose proof (FI n ltac:(lia)) as FL.
      assert (CT : content h {| csize := csize c + n; cshort := fill n ++ short_data c; cblocks := []; coffs := None |} = fill n ++ short_data c).
      { unfold content. cbn [cblocks]. unfold short_data at 1. cbn [csize cshort]. apply ztake_all. rewrite zlen_app, FL. lia. }
      split; [exact I|]. split; [|split; [exact CT|apply keeps_refl]].
      constructor; cbn [csize cblocks]; [rewrite CT, zlen_app, FL; lia|lia|]. apply Cok_nil; [reflexivity|now left]. }
    destruct ((mn <=? kMaxShortDataSize - csize c) && (mn =? 0)) eqn:C2.
    { apply andb_prop in C2 as [_ C2]. apply Z.eqb_eq in C2. exact (NOP C2). }
    assert (M1 : 1 <= mn).
    { destruct (Z.eq_dec mn 0) as [->|]; [|lia]. rewrite Z.eqb_refl, andb_true_r in C2. apply Z.leb_gt in C2. lia. }
    assert (PS : forall h2 n, Inv h2 (fun z => plus F [] z + one n z) -> data h2 n = short_data c -> St F h2 (PushFront h2 c n) /\ flat h2 (cblocks (PushFront h2 c n)) = short_data c).
    { intros h2 n I2 DN. split; [apply push_front_st; [rewrite EB; exact I2|]; eapply Cok_keep; [|exact CK]; rewrite EB; easy|].
      cbn [PushFront with_blocks cblocks]. rewrite EB, flat_one. exact DN. }
    destruct (Z.ltb_spec (kMaxCapacity - csize c) mn).
    + destruct (new_short E EO (plus F []) h kMaxShortDataSize (short_data c) I) as (n & h1 & h2 & k' & E1 & E2 & KB' & AB2 & I2 & RN & D2 & DN); [consts; lia|consts; lia|]. rewrite E1, E2.
      assert (KE : keeps (plus F []) h h2) by (eapply fresh_keeps; eassumption). destruct (PS h2 n I2 DN) as [ST2 FP].
      destruct (prepend_fresh h2 (PushFront h2 c n) mn rec mx opt fill OO) as (m & h' & c' & E3 & MB & PO).
      * exact ST2.
      * rewrite FP. exact SZ.
      * lia.
      * exact MC.
      * cbn [PushFront with_blocks csize]. lia.
      * exact FI.
      * exists m, h', c'. split; [exact E3|]. split; [exact MB|]. apply (Post_trans _ h h2); [eapply keeps_F; exact KE|]. rewrite FP in PO. exact PO.
    + destruct (new_capacity c (csize c) mn rec opt OO) as (k & EK & KL & KB); [lia|lia|consts; lia|lia|]. rewrite EK.
      destruct (new_short_p (plus F []) h k (short_data c) I) as (n & h1 & h2 & k' & E1 & E2 & KB' & PB2 & I2 & RN & D2 & DN); [lia|lia|]. rewrite E1, E2.
      assert (KE : keeps (plus F []) h h2) by (eapply fresh_keeps; eassumption). destruct (PS h2 n I2 DN) as [ST2 FP].
      destruct (prepend_finish h2 (PushFront h2 c n) mn mx fill) as (m & h' & c' & E3 & MB & PO).
      * apply ST2.
      * apply ST2.
      * apply pushf_ne.
      * rewrite front_push. eapply PB_can; [exact PB2|]. unfold size. rewrite DN, <- SZ. lia.
      * rewrite FP. exact SZ.
      * lia.
      * cbn [PushFront with_blocks csize]. lia.
      * exact FI.
      * exists m, h', c'. split; [exact E3|]. split; [exact MB|]. apply (Post_trans _ h h2); [eapply keeps_F; exact KE|]. rewrite FP in PO. exact PO.
  - assert (N : cblocks c <> []) by (rewrite EB; discriminate). rewrite <- EB in *. clear b0 bs0 EB. rewrite (content_flat h c N) in *.
    pose proof (in_plus F _ _ PF (front_in c N)) as PBk. pose proof (size_nonneg h (front c)) as SBN.
    assert (SBC : size h (front c) <= csize c). { rewrite SZ, (flat_split_front h c N), zlen_app. fold (size h (front c)). pose proof (zlen_nonneg (flat h (tl (cblocks c)))). lia. }
    destruct (can_prepend h (front c) mn) eqn:CA; [apply prepend_finish; auto; lia|].
    destruct (Z.eqb_spec mn 0) as [M0|M0]; [exact (NOP M0)|].
    destruct (tiny h (front c) && (mn <=? kMaxCapacity - size h (front c))) eqn:TI.
    { apply andb_prop in TI as [_ TI]. apply Z.leb_le in TI.
      destruct (new_capacity c (size h (front c)) mn rec opt OO) as (k & EK & KL & KB); [lia|lia|lia|lia|]. rewrite EK.
      destruct (new_one_p (plus F (cblocks c)) h k (front c) I PBk KB) as (n & h1 & h2 & k' & E1 & E2 & KB' & AB2 & I2 & RN & D2 & DN); [lia|]. rewrite E1, E2. unfold SetFront.
      assert (KE : keeps (plus F (cblocks c)) h h2) by (eapply fresh_keeps; eassumption).
      assert (CK2 : Cok h2 c) by (eapply Cok_keep; [|exact CK]; intros x HI; apply KE; now apply in_plus).
      destruct (set_front_st h2 c n I2 CK2 N) as (ST3 & KE3 & BK). specialize (BK (proj1 (proj2 AB2))). set (h3 := Unref h2 (front c)) in *. clearbody h3.
      assert (AB3 : PB h3 n k') by (unfold PB, size, data in *; rewrite BK; exact AB2).
      assert (FK : flat h3 (n :: tl (cblocks c)) = flat h (cblocks c)).
      { rewrite (keeps_flat _ h2 h3 _ KE3) by (intros x HI; now apply in_plus). rewrite flat_cons, DN, (flat_split_front h c N). f_equal.
        eapply keeps_flat; [exact KE|]. intros x HI. apply in_plus; [exact PF|]. rewrite (split_front c N). now right. }
      set (c3 := RefreshFront h2 (SetFrontSameSize_keep c n)) in *. assert (B3 : cblocks c3 = n :: tl (cblocks c)) by reflexivity.
      destruct (prepend_finish h3 c3 mn mx fill) as (m & h' & c' & E3 & MB & PO).
      - apply ST3.
      - apply ST3.
      - discriminate.
      - change (front c3) with n. eapply PB_can; [exact AB3|]. unfold size at 1. unfold data. rewrite BK. fold (data h2 n). rewrite DN. fold (size h (front c)). lia.
      - rewrite B3, FK. exact SZ.
      - lia.
      - change (csize c3) with (csize c). lia.
      - exact FI.
      - exists m, h', c'. split; [exact E3|]. split; [exact MB|]. apply (Post_trans _ h h3); [eapply keeps_trans; [eapply keeps_F; exact KE|eapply keeps_F; exact KE3]|].
        rewrite B3, FK in PO. exact PO. }
    assert (S1 : 0 < size h (front c)).
    { destruct (Z.eq_dec (size h (front c)) 0) as [Q|]; [|lia]. exfalso. unfold tiny in TI. rewrite Q in TI. consts. replace (mn <=? kMaxCapacity - 0) with true in TI by (symmetry; apply Z.leb_le; lia). discriminate. }
    assert (FR : forall h1 c1, keeps F h h1 -> St F h1 c1 -> csize c1 = csize c -> flat h1 (cblocks c1) = flat h (cblocks c) ->
      exists n h' c', (let* k := NewBlockCapacity c1 0 mn rec opt in let* (b, h) := NewInternal E h1 k in
     let* (n, h1) := Block_PrependBuffer h (front (PushFront h c1 b)) (Z.min mx (SIZE_MAX - csize (PushFront h c1 b))) fill in check (mn <=? n) (Some (n, h1, with_size (RefreshFront h1 (PushFront h c1 b)) (csize (PushFront h c1 b) + n)))) = Some (n, h', c') /\ mn <= n <= mx /\ Post F h h' c' (fill n ++ flat h (cblocks c))).
    { intros h1 c1 K1 ST1 SZ1 FL1. destruct (prepend_fresh h1 c1 mn rec mx opt fill OO ST1) as (m & h' & c' & E3 & MB & PO); [rewrite SZ1, FL1; exact SZ|lia|lia|lia|exact FI|].
      exists m, h', c'. split; [exact E3|]. split; [exact MB|]. apply (Post_trans _ h h1); [exact K1|]. rewrite FL1 in PO. exact PO. }
    destruct (wasteful E h (front c) 0) eqn:WA.
    2:{ apply FR; auto. apply keeps_refl. }
    destruct (copy_step E EO h _ (front c) I PBk) as (n & h1 & E1 & I1 & RN & D1 & DN).
    { pose proof (wasteful_size E EO _ _ _ 0 I PBk ltac:(lia) WA). lia. }
    rewrite E1. cbv beta iota zeta.
    assert (KE : keeps (plus F (cblocks c)) h h1) by (eapply fresh_keeps; eassumption).
    assert (CK1 : Cok h1 c) by (eapply Cok_keep; [|exact CK]; intros x HI; apply KE; now apply in_plus).
    assert (DF : data h1 (front c) = data h (front c)) by (now apply KE).
    set (l := front c) in *. set (c1 := SetFrontSameSize_keep c n) in *.
    assert (B1 : cblocks c1 = n :: tl (cblocks c)) by reflexivity.
    assert (I1' : Inv h1 (fun x => plus F (cblocks c1) x + one l x)) by (rewrite B1; now apply swap_front).
    assert (P1 : forall x, 0 <= plus F (cblocks c1) x) by apply plus_nonneg.
    assert (FL1 : flat h1 (cblocks c1) = flat h (cblocks c)).
    { rewrite B1, flat_cons, DN, (flat_split_front h c N). f_equal. eapply keeps_flat; [exact KE|]. intros x HI. apply in_plus; [exact PF|]. rewrite (split_front c N). now right. }
    assert (CKc1 : Cok h1 c1) by (apply Cok_SetFrontSame; [exact N|unfold size; rewrite DN; fold l; rewrite DF; reflexivity|exact CK1]).
    (* the old block is dropped *)
    assert (DROP : forall h2, keeps F h h2 -> Inv h2 (fun x => plus F (cblocks c1) x + one l x) -> (forall x, In x (cblocks c1) -> data h2 x = data h1 x) ->
      keeps F h (Unref h2 l) /\ St F (Unref h2 l) c1 /\ flat (Unref h2 l) (cblocks c1) = flat h (cblocks c)).
    { intros h2 K2 I2 D2. destruct (Inv_Unref h2 _ l I2 P1) as (I3 & K3). split; [eapply keeps_trans; [exact K2|eapply keeps_F; exact K3]|]. split.
      - split; [exact I3|]. eapply Cok_keep; [|exact CKc1]. intros x HI. rewrite K3 by (now apply in_plus). now apply D2.
      - rewrite <- FL1. apply flat_keep. intros x HI. rewrite K3 by (now apply in_plus). now apply D2. }
    unfold TryClear. destruct (is_mutable h1 l) eqn:MU.
    + assert (PL : 0 < plus F (cblocks c1) l + one l l) by (rewrite one_same; pose proof (P1 l); lia).
      destruct (mutable_unique _ _ _ I1' PL MU) as (k & C & R1 & RL & _). cbv beta in RL. rewrite one_same in RL.
      destruct (inv_live _ _ _ I1' PL) as (_ & _ & KO). unfold block_ok in KO. rewrite C in KO. pose proof (zlen_nonneg (dat (blk h1 l))).
      destruct (write_step h1 _ l k (sb (blk h1 l)) [] I1' PL C R1) as (A1 & A2 & A3 & A4 & A5 & A6); [lia|change (zlen (@nil Z)) with 0; lia|].
      set (h2 := set_blk h1 l (with_dat (blk h1 l) (sb (blk h1 l)) [])) in *. clearbody h2.
      assert (NL : ~ In l (cblocks c1)). { intros HI. pose proof (in_plus F _ _ PF HI). lia. }
      assert (D2 : forall x, In x (cblocks c1) -> data h2 x = data h1 x) by (intros x HI; apply A3; intros ->; contradiction).
      assert (K2 : keeps F h h2).
      { eapply keeps_trans; [eapply keeps_F; exact KE|]. intros x P. apply A3. intros ->. pose proof (plus_le F (cblocks c1) l). lia. }
      destruct (can_prepend h2 l mn) eqn:CA2; cbn [andb].
      * assert (FK2 : flat h2 (l :: cblocks c1) = flat h (cblocks c)).
        { rewrite flat_cons, A2, <- FL1. now apply flat_keep. }
        assert (ST2 : St F h2 (PushFront h2 c1 l)) by (apply push_front_st; [exact A1|]; eapply Cok_keep; [|exact CKc1]; exact D2).
        destruct (prepend_finish h2 (PushFront h2 c1 l) mn mx fill) as (m & h' & c' & E3 & MB & PO).
        -- apply ST2.
        -- apply ST2.
        -- apply pushf_ne.
        -- rewrite front_push. exact CA2.
        -- cbn [PushFront with_blocks cblocks csize]. rewrite FK2. exact SZ.
        -- lia.
        -- cbn [PushFront with_blocks csize c1 SetFrontSameSize_keep]. lia.
        -- exact FI.
        -- exists m, h', c'. split; [exact E3|]. split; [exact MB|]. apply (Post_trans _ h h2); [exact K2|]. cbn [PushFront with_blocks cblocks] in PO. rewrite FK2 in PO. exact PO.
      * destruct (DROP h2 K2 A1 D2) as (X1 & X2 & X3). now apply FR.
    + cbn [andb]. destruct (DROP h1 (keeps_F _ _ _ _ KE) I1' (fun _ _ => eq_refl)) as (X1 & X2 & X3). now apply FR.
Qed.

Lemma prepend_loop_ok opt : opt_ok opt -> forall fuel h c src, (length src <= fuel)%nat -> Inv h (plus F (cblocks c)) -> Ok h c -> csize c + zlen src <= SIZE_MAX ->
  exists h' c', prepend_loop E fuel h c src opt = Some (h', c') /\ Post F h h' c' (src ++ content h c).
Proof.
  intros OO fuel. induction fuel as [|fuel IH]; intros h c src FU I OK MS.
  - destruct src; [|cbn [length] in FU; lia]. exists h, c. split; [reflexivity|]. split; [exact I|]. split; [exact OK|]. split; [reflexivity|apply keeps_refl].
  - destruct src as [|y src0] eqn:ES.
    + exists h, c. split; [reflexivity|]. split; [exact I|]. split; [exact OK|]. split; [reflexivity|apply keeps_refl].
    + cbn [prepend_loop]. rewrite <- ES in *. assert (L1 : 1 <= zlen src) by (rewrite ES, zlen_cons; pose proof (zlen_nonneg src0); lia).
      destruct (PrependBuffer_ok h c 1 (zlen src) (zlen src) opt (fun n => zdrop (zlen src - n) src) OO I OK) as (n & h1 & c1 & E1 & NB & I1 & OK1 & CT1 & K1); [lia|consts; lia|lia|intros n NB; rewrite zlen_zdrop; lia|].
      rewrite E1. destruct (IH h1 c1 (ztake (zlen src - n) src)) as (h2 & c2 & E2 & PO).
      * assert (zlen (ztake (zlen src - n) src) <= Z.of_nat fuel). { rewrite zlen_ztake by lia. unfold zlen in *. lia. } unfold zlen in *. lia.
      * exact I1.
      * exact OK1.
      * rewrite (ok_size _ _ OK1), CT1, zlen_app, <- (ok_size _ _ OK), zlen_ztake, zlen_zdrop by lia. lia.
      * exists h2, c2. split; [exact E2|]. apply (Post_trans _ h h1); [exact K1|]. rewrite CT1, app_assoc, ztake_zdrop in PO. exact PO.
Qed.
Lemma Prepend_ok h c src opt : opt_ok opt -> Inv h (plus F (cblocks c)) -> Ok h c -> csize c + zlen src <= SIZE_MAX ->
  exists h' c', Prepend E h c src opt = Some (h', c') /\ Post F h h' c' (src ++ content h c).
Proof. intros OO I OK MS. apply prepend_loop_ok; auto. Qed.
End A.
