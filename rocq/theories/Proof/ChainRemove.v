(** External blocks, and removing a suffix or a prefix of a Chain. *)
From Verif Require Import Base.Bytes Model.BufferSizer Model.Chain Proof.ChainHeap Proof.ChainSteps Proof.ChainAppend Proof.ChainAppendChain Proof.ChainRaw Proof.ChainPrepend Proof.ChainPrependChain.

Lemma external_step h R d : Inv h R -> exists h', NewExternal h d = (nxt h, h') /\ Inv h' (fun x => R x + one (nxt h) x) /\ R (nxt h) = 0 /\ (forall x, x <> nxt h -> data h' x = data h x) /\ data h' (nxt h) = d.
Proof.
  intros I. eexists. split; [reflexivity|]. split; [apply Inv_alloc; auto; exact Logic.I|]. split; [|split].
  - destruct (Z.eq_dec (R (nxt h)) 0); [assumption|]. pose proof (inv_pos _ _ I (nxt h)). exfalso. eapply (fresh_R h R I (nxt h)); [lia|reflexivity].
  - intros x N. unfold data. cbn [blk]. now rewrite upd_other.
  - unfold data. cbn [blk]. now rewrite upd_same.
Qed.
Lemma MaxBytesToCopy_pos c opt : 0 <= MaxBytesToCopy c opt.
Proof. unfold MaxBytesToCopy, UnsignedClamp. change kMaxShortDataSize with 16. change kMaxBytesToCopy with 511. destruct (size_hint opt); [destruct (csize c <? z)|]; try (destruct (csize c =? 0)); lia. Qed.

(** taking over a reference to [b] *)
Lemma MakeBlock_ok h R b off len : Inv h (fun x => R x + one b x) -> (forall x, 0 <= R x) -> 0 <= off -> 0 <= len -> off + len <= size h b ->
  exists n h', MakeBlock h b off len = (n, h') /\ Inv h' (fun x => R x + one n x) /\ keeps R h h' /\ data h' n = ztake len (zdrop off (data h b)).
Proof.
  intros I PR O0 L0 OL. unfold MakeBlock.
  assert (S : exists t o h1, (match find_wrap h b with Some (t, o) => (t, o + off, Unref (Ref h t) b) | None => (b, off, h) end) = (t, o, h1) /\
    Inv h1 (fun x => R x + one t x) /\ keeps R h h1 /\ 0 <= o /\ o + len <= size h1 t /\ ztake len (zdrop o (data h1 t)) = ztake len (zdrop off (data h b))).
  { destruct (find_wrap h b) as [[t o]|] eqn:FW.
    - apply find_wrap_in in FW. destruct (inv_wrap _ _ I _ _ _ FW) as (W1 & W2 & W3 & W4 & W5).
      assert (TR : 0 < rc (blk h t)). { pose proof (inv_rc _ _ I t) as Q. cbv beta in Q. assert (0 < cnt t (targets h)) by (apply cnt_in; unfold targets; apply in_map_iff; exists (b, (t, o)); auto). pose proof (PR t). pose proof (one_nonneg b t). lia. }
      destruct (Inv_Ref_rc h _ t I TR) as (I1 & D1).
      destruct (Inv_Unref (Ref h t) (fun x => R x + one t x) b) as (I2 & K2).
      + eapply Inv_ext; [|exact I1]. intros x. cbv beta. lia.
      + intros x. pose proof (PR x). pose proof (one_nonneg t x). lia.
      + assert (DT : data (Unref (Ref h t) b) t = data h t) by (rewrite K2 by (rewrite one_same; pose proof (PR t); lia); apply D1).
        exists t, (o + off), (Unref (Ref h t) b). split; [reflexivity|]. split; [exact I2|]. split.
        { intros x P. rewrite K2 by (pose proof (one_nonneg t x); lia). apply D1. }
        split; [lia|]. unfold size at 1. rewrite DT. fold (size h t). split; [lia|].
        rewrite W5. rewrite zdrop_ztake, ztake_ztake, zdrop_zdrop by lia. f_equal; [lia|]. f_equal. lia.
    - exists b, off, h. split; [reflexivity|]. split; [exact I|]. split; [apply keeps_refl|]. auto. }
  destruct S as (t & o & h1 & -> & I1 & K1 & O1 & L1 & D1). rewrite <- D1.
  destruct (Z.eqb_spec len (size h1 t)) as [Q|Q].
  - exists t, h1. split; [reflexivity|]. split; [exact I1|]. split; [exact K1|]. replace o with 0 by lia. rewrite zdrop_nonpos by lia. symmetry. apply ztake_all. fold (size h1 t). lia.
  - destruct (Inv_wrapper h1 R t o len I1 PR O1 L0 L1) as (h2 & E2 & I2 & D2 & RN & DN). rewrite E2. exists (nxt h1), h2. split; [reflexivity|]. split; [exact I2|]. split; [|exact DN].
    eapply keeps_trans; [exact K1|]. eapply fresh_keeps; eassumption.
Qed.

Lemma with_size_same c : with_size c (csize c) = c. Proof. now destruct c. Qed.

Section A.
Context (E : env) (EO : env_ok E) (F : Z -> Z) (PF : forall x, 0 <= F x).

Lemma AppendExternal_ok h c d opt : opt_ok opt -> Inv h (plus F (cblocks c)) -> Ok h c -> csize c + zlen d <= SIZE_MAX ->
  exists h' c', AppendExternal E h c d opt = Some (h', c') /\ Post F h h' c' (content h c ++ d).
Proof.
  intros OO I OK MS. unfold AppendExternal. destruct (Z.leb_spec (zlen d) (MaxBytesToCopy c opt)); [now apply Append_ok|]. pose proof (MaxBytesToCopy_pos c opt).
  destruct (external_step h _ d I) as (h1 & E1 & I1 & RN & D1 & DN). rewrite E1. set (n := nxt h) in *. clearbody n.
  assert (KE : keeps (plus F (cblocks c)) h h1) by (eapply fresh_keeps; eassumption).
  assert (SN : size h1 n = zlen d) by (unfold size; now rewrite DN).
  assert (CT : content h1 c = content h c). { destruct (cblocks c) eqn:EB; [rewrite !content_short by assumption; reflexivity|]. assert (NN : cblocks c <> []) by congruence. rewrite !content_flat by assumption. rewrite <- EB in KE. eapply keeps_flat; [exact KE|]. intros x HI. now apply in_plus. }
  destruct (AppendRawBlock_ok E EO F PF h1 c n opt OO) as (h' & c' & E2 & I2 & OK2 & CT2 & KE2).
  - left. lia.
  - exact I1.
  - destruct OK as [S1 S2 S3]. constructor; [now rewrite CT|exact S2|]. eapply Cok_keep; [|exact S3]. intros x HI. apply KE. now apply in_plus.
  - lia.
  - exists h', c'. split; [exact E2|]. split; [exact I2|]. split; [exact OK2|]. split; [rewrite CT2, CT, DN; reflexivity|]. eapply keeps_trans; [eapply keeps_F; exact KE|exact KE2].
Qed.
Lemma PrependExternal_ok h c d opt : opt_ok opt -> Inv h (plus F (cblocks c)) -> Ok h c -> csize c + zlen d <= SIZE_MAX ->
  exists h' c', PrependExternal E h c d opt = Some (h', c') /\ Post F h h' c' (d ++ content h c).
Proof.
  intros OO I OK MS. unfold PrependExternal. destruct (Z.leb_spec (zlen d) (MaxBytesToCopy c opt)); [now apply Prepend_ok|]. pose proof (MaxBytesToCopy_pos c opt).
  destruct (external_step h _ d I) as (h1 & E1 & I1 & RN & D1 & DN). rewrite E1. set (n := nxt h) in *. clearbody n.
  assert (KE : keeps (plus F (cblocks c)) h h1) by (eapply fresh_keeps; eassumption).
  assert (SN : size h1 n = zlen d) by (unfold size; now rewrite DN).
  assert (CT : content h1 c = content h c). { destruct (cblocks c) eqn:EB; [rewrite !content_short by assumption; reflexivity|]. assert (NN : cblocks c <> []) by congruence. rewrite !content_flat by assumption. rewrite <- EB in KE. eapply keeps_flat; [exact KE|]. intros x HI. now apply in_plus. }
  destruct (PrependRawBlock_ok E EO F PF h1 c n opt OO) as (h' & c' & E2 & I2 & OK2 & CT2 & KE2).
  - left. lia.
  - exact I1.
  - destruct OK as [S1 S2 S3]. constructor; [now rewrite CT|exact S2|]. eapply Cok_keep; [|exact S3]. intros x HI. apply KE. now apply in_plus.
  - lia.
  - exists h', c'. split; [exact E2|]. split; [exact I2|]. split; [exact OK2|]. split; [rewrite CT2, CT, DN; reflexivity|]. eapply keeps_trans; [eapply keeps_F; exact KE|exact KE2].
Qed.

Lemma fin h h1 c1 s : St F h1 c1 -> csize c1 = zlen s -> flat h1 (cblocks c1) = s -> keeps F h h1 -> Post F h h1 c1 s.
Proof. intros ST SZ FL KE. rewrite <- (with_size_same c1). now apply passed_fin. Qed.
Lemma fin_drop h h1 c1 l s : St (withb F l) h1 c1 -> csize c1 = zlen s -> flat h1 (cblocks c1) = s -> keeps (withb F l) h h1 -> Post F h (Unref h1 l) c1 s.
Proof. intros ST SZ FL KE. rewrite <- (with_size_same c1). now apply copied_fin. Qed.

(** the last block is popped but its reference is kept *)
Lemma pop_keep h c : St F h c -> cblocks c <> [] -> St (withb F (back c)) h (PopBack c).
Proof.
  intros [I K] N. split; [|now apply Cok_PopBack]. eapply Inv_ext; [|exact I]. intros x. unfold plus, withb. cbn [PopBack with_blocks cblocks]. rewrite (split_back c N) at 1. rewrite cnt_app, cnt_one. lia.
Qed.
Lemma pop_keep_front h c : St F h c -> cblocks c <> [] -> St (withb F (front c)) h (PopFront c).
Proof.
  intros [I K] N. split; [|now apply Cok_PopFront]. eapply Inv_ext; [|exact I]. intros x. unfold plus, withb. cbn [PopFront with_blocks cblocks]. rewrite (split_front c N) at 1. rewrite cnt_cons. lia.
Qed.

Lemma drop_back_ok fuel : forall h c len, (length (cblocks c) <= fuel)%nat -> St F h c -> 0 < len <= zlen (flat h (cblocks c)) ->
  exists h' c' len', drop_back fuel h c len = Some (h', c', len') /\ St F h' c' /\ cblocks c' <> [] /\ 0 < len' <= size h' (back c') /\ csize c' = csize c /\ keeps F h h' /\
    ztake (zlen (flat h' (cblocks c')) - len') (flat h' (cblocks c')) = ztake (zlen (flat h (cblocks c)) - len) (flat h (cblocks c)).
Proof.
  induction fuel as [|fuel IH]; intros h c len FU ST L; (assert (N : cblocks c <> []) by (intros Q; rewrite Q in L; change (flat h []) with (@nil Z) in L; change (zlen (@nil Z)) with 0 in L; lia)).
  - destruct (cblocks c); [easy|]. cbn [length] in FU. lia.
  - cbn [drop_back]. pose proof (size_nonneg h (back c)) as SN. pose proof (flat_split_back h c N) as FS.
    destruct (Z.ltb_spec (size h (back c)) len) as [LT|GE].
    + destruct (pop_back_st F PF h c ST N) as (ST1 & KE).
      assert (FL : flat (Unref h (back c)) (cblocks (PopBack c)) = flat h (removelast (cblocks c))) by (eapply keeps_flat; [exact KE|]; intros x HI; now apply in_plus).
      assert (ZL : zlen (flat h (cblocks c)) = zlen (flat h (removelast (cblocks c))) + size h (back c)) by (rewrite FS, zlen_app; reflexivity).
      assert (N1 : negb (count (PopBack c) =? 0) = true).
      { destruct (Z.eqb_spec (count (PopBack c)) 0) as [Q|]; [|reflexivity]. exfalso. unfold count in Q. cbn [PopBack with_blocks cblocks] in Q. destruct (removelast (cblocks c)); [|rewrite zlen_cons in Q; pose proof (zlen_nonneg l); lia].
        change (flat h []) with (@nil Z) in ZL. change (zlen (@nil Z)) with 0 in ZL. lia. }
      unfold check. rewrite N1.
      destruct (IH (Unref h (back c)) (PopBack c) (len - size h (back c))) as (h' & c' & len' & E1 & A1 & A2 & A3 & A4 & A5 & A6).
      * cbn [PopBack with_blocks cblocks]. rewrite (split_back c N) in FU. rewrite app_length in FU. cbn [length] in FU. lia.
      * exact ST1.
      * rewrite FL. lia.
      * exists h', c', len'. split; [exact E1|]. split; [exact A1|]. split; [exact A2|]. split; [exact A3|]. split; [exact A4|]. split; [eapply keeps_trans; [eapply keeps_F; exact KE|exact A5]|].
        rewrite A6, FL, ZL, FS. rewrite ztake_app_l by lia. f_equal. lia.
    + exists h, c, len. split; [reflexivity|]. split; [exact ST|]. split; [exact N|]. split; [lia|]. split; [reflexivity|]. split; [apply keeps_refl|reflexivity].
Qed.
Lemma drop_front_ok fuel : forall h c len, (length (cblocks c) <= fuel)%nat -> St F h c -> 0 < len <= zlen (flat h (cblocks c)) ->
  exists h' c' len', drop_front fuel h c len = Some (h', c', len') /\ St F h' c' /\ cblocks c' <> [] /\ 0 < len' <= size h' (front c') /\ csize c' = csize c /\ keeps F h h' /\
    zdrop len' (flat h' (cblocks c')) = zdrop len (flat h (cblocks c)).
Proof.
  induction fuel as [|fuel IH]; intros h c len FU ST L; (assert (N : cblocks c <> []) by (intros Q; rewrite Q in L; change (flat h []) with (@nil Z) in L; change (zlen (@nil Z)) with 0 in L; lia)).
  - destruct (cblocks c); [easy|]. cbn [length] in FU. lia.
  - cbn [drop_front]. pose proof (size_nonneg h (front c)) as SN. pose proof (flat_split_front h c N) as FS.
    destruct (Z.ltb_spec (size h (front c)) len) as [LT|GE].
    + destruct (pop_front_st F PF h c ST N) as (ST1 & KE).
      assert (FL : flat (Unref h (front c)) (cblocks (PopFront c)) = flat h (tl (cblocks c))) by (eapply keeps_flat; [exact KE|]; intros x HI; now apply in_plus).
      assert (ZL : zlen (flat h (cblocks c)) = size h (front c) + zlen (flat h (tl (cblocks c)))) by (rewrite FS, zlen_app; reflexivity).
      assert (N1 : negb (count (PopFront c) =? 0) = true).
      { destruct (Z.eqb_spec (count (PopFront c)) 0) as [Q|]; [|reflexivity]. exfalso. unfold count in Q. cbn [PopFront with_blocks cblocks] in Q. destruct (tl (cblocks c)); [|rewrite zlen_cons in Q; pose proof (zlen_nonneg l); lia].
        change (flat h []) with (@nil Z) in ZL. change (zlen (@nil Z)) with 0 in ZL. lia. }
      unfold check. rewrite N1.
      destruct (IH (Unref h (front c)) (PopFront c) (len - size h (front c))) as (h' & c' & len' & E1 & A1 & A2 & A3 & A4 & A5 & A6).
      * cbn [PopFront with_blocks cblocks]. rewrite (split_front c N) in FU. cbn [length] in FU. lia.
      * exact ST1.
      * rewrite FL. lia.
      * exists h', c', len'. split; [exact E1|]. split; [exact A1|]. split; [exact A2|]. split; [exact A3|]. split; [exact A4|]. split; [eapply keeps_trans; [eapply keeps_F; exact KE|exact A5]|].
        rewrite A6, FL, FS. symmetry. apply zdrop_app_r. fold (size h (front c)). lia.
    + exists h, c, len. split; [reflexivity|]. split; [exact ST|]. split; [exact N|]. split; [lia|]. split; [reflexivity|]. split; [apply keeps_refl|reflexivity].
Qed.
End A.

Lemma content_keep h h' c : (forall x, In x (cblocks c) -> data h' x = data h x) -> content h' c = content h c.
Proof. intros K. destruct (cblocks c) eqn:EB; [rewrite !content_short by assumption; reflexivity|]. rewrite !content_flat by congruence. apply flat_keep. now rewrite EB. Qed.
Lemma Ok_keep h h' c : (forall x, In x (cblocks c) -> data h' x = data h x) -> Ok h c -> Ok h' c.
Proof. intros K [S1 S2 S3]. constructor; [now rewrite (content_keep h h')|exact S2|]. now apply (Cok_keep h). Qed.
Lemma Post_drop F (PF : forall x, 0 <= F x) h h1 c1 l s : Post (withb F l) h h1 c1 s -> Post F h (Unref h1 l) c1 s.
Proof.
  intros (I & OK & CT & KE). destruct (Inv_Unref h1 (plus F (cblocks c1)) l) as (I1 & K1).
  - eapply Inv_ext; [|exact I]. intros x. unfold plus, withb. lia.
  - intros x. pose proof (PF x). pose proof (plus_le F (cblocks c1) x). lia.
  - assert (KK : forall x, In x (cblocks c1) -> data (Unref h1 l) x = data h1 x) by (intros x HI; apply K1; now apply in_plus).
    split; [exact I1|]. split; [now apply (Ok_keep h1)|]. split; [rewrite (content_keep h1) by exact KK; exact CT|].
    eapply keeps_trans; [eapply keeps_le; [now apply withb_G|exact KE]|eapply keeps_F; exact K1].
Qed.
Lemma withb_le F (PF : forall x, 0 <= F x) b x : F x <= withb F b x. Proof. now apply withb_G. Qed.

Section B.
Context (E : env) (EO : env_ok E) (F : Z -> Z) (PF : forall x, 0 <= F x).

Lemma RemoveSuffix_ok h c len opt : opt_ok opt -> Inv h (plus F (cblocks c)) -> Ok h c -> csize c <= SIZE_MAX -> 0 <= len <= csize c ->
  exists h' c', RemoveSuffix E h c len opt = Some (h', c') /\ Post F h h' c' (ztake (zlen (content h c) - len) (content h c)).
Proof.
  intros OO I OK CM L. pose proof OK as [SZ SH CK]. unfold RemoveSuffix. destruct (Z.eqb_spec len 0) as [->|L0].
  { exists h, c. split; [reflexivity|]. split; [exact I|]. split; [exact OK|]. split; [|apply keeps_refl]. symmetry. apply ztake_all. lia. }
  unfold check at 1. destruct (Z.leb_spec len (csize c)); [|lia]. cbn [with_size cblocks].
  destruct (cblocks c) as [|b0 bs0] eqn:EB.
  { rewrite (content_short h c EB) in *. eexists _, _. split; [reflexivity|].
    assert (CT : content h (with_size c (csize c - len)) = ztake (zlen (short_data c) - len) (short_data c)).
    { rewrite content_short by assumption. rewrite <- SZ. unfold short_data. cbn [with_size csize cshort]. rewrite ztake_ztake. f_equal. lia. }
    split; [cbn [with_size cblocks]; rewrite EB; exact I|]. split; [|split; [exact CT|apply keeps_refl]]. constructor; [rewrite CT, zlen_ztake; cbn [with_size csize]; lia|intros _; cbn [with_size csize]; specialize (SH eq_refl); lia|exact CK]. }
  assert (N : cblocks c <> []) by (rewrite EB; discriminate). rewrite <- EB in *. clear b0 bs0 EB SH. rewrite (content_flat h c N) in *.
  destruct (drop_back_ok F PF (length (cblocks c)) h (with_size c (csize c - len)) len) as (h1 & c1 & k & E1 & ST1 & N1 & KL & SZ1 & KE1 & FL1).
  { cbn [with_size cblocks]. lia. } { split; [exact I|exact CK]. } { cbn [with_size cblocks]. lia. }
  rewrite E1. cbn [with_size cblocks csize] in SZ1, FL1. rewrite <- FL1. pose proof ST1 as [I1 K1].
  pose proof (flat_split_back h1 c1 N1) as FS. assert (ZF : zlen (flat h1 (cblocks c1)) = zlen (flat h1 (removelast (cblocks c1))) + size h1 (back c1)) by (rewrite FS, zlen_app; reflexivity).
  pose proof (zlen_nonneg (flat h1 (removelast (cblocks c1)))) as ZR.
  assert (RES : ztake (zlen (flat h1 (cblocks c1)) - k) (flat h1 (cblocks c1)) = flat h1 (removelast (cblocks c1)) ++ ztake (size h1 (back c1) - k) (data h1 (back c1))).
  { rewrite ZF, FS. rewrite ztake_app_r by lia. do 2 f_equal. lia. }
  assert (SZ2 : csize c1 = zlen (ztake (zlen (flat h1 (cblocks c1)) - k) (flat h1 (cblocks c1)))).
  { rewrite SZ1, FL1, zlen_ztake. lia. }
  rewrite RES in *. clear RES FL1 E1. set (l := back c1) in *. set (s := flat h1 (removelast (cblocks c1)) ++ ztake (size h1 l - k) (data h1 l)) in *.
  pose proof (in_plus F _ _ PF (back_in c1 N1)) as Pl. fold l in Pl.
  unfold TryRemoveSuffix. destruct (is_mutable h1 l) eqn:MU.
  - destruct (mutable_unique _ _ _ I1 Pl MU) as (cp & C & R1 & _ & _). destruct (inv_live _ _ _ I1 Pl) as (_ & _ & KO). unfold block_ok in KO. rewrite C in KO.
    fold (data h1 l) in KO. fold (size h1 l) in KO. destruct (write_step h1 _ l cp (sb (blk h1 l)) (ztake (size h1 l - k) (data h1 l)) I1 Pl C R1) as (A1 & A2 & A3 & _); [lia|rewrite zlen_ztake; fold (size h1 l); lia|].
    set (h2 := set_blk h1 l (with_dat (blk h1 l) (sb (blk h1 l)) (ztake (size h1 l - k) (data h1 l)))) in *. clearbody h2.
    destruct (back_changed F PF h1 h2 c1 ST1 N1 MU A1 A3) as (K2 & KE2 & FL2). fold l in FL2. rewrite A2 in FL2. fold s in FL2.
    assert (KEh : keeps F h h2) by (eapply keeps_trans; eassumption). assert (ST2 : St F h2 c1) by (split; assumption).
    destruct ((1 <? count c1) && tiny h2 l && tiny h2 (back (PopBack c1))) eqn:CO.
    2:{ exists h2, c1. split; [reflexivity|]. now apply fin. }
    apply andb_prop in CO as [CO T2]. apply andb_prop in CO as [CO T1]. apply Z.ltb_lt in CO. apply tiny_size in T1, T2.
    assert (N2 : cblocks (PopBack c1) <> []).
    { cbn [PopBack with_blocks cblocks]. intros Q. unfold count in CO. rewrite (split_back c1 N1), Q in CO. change (zlen ([] ++ [back c1])) with 1 in CO. lia. }
    pose proof (pop_keep F PF h2 c1 ST2 N1) as STp. fold l in STp.
    pose proof (withb_pos F PF l) as PF2. pose proof (withb_b F PF l) as Pl2. set (c2 := PopBack c1) in *.
    assert (FL2' : flat h2 (cblocks c2) ++ data h2 l = s). { rewrite <- FL2. rewrite (flat_split_back h2 c1 N1). fold l. reflexivity. }
    pose proof (flat_split_back h2 c2 N2) as FS2. pose proof (size_nonneg h2 (back c2)). pose proof (size_nonneg h2 l).
    assert (SC : csize c2 = zlen (flat h2 (removelast (cblocks c2))) + size h2 (back c2) + size h2 l).
    { change (csize c2) with (csize c1). rewrite SZ2, <- FL2', FS2, !zlen_app. reflexivity. }
    pose proof (zlen_nonneg (flat h2 (removelast (cblocks c2)))).
    destruct (is_empty h2 l) eqn:EM.
    + eexists _, _. split; [reflexivity|]. eapply Post_trans; [exact KEh|]. apply fin_drop; [exact PF|exact STp|exact SZ2| |apply keeps_refl]. rewrite <- FL2', (is_empty_spec _ _ EM), app_nil_r. reflexivity.
    + apply is_empty_false in EM. consts. unfold check. destruct (Z.leb_spec (size h2 l) (kMaxCapacity - size h2 (back c2))); [|lia].
      destruct (new_capacity c2 (size h2 (back c2) + size h2 l) 0 0 opt OO) as (cp2 & EK & KL2 & KB); [lia|lia|lia|lia|]. rewrite EK.
      destruct (merged_back E EO (withb F l) PF2 h2 c2 l cp2 STp N2 Pl2 KB) as (h' & c' & sk & EQ & ST3 & SZ3 & FL3 & KE3); [lia|].
      destruct (NewInternal E h2 cp2) as [[m h3]|]; [|discriminate]. destruct (Block_Append h3 m (data h3 (back c2))) as [h4|]; [|discriminate]. destruct (Block_Append h4 m (data h4 l)) as [h5|]; [|discriminate].
      unfold SetBack in EQ |- *. injection EQ as <- <- <-. eexists _, _. split; [reflexivity|]. eapply Post_trans; [exact KEh|]. apply fin_drop; [exact PF|exact ST3| |rewrite FL3, (content_flat h2 c2 N2); exact FL2'|exact KE3].
      rewrite SZ3. change (csize c2) with (csize c1). exact SZ2.
  - pose proof (pop_keep F PF h1 c1 ST1 N1) as STp. fold l in STp. pose proof (withb_pos F PF l) as PF2. pose proof (withb_b F PF l) as Pl2. set (c2 := PopBack c1) in *.
    assert (FLp : flat h1 (cblocks c2) = flat h1 (removelast (cblocks c1))) by reflexivity.
    destruct (Z.eqb_spec k (size h1 l)) as [Q|Q].
    + eexists _, _. split; [reflexivity|]. eapply Post_trans; [exact KE1|]. apply fin_drop; [exact PF|exact STp|exact SZ2| |apply keeps_refl]. unfold s. rewrite ztake_nonpos, app_nil_r by lia. exact FLp.
    + set (d := ztake (size h1 l - k) (data h1 l)) in *. assert (ZD : zlen d = size h1 l - k) by (unfold d; rewrite zlen_ztake; fold (size h1 l); lia).
      set (c3 := with_size c2 (csize c2 - zlen d)).
      assert (SC : csize c2 - zlen d = zlen (flat h1 (removelast (cblocks c1)))) by (change (csize c2) with (csize c1); rewrite SZ2; unfold s; rewrite zlen_app; lia).
      assert (OK3 : Ok h1 c3) by (eapply Ok_of; [apply Cok_size; apply STp|exact FLp|exact SC]).
      assert (CT3 : content h1 c3 = flat h1 (removelast (cblocks c1))) by (apply content_of; [exact FLp|exact SC]).
      assert (MS : csize c3 + zlen d <= SIZE_MAX).
      { change (csize c3) with (csize c2 - zlen d). change (csize c2) with (csize c1). lia. }
      fold c3. destruct (zlen d <=? MaxBytesToCopy c3 opt) eqn:CP.
      * destruct (Append_ok E EO (withb F l) PF2 h1 c3 d opt OO (proj1 STp) OK3 MS) as (h2 & c4 & E2 & PO). rewrite E2. eexists _, _. split; [reflexivity|]. eapply Post_trans; [exact KE1|].
        rewrite CT3 in PO. fold s in PO. now apply Post_drop.
      * apply Z.leb_gt in CP. pose proof (MaxBytesToCopy_pos c3 opt). destruct (MakeBlock_ok h1 (plus F (cblocks c3)) l 0 (zlen d)) as (m & h2 & E2 & I2 & KE2 & DM).
        { eapply Inv_ext; [|exact (proj1 STp)]. intros x. unfold plus, withb. cbn [c3 with_size cblocks]. lia. } { intros x. pose proof (PF x). pose proof (plus_le F (cblocks c3) x). lia. } { lia. } { lia. } { lia. }
        rewrite E2. rewrite zdrop_nonpos in DM by lia. assert (DM' : data h2 m = d) by (rewrite DM, ZD; reflexivity).
        assert (KK : forall x, In x (cblocks c3) -> data h2 x = data h1 x) by (intros x HI; apply KE2; now apply in_plus).
        assert (SM : size h2 m = zlen d) by (unfold size; now rewrite DM').
        destruct (AppendRawBlock_ok E EO F PF h2 c3 m opt OO) as (h' & c' & E3 & PO); [left; lia|exact I2|now apply (Ok_keep h1)|lia|].
        exists h', c'. split; [exact E3|]. eapply Post_trans; [exact KE1|]. eapply Post_trans; [eapply keeps_F; exact KE2|]. rewrite (content_keep h1), CT3, DM' in PO by exact KK. exact PO.
Qed.

Lemma RemovePrefix_ok h c len opt : opt_ok opt -> Inv h (plus F (cblocks c)) -> Ok h c -> csize c <= SIZE_MAX -> 0 <= len <= csize c ->
  exists h' c', RemovePrefix E h c len opt = Some (h', c') /\ Post F h h' c' (zdrop len (content h c)).
Proof.
  intros OO I OK CM L. pose proof OK as [SZ SH CK]. unfold RemovePrefix. destruct (Z.eqb_spec len 0) as [->|L0].
  { exists h, c. split; [reflexivity|]. split; [exact I|]. split; [exact OK|]. split; [|apply keeps_refl]. symmetry. apply zdrop_nonpos. lia. }
  unfold check at 1. destruct (Z.leb_spec len (csize c)); [|lia]. cbn [with_size cblocks].
  destruct (cblocks c) as [|b0 bs0] eqn:EB.
  { rewrite (content_short h c EB) in *. eexists _, _. split; [reflexivity|].
    match goal with |- Post _ _ _ ?cc _ => assert (CT : content h cc = zdrop len (short_data c)) end.
    { rewrite content_short by reflexivity. unfold short_data. cbn [with_size csize cshort]. rewrite zdrop_ztake by lia. reflexivity. }
    split; [exact I|]. split; [|split; [exact CT|apply keeps_refl]]. constructor; [rewrite CT, zlen_zdrop; cbn [with_size csize]; lia|intros _; cbn [with_size csize]; specialize (SH eq_refl); lia|].
    unfold Cok, count in CK |- *. cbn [with_size coffs cblocks]. rewrite EB in CK. exact CK. }
  assert (N : cblocks c <> []) by (rewrite EB; discriminate). rewrite <- EB in *. clear b0 bs0 EB SH. rewrite (content_flat h c N) in *.
  destruct (drop_front_ok F PF (length (cblocks c)) h (with_size c (csize c - len)) len) as (h1 & c1 & k & E1 & ST1 & N1 & KL & SZ1 & KE1 & FL1).
  { cbn [with_size cblocks]. lia. } { split; [exact I|exact CK]. } { cbn [with_size cblocks]. lia. }
  rewrite E1. cbn [with_size cblocks csize] in SZ1, FL1. rewrite <- FL1. pose proof ST1 as [I1 K1].
  pose proof (flat_split_front h1 c1 N1) as FS.
  assert (RES : zdrop k (flat h1 (cblocks c1)) = zdrop k (data h1 (front c1)) ++ flat h1 (tl (cblocks c1))).
  { rewrite FS. apply zdrop_app_l. fold (size h1 (front c1)). lia. }
  assert (SZ2 : csize c1 = zlen (zdrop k (flat h1 (cblocks c1)))).
  { rewrite SZ1, FL1, zlen_zdrop. lia. }
  rewrite RES in *. clear RES FL1 E1. set (l := front c1) in *. set (s := zdrop k (data h1 l) ++ flat h1 (tl (cblocks c1))) in *.
  pose proof (in_plus F _ _ PF (front_in c1 N1)) as Pl. fold l in Pl.
  unfold TryRemovePrefix. destruct (is_mutable h1 l) eqn:MU.
  - destruct (mutable_unique _ _ _ I1 Pl MU) as (cp & C & R1 & _ & _). destruct (inv_live _ _ _ I1 Pl) as (_ & _ & KO). unfold block_ok in KO. rewrite C in KO.
    fold (data h1 l) in KO. fold (size h1 l) in KO. destruct (write_step h1 _ l cp (sb (blk h1 l) + k) (zdrop k (data h1 l)) I1 Pl C R1) as (A1 & A2 & A3 & _); [lia|rewrite zlen_zdrop; fold (size h1 l); lia|].
    set (h2 := set_blk h1 l (with_dat (blk h1 l) (sb (blk h1 l) + k) (zdrop k (data h1 l)))) in *. clearbody h2.
    destruct (front_changed F PF h1 h2 c1 ST1 N1 MU A1 A3) as (K2 & KE2 & FL2). fold l in FL2. rewrite A2 in FL2. fold s in FL2.
    assert (KEh : keeps F h h2) by (eapply keeps_trans; eassumption). set (cr := RefreshFront h2 c1) in *. assert (ST2 : St F h2 cr) by (split; assumption).
    assert (Nr : cblocks cr <> []) by exact N1. change (cblocks c1) with (cblocks cr) in FL2. change (csize c1) with (csize cr) in SZ2.
    destruct ((1 <? count cr) && tiny h2 l && tiny h2 (front (PopFront cr))) eqn:CO.
    2:{ exists h2, cr. split; [reflexivity|]. now apply fin. }
    apply andb_prop in CO as [CO T2]. apply andb_prop in CO as [CO T1]. apply Z.ltb_lt in CO. apply tiny_size in T1, T2.
    assert (N2 : cblocks (PopFront cr) <> []).
    { cbn [PopFront with_blocks cblocks]. intros Q. unfold count in CO. rewrite (split_front cr Nr), Q in CO. rewrite zlen_one in CO. lia. }
    pose proof (pop_keep_front F PF h2 cr ST2 Nr) as STp. change (front cr) with l in STp.
    pose proof (withb_pos F PF l) as PF2. pose proof (withb_b F PF l) as Pl2. set (c2 := PopFront cr) in *.
    assert (FL2' : data h2 l ++ flat h2 (cblocks c2) = s). { rewrite <- FL2. rewrite (flat_split_front h2 cr Nr). reflexivity. }
    pose proof (flat_split_front h2 c2 N2) as FS2. pose proof (size_nonneg h2 (front c2)). pose proof (size_nonneg h2 l).
    assert (SC : csize c2 = size h2 l + (size h2 (front c2) + zlen (flat h2 (tl (cblocks c2))))).
    { change (csize c2) with (csize cr). rewrite SZ2, <- FL2', FS2, !zlen_app. reflexivity. }
    pose proof (zlen_nonneg (flat h2 (tl (cblocks c2)))).
    destruct (is_empty h2 l) eqn:EM.
    + eexists _, _. split; [reflexivity|]. eapply Post_trans; [exact KEh|]. apply fin_drop; [exact PF|exact STp|exact SZ2| |apply keeps_refl]. rewrite <- FL2', (is_empty_spec _ _ EM). reflexivity.
    + apply is_empty_false in EM. consts. unfold check. destruct (Z.leb_spec (size h2 l) (kMaxCapacity - size h2 (front c2))); [|lia].
      destruct (new_capacity c2 (size h2 l + size h2 (front c2)) 0 0 opt OO) as (cp2 & EK & KL2 & KB); [lia|lia|lia|lia|]. rewrite EK.
      destruct (merged_front E EO (withb F l) PF2 h2 c2 l cp2 STp N2 Pl2 KB) as (h' & c' & sk & EQ & ST3 & SZ3 & FL3 & KE3); [lia|].
      destruct (NewInternal E h2 cp2) as [[m h3]|]; [|discriminate]. destruct (Block_Prepend h3 m (data h3 (front c2))) as [h4|]; [|discriminate]. destruct (Block_Prepend h4 m (data h4 l)) as [h5|]; [|discriminate].
      unfold SetFront in EQ |- *. injection EQ as <- <- <-. eexists _, _. split; [reflexivity|]. eapply Post_trans; [exact KEh|]. apply fin_drop; [exact PF|exact ST3| |rewrite FL3, (content_flat h2 c2 N2); exact FL2'|exact KE3].
      rewrite SZ3. change (csize c2) with (csize cr). exact SZ2.
  - pose proof (pop_keep_front F PF h1 c1 ST1 N1) as STp. fold l in STp. pose proof (withb_pos F PF l) as PF2. pose proof (withb_b F PF l) as Pl2. set (c2 := PopFront c1) in *.
    assert (FLp : flat h1 (cblocks c2) = flat h1 (tl (cblocks c1))) by reflexivity.
    destruct (Z.eqb_spec k (size h1 l)) as [Q|Q].
    + eexists _, _. split; [reflexivity|]. eapply Post_trans; [exact KE1|]. apply fin_drop; [exact PF|exact STp|exact SZ2| |apply keeps_refl]. unfold s. rewrite zdrop_all by (fold (size h1 l); lia). exact FLp.
    + set (d := zdrop k (data h1 l)) in *. assert (ZD : zlen d = size h1 l - k) by (unfold d; rewrite zlen_zdrop; fold (size h1 l); lia).
      set (c3 := with_size c2 (csize c2 - zlen d)).
      assert (SC : csize c2 - zlen d = zlen (flat h1 (tl (cblocks c1)))) by (change (csize c2) with (csize c1); rewrite SZ2; unfold s; rewrite zlen_app; lia).
      assert (OK3 : Ok h1 c3) by (eapply Ok_of; [apply Cok_size; apply STp|exact FLp|exact SC]).
      assert (CT3 : content h1 c3 = flat h1 (tl (cblocks c1))) by (apply content_of; [exact FLp|exact SC]).
      assert (MS : csize c3 + zlen d <= SIZE_MAX).
      { change (csize c3) with (csize c2 - zlen d). change (csize c2) with (csize c1). lia. }
      fold c3. destruct (zlen d <=? MaxBytesToCopy c3 opt) eqn:CP.
      * destruct (Prepend_ok E EO (withb F l) PF2 h1 c3 d opt OO (proj1 STp) OK3 MS) as (h2 & c4 & E2 & PO). rewrite E2. eexists _, _. split; [reflexivity|]. eapply Post_trans; [exact KE1|].
        rewrite CT3 in PO. fold s in PO. now apply Post_drop.
      * apply Z.leb_gt in CP. pose proof (MaxBytesToCopy_pos c3 opt). destruct (MakeBlock_ok h1 (plus F (cblocks c3)) l k (zlen d)) as (m & h2 & E2 & I2 & KE2 & DM).
        { eapply Inv_ext; [|exact (proj1 STp)]. intros x. unfold plus, withb. cbn [c3 with_size cblocks]. lia. } { intros x. pose proof (PF x). pose proof (plus_le F (cblocks c3) x). lia. } { lia. } { lia. } { lia. }
        rewrite E2. assert (DM' : data h2 m = d) by (rewrite DM; apply ztake_all; lia).
        assert (KK : forall x, In x (cblocks c3) -> data h2 x = data h1 x) by (intros x HI; apply KE2; now apply in_plus).
        assert (SM : size h2 m = zlen d) by (unfold size; now rewrite DM').
        destruct (PrependRawBlock_ok E EO F PF h2 c3 m opt OO) as (h' & c' & E3 & PO); [left; lia|exact I2|now apply (Ok_keep h1)|lia|].
        exists h', c'. split; [exact E3|]. eapply Post_trans; [exact KE1|]. eapply Post_trans; [eapply keeps_F; exact KE2|]. rewrite (content_keep h1), CT3, DM' in PO by exact KK. exact PO.
Qed.
End B.
