(** What the functions which write do. *)
From Verif Require Import Base.Bytes Spec.PosixFile Model.BufferSizer Model.ByteFill Model.BufferedWriter Proof.PosixProof Proof.BufferSizerProof Proof.ByteFillProof
  Proof.WriterLemmas Proof.WriterSteps.
Notation file w := (f_content (w_fd w)).
Notation kMax := kMaxFdPosition.

(** [f] called on a good writer writes [d]. *)
Definition writes (f : M bool) (d : list Z) : Prop := forall delta w, inv w -> ok w = true -> link delta w ->
  exists b w', f w = Some (b, w') /\ b = ok w' /\ moves True delta w d w'.
Lemma app_nil_moves P delta w d w' : moves P delta w (d ++ []) w' -> moves P delta w d w'.
Proof. rewrite app_nil_r. auto. Qed.

Lemma PushSlow_ok min rec delta w : inv w -> ok w = true -> link delta w -> available w < min -> 0 <= min <= 2 ^ 63 -> 0 <= rec ->
  exists b w', PushSlow min rec w = Some (b, w') /\ b = ok w' /\ moves True delta w [] w' /\ (ok w' = true -> min <= available w').
Proof.
  intros I1 O L AV MN RC. unfold PushSlow. rewrite bind_get, bind_assert by lia.
  destruct (SyncBuffer_ok delta w I1 O L) as (b & w1 & E & B & M1 & EB1 & S1 & ST1). rewrite (bind_some _ _ _ _ _ E). pose proof (m_inv _ _ _ _ _ M1) as I2.
  destruct b; cbn [negb]; cbv iota.
  - rewrite bind_get, <- B. cbn [negb]; cbv iota. symmetry in B. destruct (m_view _ _ _ _ _ M1 B) as [L1 V1]. pose proof (i_start w1 I2) as IS.
    assert (U : u64 (2 ^ 64 - 1 - w_start_pos w1) = 2 ^ 64 - 1 - w_start_pos w1) by (unfold u64; rewrite Z.mod_small; unfold kMax in *; lia). rewrite U.
    replace (2 ^ 64 - 1 - w_start_pos w1 <? min) with false by (unfold kMax in *; lia).
    destruct (ws_BufferLength_ok (w_sizer w1) (w_start_pos w1) min rec (i_sizer w1 I2) (i_base w1 I2) MN RC) as (n & EN & N1 & N2).
    rewrite (bind_of_option _ _ _ _ EN), bind_modify. eexists true, _. split; [reflexivity|]. set (m := Z.min n (2 ^ 64 - 1 - w_start_pos w1)). set (w' := set_buf [] 0 m w1).
    assert (MM : min <= m /\ 0 <= m /\ w_start_pos w1 + m <= 2 ^ 64 - 1) by (unfold kMax in *; lia). clearbody m.
    split; [symmetry; exact B|]. pose proof EB1 as (C1 & C2 & C3).
    assert (I3 : inv w'). { clear - I2 MM C1 C2 C3 B. destruct I2. constructor; unfold w', used, ok in *; ws; auto; try lia; try (intros X; exfalso; congruence). change (zlen (@nil Z)) with 0. lia. }
    assert (L2 : link delta w') by (destruct L1; constructor; unfold w'; ws; auto).
    assert (V2 : view delta w' = view delta w1). { unfold view, data, used. unfold w'. ws. rewrite C1, C3. rewrite !ztake_nonpos by lia. reflexivity. }
    split; [|intros _; unfold available, w'; ws; lia].
    apply app_nil_moves. apply (moves_trans _ _ _ _ w1); auto. constructor; auto; dz.
    + constructor; auto.
    + intros _. split; [exact L2|]. rewrite V2, write_at_nil. change (zlen (@nil Z)) with 0. rewrite Z.add_0_r. apply surjective_pairing.
    + intros X. split; [intros _; exact X|]. destruct (view_eof delta w1 I2 X) as [Q _]. rewrite Q, app_nil_r. split; [exists (data w1); reflexivity|apply Z.le_refl].
    + intros _ _ F _. split; [exact B|]. unfold fits, used in *. unfold w'. ws. rewrite C1 in F. exact F.
  - exists false, w1. split; [reflexivity|]. split; [exact B|]. split; [exact M1|]. congruence.
Qed.
Lemma put_ok d delta w : inv w -> ok w = true -> link delta w -> zlen d <= available w ->
  exists w', put d w = Some (tt, w') /\ ok w' = true /\ moves True delta w d w'.
Proof.
  intros I1 O L AV. pose proof (i_cur w I1) as IC. pose proof (i_written w I1) as IW. pose proof (i_buf w I1) as IB. pose proof (data_len w I1) as DL. pose proof (zlen_nonneg d) as D0.
  unfold put. rewrite bind_get. unfold available in AV. rewrite bind_assert by (unfold available, used in *; lia). eexists. split; [reflexivity|]. split; [exact O|].
  set (buf := ztake (w_cur w) (w_buf w) ++ d ++ zdrop (w_cur w + zlen d) (w_buf w)). set (w' := set_buf buf (w_cur w + zlen d) (w_lim w) w).
  assert (ZB : zlen buf = Z.max (w_cur w + zlen d) (zlen (w_buf w))) by (unfold buf; rewrite !zlen_app, zlen_ztake, zlen_zdrop; unfold used in *; lia).
  assert (UW : used w' = Z.max (w_cur w + zlen d) (w_written w)) by reflexivity.
  assert (DW : data w' = ztake (w_cur w) (data w) ++ d ++ zdrop (w_cur w + zlen d) (data w)).
  { unfold data at 1. rewrite UW. unfold w'. ws. unfold buf. rewrite (ztake_app_r _ (ztake _ _)) by (rewrite zlen_ztake; unfold used in *; lia).
    assert (Z1 : zlen (ztake (w_cur w) (w_buf w)) = w_cur w) by (rewrite zlen_ztake; unfold used in *; lia). rewrite Z1.
    rewrite (ztake_app_r _ d) by lia. unfold data. rewrite ztake_ztake, Z.min_l by (unfold used; lia). f_equal. f_equal. rewrite zdrop_ztake by lia.
    destruct (Z.le_gt_cases (w_written w) (w_cur w + zlen d)) as [Q|Q]; [rewrite !ztake_nonpos by (unfold used; lia); reflexivity|]. f_equal. unfold used. lia. }
  assert (I2 : inv w').
  { clear - I1 ZB UW IC AV D0 IB. destruct I1. constructor; unfold ok in *; rewrite ?UW; unfold w'; ws; auto; try lia. unfold used in *. lia. }
  assert (L2 : link delta w') by (clear - L; destruct L; constructor; unfold w'; ws; auto).
  constructor; auto; dz.
  - constructor; auto.
  - intros _. split; [exact L2|]. unfold view. rewrite DW. cbn [fst snd]. unfold w'. ws.
    replace (w_start_pos w + w_cur w + delta) with (w_start_pos w + delta + w_cur w) by lia. rewrite write_at_overlay by (rewrite ?DL; unfold used; pose proof (l_pos _ _ L); lia). f_equal. lia.
  - intros X. split; [intros _; exact X|]. destruct (view_eof delta w I1 X) as [Q _]. rewrite Q, <- app_assoc. unfold w'. ws. split; [eexists; reflexivity|apply Z.le_refl].
  - intros _ NF F H. split; [exact O|]. unfold fits. rewrite UW. unfold w'. ws. unfold fits, used, view in *. cbn [snd] in H. lia.
Qed.
Lemma write_slow_loop_ok delta fuel : forall src w, inv w -> ok w = true -> link delta w -> available w < zlen src ->
  zlen src + (if 0 <? available w then 0 else 1) <= Z.of_nat fuel ->
  exists b w', write_slow_loop fuel src w = Some (b, w') /\ b = ok w' /\ moves True delta w src w'.
Proof.
  induction fuel as [|fuel IH]; intros src w I1 O L AV FU; [pose proof (i_cur w I1); unfold available in AV; destruct (0 <? available w); lia|].
  cbn [write_slow_loop]. rewrite bind_get. set (a := available w) in *. assert (A0 : 0 <= a) by (pose proof (i_cur w I1); unfold a, available; lia).
  destruct (put_ok (ztake a src) delta w I1 O L) as (w1 & E1 & O1 & M1); [rewrite zlen_ztake; fold a; lia|]. rewrite (bind_some _ _ _ _ _ E1).
  pose proof (m_inv _ _ _ _ _ M1) as I2. destruct (m_view _ _ _ _ _ M1 O1) as [L1 V1].
  assert (AV1 : available w1 < 1).
  { revert E1. unfold put. rewrite bind_get. unfold bind, assert. destruct ((_ <=? _) && _); [|discriminate]. intros X. injection X as <-. unfold available. ws. rewrite zlen_ztake. unfold a, available in *. lia. }
  assert (ZD : zlen (zdrop a src) = zlen src - a) by (rewrite zlen_zdrop; lia).
  destruct (PushSlow_ok 1 (zlen (zdrop a src)) delta w1 I2 O1 L1 AV1 ltac:(lia) (zlen_nonneg _)) as (b & w2 & E2 & B2 & M2 & AV2). rewrite (bind_some _ _ _ _ _ E2).
  pose proof (moves_trans _ _ _ _ _ _ _ I1 L O1 M1 M2) as M3. rewrite app_nil_r in M3. pose proof (m_inv _ _ _ _ _ M2) as I3.
  destruct b; cbn [negb]; cbv iota.
  - symmetry in B2. specialize (AV2 B2). rewrite bind_get. destruct (m_view _ _ _ _ _ M3 B2) as [L2 V2]. destruct (available w2 <? zlen (zdrop a src)) eqn:Q.
    + destruct (IH (zdrop a src) w2 I3 B2 L2) as (b & w3 & E3 & B3 & M4); [lia|replace (0 <? available w2) with true by lia; destruct (0 <? a) eqn:Q2; lia|].
      exists b, w3. split; [exact E3|]. split; [exact B3|]. rewrite <- (ztake_zdrop a src). exact (moves_trans _ _ _ _ _ _ _ I1 L B2 M3 M4).
    + destruct (put_ok (zdrop a src) delta w2 I3 B2 L2) as (w3 & E3 & O3 & M4); [lia|]. rewrite (bind_some _ _ _ _ _ E3). exists true, w3. split; [reflexivity|]. split; [auto|].
      rewrite <- (ztake_zdrop a src). exact (moves_trans _ _ _ _ _ _ _ I1 L B2 M3 M4).
  - exists false, w2. split; [reflexivity|]. split; [exact B2|]. symmetry in B2. apply moves_failed; auto; dz.
    + exact (m_frame _ _ _ _ _ M3).
    + intros X. destruct (m_eof _ _ _ _ _ M3 X) as (_ & (t & T) & Z1). split; [|exact Z1]. exists (t ++ zdrop a src). rewrite app_assoc, <- T, <- app_assoc, ztake_zdrop. reflexivity.
    + exact (m_nofail _ _ _ _ _ M3).
    + intros _ N F H. destruct (m_live _ _ _ _ _ M3 Logic.I N F) as [X _]; [|congruence]. rewrite zlen_ztake. lia.
Qed.
Lemma Write_ok src : writes (Write src) src.
Proof.
  intros delta w I1 O L. unfold Write. rewrite bind_get. destruct (zlen src <=? available w) eqn:Q.
  - destruct (put_ok src delta w I1 O L) as (w1 & E1 & O1 & M1); [lia|]. rewrite (bind_some _ _ _ _ _ E1). exists true, w1. split; [reflexivity|]. split; [auto|exact M1].
  - unfold WriteSlow. rewrite bind_get, bind_assert by lia. rewrite (bind_some _ _ _ _ _ (get_pos_ok w I1)).
    pose proof (i_cur w I1) as IC. pose proof (i_base w I1) as IB.
    destruct (ws_BufferLength_ok (w_sizer w) (w_start_pos w + w_cur w) 0 0 (i_sizer w I1)) as (n & EN & N1 & N2); [lia|lia|lia|]. rewrite (bind_of_option _ _ _ _ EN).
    destruct (n <=? zlen src) eqn:Q2.
    + destruct (SyncBuffer_ok delta w I1 O L) as (b & w1 & E & B & M1 & EB1 & S1 & ST1). rewrite (bind_some _ _ _ _ _ E). pose proof (m_inv _ _ _ _ _ M1) as I2.
      destruct b; cbn [negb]; cbv iota.
      * rewrite bind_get, <- B. cbn [negb]; cbv iota. symmetry in B. destruct (m_view _ _ _ _ _ M1 B) as [L1 V1].
        destruct (WriteInternal_ok delta src w1 I2 B L1 EB1) as (b & w2 & E2 & B2 & M2 & _); [intros ->; change (zlen (@nil Z)) with 0 in Q; unfold available in Q; lia|].
        exists b, w2. split; [exact E2|]. split; [exact B2|]. exact (moves_trans _ _ _ [] _ _ _ I1 L B M1 M2).
      * exists false, w1. split; [reflexivity|]. split; [exact B|]. symmetry in B. apply moves_failed; auto; dz.
        -- exact (m_frame _ _ _ _ _ M1).
        -- intros X. destruct (m_eof _ _ _ _ _ M1 X) as (_ & (t & T) & Z1). split; [|exact Z1]. exists (t ++ src). rewrite app_assoc, <- T, app_nil_r. reflexivity.
        -- exact (m_nofail _ _ _ _ _ M1).
        -- intros _ N F H. destruct (m_live _ _ _ _ _ M1 Logic.I N F) as [X _]; [|congruence]. change (zlen (@nil Z)) with 0. pose proof (zlen_nonneg src). lia.
    + apply write_slow_loop_ok; auto; [lia|]. unfold zlen. destruct (0 <? available w); lia.
Qed.
(** A prefix of what was to be written was written and then the writer failed. *)
Lemma moves_failed_early delta w d1 d2 w' : moves True delta w d1 w' -> ok w' = false -> moves True delta w (d1 ++ d2) w'.
Proof.
  intros M1 O. apply moves_failed; auto; dz.
  - exact (m_inv _ _ _ _ _ M1).
  - exact (m_frame _ _ _ _ _ M1).
  - intros X. destruct (m_eof _ _ _ _ _ M1 X) as (_ & (t & T) & Z1). split; [|exact Z1]. exists (t ++ d2). rewrite !app_assoc, T. reflexivity.
  - exact (m_nofail _ _ _ _ _ M1).
  - intros _ N F H. destruct (m_live _ _ _ _ _ M1 Logic.I N F) as [X _]; [|congruence]. rewrite zlen_app in H. pose proof (zlen_nonneg d2). lia.
Qed.
Lemma writes_bind f d (g : bool -> M bool) d2 : writes f d -> (forall w, g false w = Some (false, w)) -> writes (g true) d2 -> writes (bind f g) (d ++ d2).
Proof.
  intros F G1 G2 delta w I1 O L. destruct (F delta w I1 O L) as (b & w1 & E1 & B1 & M1). rewrite (bind_some _ _ _ _ _ E1). destruct b; symmetry in B1.
  - destruct (m_view _ _ _ _ _ M1 B1) as [L1 _]. destruct (G2 delta w1 (m_inv _ _ _ _ _ M1) B1 L1) as (b & w2 & E2 & B2 & M2). exists b, w2. split; [exact E2|]. split; [exact B2|].
    exact (moves_trans _ _ _ _ _ _ _ I1 L B1 M1 M2).
  - exists false, w1. rewrite G1. split; [reflexivity|]. split; [auto|]. apply moves_failed_early; assumption.
Qed.
Lemma writes_ret : writes (ret true) [].
Proof. intros delta w I1 O L. exists true, w. split; [reflexivity|]. split; [auto|]. apply moves_refl; assumption. Qed.
Lemma Push_ok min rec delta w : inv w -> ok w = true -> link delta w -> 0 <= min <= 2 ^ 63 -> 0 <= rec ->
  exists b w', Push min rec w = Some (b, w') /\ b = ok w' /\ moves True delta w [] w' /\ (ok w' = true -> min <= available w').
Proof.
  intros I1 O L MN RC. unfold Push. rewrite bind_get. destruct (min <=? available w) eqn:Q.
  - exists true, w. split; [reflexivity|]. split; [auto|]. split; [apply moves_refl; assumption|lia].
  - destruct (PushSlow_ok min rec delta w I1 O L) as (b & w1 & E & B & M1 & A); [lia|exact MN|exact RC|]. rewrite (bind_some _ _ _ _ _ E), bind_get. exists b, w1.
    destruct b; cbn [negb]; cbv iota.
    + rewrite bind_assert by (specialize (A (eq_sym B)); lia). split; [reflexivity|]. auto.
    + split; [reflexivity|]. auto.
Qed.
Definition push_and_put (min rec : Z) (src : list Z) : M bool := pushed <- Push min rec; if negb pushed then ret false else put src;; ret true.
Lemma push_and_put_ok min rec src : 0 <= min <= 2 ^ 63 -> 0 <= rec -> zlen src <= min -> writes (push_and_put min rec src) src.
Proof.
  intros MN RC S1 delta w I1 O L. unfold push_and_put. destruct (Push_ok min rec delta w I1 O L MN RC) as (b & w1 & E & B & M1 & A). rewrite (bind_some _ _ _ _ _ E).
  destruct b; cbn [negb]; cbv iota; symmetry in B.
  - destruct (m_view _ _ _ _ _ M1 B) as [L1 _]. destruct (put_ok src delta w1 (m_inv _ _ _ _ _ M1) B L1) as (w2 & E2 & O2 & M2); [specialize (A B); lia|].
    rewrite (bind_some _ _ _ _ _ E2). exists true, w2. split; [reflexivity|]. split; [auto|]. exact (moves_trans _ _ _ [] _ _ _ I1 L B M1 M2).
  - exists false, w1. split; [reflexivity|]. split; [auto|]. exact (moves_failed_early delta w [] src w1 M1 B).
Qed.
Lemma WriteChar_ok c : writes (WriteChar c) [c].
Proof. apply (push_and_put_ok 1 0 [c]); [lia|lia|]. change (zlen [c]) with 1. lia. Qed.
Lemma WriteExternal_ok src : writes (WriteExternal src) src.
Proof.
  intros delta w I1 O L. unfold WriteExternal. rewrite bind_get. destruct ((zlen src <=? available w) && (zlen src <=? kMaxBytesToCopy)) eqn:Q.
  - destruct (put_ok src delta w I1 O L) as (w1 & E1 & O1 & M1); [lia|]. rewrite (bind_some _ _ _ _ _ E1). exists true, w1. split; [reflexivity|]. split; [auto|exact M1].
  - rewrite bind_assert by lia. apply Write_ok; assumption.
Qed.
Lemma write_fragments_ok l : writes (write_fragments l) (concat l).
Proof.
  induction l as [|s l IH]; [exact writes_ret|]. cbn [write_fragments concat]. apply (writes_bind (Write s) s (fun result => if negb result then ret false else write_fragments l)); [apply Write_ok|reflexivity|exact IH].
Qed.
Lemma WriteChain_ok l : writes (WriteChain l) (concat l).
Proof.
  intros delta w I1 O L. unfold WriteChain. rewrite bind_get. destruct ((zlen (concat l) <=? available w) && (zlen (concat l) <=? kMaxBytesToCopy)) eqn:Q.
  - destruct (put_ok (concat l) delta w I1 O L) as (w1 & E1 & O1 & M1); [lia|]. rewrite (bind_some _ _ _ _ _ E1). exists true, w1. split; [reflexivity|]. split; [auto|exact M1].
  - rewrite bind_assert by lia. apply write_fragments_ok; assumption.
Qed.
Lemma WriteSlowFill_ok n fill : 0 <= n < 2 ^ 64 -> writes (WriteSlowFill n fill) (repeat fill (Z.to_nat n)).
Proof.
  intros N delta w I1 O L. unfold WriteSlowFill. destruct (iterate_blocks_ok n fill N) as (bs & E & C & _). rewrite (bind_of_option _ _ _ _ E), <- C. apply write_fragments_ok; assumption.
Qed.
