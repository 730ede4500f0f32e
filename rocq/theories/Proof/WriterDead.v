(** What the functions do on a writer which has failed or which is closed: nothing is written, and no assertion fails. *)
From Verif Require Import Base.Bytes Spec.PosixFile Model.BufferSizer Model.ByteFill Model.BufferedWriter Proof.PosixProof Proof.BufferSizerProof Proof.ByteFillProof
  Proof.WriterLemmas Proof.WriterSteps Proof.WriterCalls.
Notation file w := (f_content (w_fd w)).
Notation kMax := kMaxFdPosition.

Lemma inv_set_sizer w s : inv w -> write_sizer_ok s -> ws_base_pos s <= w_start_pos w -> inv (set_sizer s w).
Proof. intros [] S1 B. constructor; unfold used, ok in *; ws; auto. Qed.
Lemma end_run_ok w : inv w -> exists s, end_run w = Some (tt, set_sizer s w) /\ inv (set_sizer s w).
Proof.
  intros I1. unfold end_run. rewrite bind_get. pose proof (i_base w I1). pose proof (i_cur w I1).
  destruct (ws_EndRun_ok (w_sizer w) (w_start_pos w + Z.max (w_cur w) (w_written w)) (i_sizer w I1)) as (s & E & S1 & S2); [lia|].
  rewrite (bind_of_option _ _ _ _ E). exists s. split; [reflexivity|]. apply inv_set_sizer; auto. lia.
Qed.
Lemma begin_run_ok w : core w -> begin_run w = Some (tt, set_sizer (ws_BeginRun (w_start_pos w) (w_sizer w)) w) /\ inv (set_sizer (ws_BeginRun (w_start_pos w) (w_sizer w)) w).
Proof. intros C. split; [reflexivity|exact C]. Qed.

Record dead (w w' : writer) : Prop := {
  d_inv : inv w'; d_ok : ok w' = false; d_file : file w' = file w; d_start : w_start_pos w' = w_start_pos w; d_written : w_written w' = 0 \/ w_written w' = w_written w;
  d_random : w_random w' = w_random w; d_nofail : nofail w -> nofail w'; d_failed : w_failed w = true -> w_failed w' = true; d_frame : frame w w' }.
Definition refuses {A} (f : M A) : Prop := forall w, inv w -> ok w = false -> exists a w', f w = Some (a, w') /\ dead w w'.
Lemma dead_refl w : inv w -> ok w = false -> dead w w.
Proof. intros I1 O. constructor; auto using frame_refl. Qed.
Lemma dead_trans a b c : dead a b -> dead b c -> dead a c.
Proof. intros [A1 A2 A3 A4 A5 A6 A7 A8 A9] [B1 B2 B3 B4 B5 B6 B7 B8 B9]. constructor; auto; try congruence; [|exact (frame_trans _ _ _ A9 B9)]. destruct B5 as [B5|B5]; [left; exact B5|rewrite B5; exact A5]. Qed.
Lemma refuses_bind {A B} (f : M A) (g : A -> M B) : refuses f -> (forall a, refuses (g a)) -> refuses (bind f g).
Proof.
  intros F G w I1 O. destruct (F w I1 O) as (a & w1 & E1 & D1). rewrite (bind_some _ _ _ _ _ E1). destruct (G a w1 (d_inv _ _ D1) (d_ok _ _ D1)) as (b & w2 & E2 & D2).
  exists b, w2. split; [exact E2|]. exact (dead_trans _ _ _ D1 D2).
Qed.
Lemma refuses_ret {A} (a : A) : refuses (ret a).
Proof. intros w I1 O. exists a, w. split; [reflexivity|]. apply dead_refl; assumption. Qed.
Lemma dead_cur w : inv w -> ok w = false -> w_cur w = 0 /\ w_lim w = 0.
Proof. intros I1 O. pose proof (i_notok w I1 O). pose proof (i_cur w I1). lia. Qed.
Lemma dead_sizer w s : inv w -> ok w = false -> inv (set_sizer s w) -> dead w (set_sizer s w).
Proof. intros I1 O I2. constructor; auto. constructor; auto. Qed.
Lemma dead_emptied w : inv w -> ok w = false -> dead w (emptied w).
Proof. intros I1 O. constructor; auto; [|apply emptied_frame]. apply emptied_inv. exact I1. Qed.

Lemma dead_put_nil w : inv w -> ok w = false -> exists w', put [] w = Some (tt, w') /\ dead w w'.
Proof.
  intros I1 O. destruct (dead_cur w I1 O) as [C L]. unfold put. rewrite bind_get. unfold available. rewrite C, L. change (zlen (@nil Z)) with 0. pose proof (zlen_nonneg (w_buf w)).
  rewrite bind_assert by lia. eexists. split; [reflexivity|]. rewrite ztake_nonpos, zdrop_nonpos by lia. cbn [app Z.add].
  constructor; auto; [|constructor; auto]. destruct I1. constructor; unfold used, ok in *; ws; auto; lia.
Qed.
Lemma dead_take w : inv w -> ok w = false -> take_buffer w = Some ((data w, w_start_pos w), emptied w) /\ dead w (emptied w).
Proof. intros I1 O. rewrite take_buffer_ok by exact I1. destruct (dead_cur w I1 O) as [-> _]. rewrite Z.add_0_r. split; [reflexivity|apply dead_emptied; assumption]. Qed.
Lemma dead_SyncBuffer w : inv w -> ok w = false -> exists b, SyncBuffer w = Some (b, emptied w) /\ dead w (emptied w).
Proof.
  intros I1 O. destruct (dead_take w I1 O) as [E D]. unfold SyncBuffer. rewrite (bind_some _ _ _ _ _ E). cbv beta iota. destruct (data w).
  - exists true. split; [reflexivity|exact D].
  - rewrite bind_get. change (ok (emptied w)) with (ok w). rewrite O. exists false. split; [reflexivity|exact D].
Qed.
Lemma dead_PushSlow min rec w : inv w -> ok w = false -> 0 < min -> exists w', PushSlow min rec w = Some (false, w') /\ dead w w'.
Proof.
  intros I1 O M. destruct (dead_cur w I1 O) as [C L]. unfold PushSlow. rewrite bind_get, bind_assert by (unfold available; lia).
  destruct (dead_SyncBuffer w I1 O) as (b & E & D). rewrite (bind_some _ _ _ _ _ E). exists (emptied w). destruct b; cbn [negb]; cbv iota; [|split; [reflexivity|exact D]].
  rewrite bind_get. change (ok (emptied w)) with (ok w). rewrite O. split; [reflexivity|exact D].
Qed.
Lemma dead_Push min rec w : inv w -> ok w = false -> exists w', Push min rec w = Some (min <=? 0, w') /\ dead w w'.
Proof.
  intros I1 O. destruct (dead_cur w I1 O) as [C L]. unfold Push. rewrite bind_get. unfold available. rewrite C, L. change (0 - 0) with 0. destruct (min <=? 0) eqn:Q.
  - exists w. split; [reflexivity|apply dead_refl; assumption].
  - destruct (dead_PushSlow min rec w I1 O) as (w' & E & D); [lia|]. rewrite (bind_some _ _ _ _ _ E), bind_get. exists w'. split; [reflexivity|exact D].
Qed.
Lemma dead_push_and_put min rec src : zlen src <= min -> refuses (push_and_put min rec src).
Proof.
  intros S1 w I1 O. unfold push_and_put. destruct (dead_Push min rec w I1 O) as (w1 & E & D). rewrite (bind_some _ _ _ _ _ E). destruct (min <=? 0) eqn:Q; cbn [negb]; cbv iota.
  - destruct src as [|x src]; [|rewrite zlen_cons in S1; pose proof (zlen_nonneg src); lia]. destruct (dead_put_nil w1 (d_inv _ _ D) (d_ok _ _ D)) as (w2 & E2 & D2).
    rewrite (bind_some _ _ _ _ _ E2). exists true, w2. split; [reflexivity|exact (dead_trans _ _ _ D D2)].
  - exists false, w1. split; [reflexivity|exact D].
Qed.
Lemma dead_Write src w : inv w -> ok w = false -> exists w', Write src w = Some (zlen src <=? 0, w') /\ dead w w'.
Proof.
  intros I1 O. destruct (dead_cur w I1 O) as [C L]. unfold Write. rewrite bind_get. unfold available. rewrite C, L. change (0 - 0) with 0. destruct (zlen src <=? 0) eqn:Q.
  - destruct src as [|x src]; [|rewrite zlen_cons in Q; pose proof (zlen_nonneg src); lia]. destruct (dead_put_nil w I1 O) as (w2 & E2 & D2).
    rewrite (bind_some _ _ _ _ _ E2). exists w2. split; [reflexivity|exact D2].
  - unfold WriteSlow. rewrite bind_get. unfold available at 1. rewrite C, L. rewrite bind_assert by lia. rewrite (bind_some _ _ _ _ _ (get_pos_ok w I1)).
    pose proof (i_base w I1). destruct (ws_BufferLength_ok (w_sizer w) (w_start_pos w + w_cur w) 0 0 (i_sizer w I1)) as (n & EN & _ & _); [lia|lia|lia|]. rewrite (bind_of_option _ _ _ _ EN).
    destruct (n <=? zlen src).
    + destruct (dead_SyncBuffer w I1 O) as (b & E & D). rewrite (bind_some _ _ _ _ _ E). exists (emptied w). destruct b; cbn [negb]; cbv iota; [|split; [reflexivity|exact D]].
      rewrite bind_get. change (ok (emptied w)) with (ok w). rewrite O. split; [reflexivity|exact D].
    + cbn [write_slow_loop]. rewrite bind_get. unfold available at 1. rewrite C, L. rewrite (ztake_nonpos (0 - 0)) by lia. destruct (dead_put_nil w I1 O) as (w2 & E2 & D2).
      rewrite (bind_some _ _ _ _ _ E2). unfold available. rewrite C, L. rewrite (zdrop_nonpos (0 - 0)) by lia.
      destruct (dead_PushSlow 1 (zlen src) w2 (d_inv _ _ D2) (d_ok _ _ D2)) as (w3 & E3 & D3); [lia|]. rewrite (bind_some _ _ _ _ _ E3). exists w3. split; [reflexivity|exact (dead_trans _ _ _ D2 D3)].
Qed.
Lemma dead_write_fragments l : forall w, inv w -> ok w = false -> exists w', write_fragments l w = Some (zlen (concat l) <=? 0, w') /\ dead w w'.
Proof.
  induction l as [|s l IH]; intros w I1 O.
  - exists w. split; [reflexivity|apply dead_refl; assumption].
  - cbn [write_fragments concat]. destruct (dead_Write s w I1 O) as (w1 & E1 & D1). rewrite (bind_some _ _ _ _ _ E1). rewrite zlen_app. pose proof (zlen_nonneg s). pose proof (zlen_nonneg (concat l)).
    destruct (zlen s <=? 0) eqn:Q; cbn [negb]; cbv iota.
    + destruct (IH w1 (d_inv _ _ D1) (d_ok _ _ D1)) as (w2 & E2 & D2). exists w2. rewrite E2. split; [do 2 f_equal; lia|exact (dead_trans _ _ _ D1 D2)].
    + exists w1. split; [cbv [ret]; do 2 f_equal; lia|exact D1].
Qed.
Lemma refuses_Write src : refuses (Write src).
Proof. intros w I1 O. destruct (dead_Write src w I1 O) as (w' & E & D). eexists _, w'. split; [exact E|exact D]. Qed.
Lemma refuses_WriteExternal src : refuses (WriteExternal src).
Proof.
  intros w I1 O. destruct (dead_cur w I1 O) as [C L]. unfold WriteExternal. rewrite bind_get. unfold available. rewrite C, L. change (0 - 0) with 0. pose proof (zlen_nonneg src).
  destruct ((zlen src <=? 0) && (zlen src <=? kMaxBytesToCopy)) eqn:Q.
  - destruct src as [|x src]; [|rewrite zlen_cons in Q; pose proof (zlen_nonneg src); lia]. destruct (dead_put_nil w I1 O) as (w2 & E2 & D2).
    rewrite (bind_some _ _ _ _ _ E2). eexists _, w2. split; [reflexivity|exact D2].
  - rewrite bind_assert by (unfold kMaxBytesToCopy in *; lia). apply refuses_Write; assumption.
Qed.
Lemma refuses_WriteChain l : refuses (WriteChain l).
Proof.
  intros w I1 O. destruct (dead_cur w I1 O) as [C L]. unfold WriteChain. rewrite bind_get. unfold available. rewrite C, L. change (0 - 0) with 0. pose proof (zlen_nonneg (concat l)).
  destruct ((zlen (concat l) <=? 0) && (zlen (concat l) <=? kMaxBytesToCopy)) eqn:Q.
  - destruct (concat l) as [|x src]; [|rewrite zlen_cons in Q; pose proof (zlen_nonneg src); lia]. destruct (dead_put_nil w I1 O) as (w2 & E2 & D2).
    rewrite (bind_some _ _ _ _ _ E2). eexists _, w2. split; [reflexivity|exact D2].
  - rewrite bind_assert by (unfold kMaxBytesToCopy in *; lia). destruct (dead_write_fragments l w I1 O) as (w' & E & D). eexists _, w'. split; [exact E|exact D].
Qed.
Lemma dead_WriteSlowFill n fill w : inv w -> ok w = false -> 0 <= n < 2 ^ 64 -> exists w', WriteSlowFill n fill w = Some (n <=? 0, w') /\ dead w w'.
Proof.
  intros I1 O N. unfold WriteSlowFill. destruct (iterate_blocks_ok n fill N) as (bs & E & C & _). rewrite (bind_of_option _ _ _ _ E).
  destruct (dead_write_fragments bs w I1 O) as (w' & E1 & D). exists w'. rewrite E1, C. unfold zlen. rewrite repeat_length. split; [do 2 f_equal; lia|exact D].
Qed.
Lemma dead_random w : inv w -> ok w = false -> exists b, SupportsRandomAccess w = Some (b, w) /\ (b = true -> w_random w = Some true).
Proof.
  intros I1 O. unfold SupportsRandomAccess. rewrite bind_get. destruct (w_random w) as [r|]; [exists r; split; [reflexivity|intros ->; reflexivity]|].
  rewrite O. exists false. split; [reflexivity|discriminate].
Qed.
Lemma refuses_SupportsRandomAccess : refuses SupportsRandomAccess.
Proof. intros w I1 O. destruct (dead_random w I1 O) as (b & E & _). exists b, w. split; [exact E|apply dead_refl; assumption]. Qed.
Lemma refuses_Fail : refuses Fail.
Proof.
  intros w I1 O. unfold Fail. rewrite bind_get. destruct (w_failed w) eqn:F; [exists false, w; split; [reflexivity|apply dead_refl; assumption]|].
  assert (OP : w_open w = false) by (clear - O F; unfold ok in O; rewrite F in O; destruct (w_open w); [discriminate|reflexivity]). rewrite OP.
  rewrite bind_modify, bind_ret, bind_modify. eexists false, _. split; [reflexivity|]. destruct (dead_cur w I1 O) as [C L].
  constructor; auto; [|constructor; auto]. destruct I1. constructor; unfold used, ok in *; ws; auto; lia.
Qed.
Lemma dead_end_run w : inv w -> ok w = false -> exists s, end_run w = Some (tt, set_sizer s w) /\ dead w (set_sizer s w).
Proof. intros I1 O. destruct (end_run_ok w I1) as (s & E & I2). exists s. split; [exact E|apply dead_sizer; assumption]. Qed.
Lemma dead_begin_run w : inv w -> ok w = false -> exists s, begin_run w = Some (tt, set_sizer s w) /\ dead w (set_sizer s w).
Proof. intros I1 O. eexists. split; [reflexivity|]. apply dead_sizer; auto. exact (core_of_inv w I1). Qed.
Lemma dead_FlushBehindBuffer src w : inv w -> ok w = false -> FlushBehindBuffer src w = Some (false, w).
Proof. intros I1 O. destruct (dead_cur w I1 O) as [C L]. unfold FlushBehindBuffer. rewrite bind_get, bind_assert, O by lia. reflexivity. Qed.
Lemma dead_SizeBehindBuffer w : inv w -> ok w = false -> SizeBehindBuffer w = Some (None, w).
Proof.
  intros I1 O. destruct (dead_cur w I1 O) as [C L]. unfold SizeBehindBuffer. rewrite bind_get, bind_assert by lia. destruct (dead_random w I1 O) as (b & E & _).
  rewrite (bind_some _ _ _ _ _ E), bind_get, O. destruct b; reflexivity.
Qed.
Lemma dead_TruncateBehindBuffer n w : inv w -> ok w = false -> TruncateBehindBuffer n w = Some (false, w).
Proof. intros I1 O. destruct (dead_cur w I1 O) as [C L]. unfold TruncateBehindBuffer. rewrite bind_get, bind_assert by lia. rewrite O. reflexivity. Qed.
Lemma dead_SeekBehindBuffer p w : inv w -> ok w = false -> p <> w_start_pos w -> SeekBehindBuffer p w = Some (false, w).
Proof.
  intros I1 O P. destruct (dead_cur w I1 O) as [C L]. unfold SeekBehindBuffer. rewrite (bind_some _ _ _ _ _ (get_pos_ok w I1)), bind_get. rewrite bind_assert by lia.
  destruct (dead_random w I1 O) as (b & E & _). rewrite (bind_some _ _ _ _ _ E), bind_get, O. destruct b; reflexivity.
Qed.
Lemma refuses_Size : refuses Size.
Proof.
  intros w I1 O. unfold Size. destruct (dead_end_run w I1 O) as (s & E1 & D1). rewrite (bind_some _ _ _ _ _ E1). destruct (dead_SyncBuffer _ (d_inv _ _ D1) (d_ok _ _ D1)) as (b & E2 & D2).
  rewrite (bind_some _ _ _ _ _ E2). pose proof (dead_trans _ _ _ D1 D2) as D3. destruct b; cbn [negb]; cbv iota; [|eexists _, _; split; [reflexivity|exact D3]].
  rewrite (bind_some _ _ _ _ _ (dead_SizeBehindBuffer _ (d_inv _ _ D2) (d_ok _ _ D2))). eexists _, _. split; [reflexivity|exact D3].
Qed.
Lemma refuses_WriteFill n fill : 0 <= n < 2 ^ 64 -> refuses (WriteFill n fill).
Proof.
  intros N w I1 O. destruct (dead_cur w I1 O) as [C L]. unfold WriteFill. rewrite bind_get. unfold available. rewrite C, L. change (0 - 0) with 0.
  destruct ((n <=? 0) && (n <=? kMaxBytesToCopy)) eqn:Q.
  - replace (Z.to_nat n) with 0%nat by lia. cbn [repeat]. destruct (dead_put_nil w I1 O) as (w2 & E2 & D2). rewrite (bind_some _ _ _ _ _ E2). eexists _, w2. split; [reflexivity|exact D2].
  - rewrite bind_assert by (unfold kMaxBytesToCopy in *; lia).
    assert (A : exists r, (if negb (fill =? 0) then ret false else SupportsRandomAccess) w = Some (r, w)).
    { destruct (fill =? 0); cbn [negb]; cbv iota; [|exists false; reflexivity]. destruct (dead_random w I1 O) as (b & E & _). exists b. exact E. }
    destruct A as (r & E). rewrite (bind_some _ _ _ _ _ E). destruct r; cbn [negb]; cbv iota.
    + destruct (refuses_Size w I1 O) as (s & w1 & E1 & D1).
      assert (X : s = None).
      { clear - E1 I1 O. unfold Size in E1. destruct (dead_end_run w I1 O) as (s1 & E2 & D1). rewrite (bind_some _ _ _ _ _ E2) in E1. destruct (dead_SyncBuffer _ (d_inv _ _ D1) (d_ok _ _ D1)) as (b & E3 & D2).
        rewrite (bind_some _ _ _ _ _ E3) in E1. destruct b; cbn [negb] in E1; cbv iota in E1; [|cbv [ret] in E1; congruence].
        rewrite (bind_some _ _ _ _ _ (dead_SizeBehindBuffer _ (d_inv _ _ D2) (d_ok _ _ D2))) in E1. cbv [ret] in E1. congruence. }
      rewrite (bind_some _ _ _ _ _ E1), X. eexists _, w1. split; [reflexivity|exact D1].
    + destruct (dead_WriteSlowFill n fill w I1 O N) as (w1 & E1 & D1). eexists _, w1. split; [exact E1|exact D1].
Qed.
Lemma refuses_Flush m : refuses (Flush m).
Proof.
  intros w I1 O. unfold Flush. destruct (dead_end_run w I1 O) as (s & E1 & D1). rewrite (bind_some _ _ _ _ _ E1). destruct (dead_take _ (d_inv _ _ D1) (d_ok _ _ D1)) as (E2 & D2).
  rewrite (bind_some _ _ _ _ _ E2). cbv beta iota. rewrite (bind_some _ _ _ _ _ (dead_FlushBehindBuffer _ _ (d_inv _ _ D2) (d_ok _ _ D2))). cbn [negb]. eexists _, _. split; [reflexivity|exact (dead_trans _ _ _ D1 D2)].
Qed.
Definition seek_tail (p : Z) : M bool :=
  end_run;; synced <- SyncBuffer; if negb synced then ret false else result <- SeekBehindBuffer p; begin_run;; ret result.
Lemma dead_seek_tail p w : inv w -> ok w = false -> p <> w_start_pos w -> exists w', seek_tail p w = Some (false, w') /\ dead w w'.
Proof.
  intros I1 O Q. unfold seek_tail.
  destruct (dead_end_run w I1 O) as (s & E1 & D1). rewrite (bind_some _ _ _ _ _ E1). destruct (dead_SyncBuffer _ (d_inv _ _ D1) (d_ok _ _ D1)) as (b & E2 & D2).
  rewrite (bind_some _ _ _ _ _ E2). pose proof (dead_trans _ _ _ D1 D2) as D3. destruct b; cbn [negb]; cbv iota; [|eexists; split; [reflexivity|exact D3]].
  assert (P : p <> w_start_pos (emptied (set_sizer s w))) by (change (p <> w_start_pos w); lia). rewrite (bind_some _ _ _ _ _ (dead_SeekBehindBuffer p _ (d_inv _ _ D2) (d_ok _ _ D2) P)).
  destruct (dead_begin_run _ (d_inv _ _ D2) (d_ok _ _ D2)) as (s2 & E3 & D4). rewrite (bind_some _ _ _ _ _ E3). eexists. split; [reflexivity|exact (dead_trans _ _ _ D3 D4)].
Qed.
(** An assertion fails *)
Lemma dead_seek_tail_start w : inv w -> ok w = false -> w_written w = 0 -> seek_tail (w_start_pos w) w = None.
Proof.
  intros I1 O W. destruct (dead_cur w I1 O) as [C L]. unfold seek_tail.
  destruct (dead_end_run w I1 O) as (s & E1 & D1). rewrite (bind_some _ _ _ _ _ E1). pose proof (d_inv _ _ D1) as I2.
  assert (E : SyncBuffer (set_sizer s w) = Some (true, emptied (set_sizer s w))).
  { unfold SyncBuffer. rewrite (bind_some _ _ _ _ _ (take_buffer_ok _ I2)). cbv beta iota. unfold data, used. ws. rewrite C, W. rewrite ztake_nonpos by lia. reflexivity. }
  rewrite (bind_some _ _ _ _ _ E). cbn [negb]; cbv iota. pose proof (emptied_inv _ I2) as I3.
  assert (N : SeekBehindBuffer (w_start_pos w) (emptied (set_sizer s w)) = None).
  { unfold SeekBehindBuffer. rewrite (bind_some _ _ _ _ _ (get_pos_ok _ I3)), bind_get. change (w_start_pos (emptied (set_sizer s w)) + w_cur (emptied (set_sizer s w))) with (w_start_pos w + 0).
    rewrite Z.add_0_r, Z.eqb_refl. reflexivity. }
  unfold bind. rewrite N. reflexivity.
Qed.
(** If Fail() was called with the cursor moved back in the buffer then Seek() forward fails an assertion. *)
Lemma refuses_Seek p w : inv w -> ok w = false -> (exists b w', Seek p w = Some (b, w') /\ dead w w') \/ (Seek p w = None /\ w_written w <> 0).
Proof.
  intros I1 O. destruct (dead_cur w I1 O) as [C L]. unfold Seek. rewrite (bind_some _ _ _ _ _ (get_pos_ok w I1)). rewrite C, Z.add_0_r. destruct (p =? w_start_pos w) eqn:Q.
  { left. exists true, w. split; [reflexivity|apply dead_refl; assumption]. }
  destruct (dead_random w I1 O) as (r & E & R). rewrite (bind_some _ _ _ _ _ E), bind_get. rewrite C.
  destruct (r && (w_start_pos w <=? p) && (p <=? w_start_pos w + Z.max 0 (w_written w))) eqn:Q2.
  - right. split; [|lia]. rewrite bind_modify. unfold bind, assert. replace ((0 <=? p - w_start_pos w) && (p - w_start_pos w <=? w_lim w)) with false by lia. reflexivity.
  - left. destruct (dead_seek_tail p w I1 O) as (w' & E' & D); [lia|]. exists false, w'. split; [exact E'|exact D].
Qed.
Lemma refuses_Truncate n : refuses (Truncate n).
Proof.
  intros w I1 O. unfold Truncate. destruct (dead_end_run w I1 O) as (s & E1 & D1). rewrite (bind_some _ _ _ _ _ E1). destruct (dead_SyncBuffer _ (d_inv _ _ D1) (d_ok _ _ D1)) as (b & E2 & D2).
  rewrite (bind_some _ _ _ _ _ E2). pose proof (dead_trans _ _ _ D1 D2) as D3. destruct b; cbn [negb]; cbv iota; [|eexists _, _; split; [reflexivity|exact D3]].
  rewrite (bind_some _ _ _ _ _ (dead_TruncateBehindBuffer n _ (d_inv _ _ D2) (d_ok _ _ D2))).
  destruct (dead_begin_run _ (d_inv _ _ D2) (d_ok _ _ D2)) as (s2 & E3 & D4). rewrite (bind_some _ _ _ _ _ E3). eexists _, _. split; [reflexivity|exact (dead_trans _ _ _ D3 D4)].
Qed.
Lemma set_hint_ok hint w : inv w -> SetWriteSizeHint hint w = Some (tt, set_sizer (ws_set_write_size_hint (w_start_pos w + w_cur w) hint (w_sizer w)) w) /\
  inv (set_sizer (ws_set_write_size_hint (w_start_pos w + w_cur w) hint (w_sizer w)) w).
Proof.
  intros I1. unfold SetWriteSizeHint. rewrite (bind_some _ _ _ _ _ (get_pos_ok w I1)). split; [reflexivity|]. apply inv_set_sizer; [exact I1|exact (i_sizer w I1)|exact (i_base w I1)].
Qed.
Lemma refuses_SetWriteSizeHint hint : refuses (SetWriteSizeHint hint).
Proof. intros w I1 O. destruct (set_hint_ok hint w I1) as [E I2]. eexists _, _. split; [exact E|apply dead_sizer; assumption]. Qed.
Lemma set_closed w : inv w -> w_written w = 0 -> w_lim w = 0 -> inv (set_state (w_failed w) false w).
Proof. intros I1 W L. destruct I1. constructor; unfold used, ok in *; ws; auto. Qed.
Lemma dead_Close w : inv w -> ok w = false -> w_open w = true -> exists w', Close w = Some (false, set_state (w_failed w') false w') /\ dead w w' /\ w_written w' = 0.
Proof.
  intros I1 O OP. unfold Close. rewrite bind_get, OP. cbn [negb]; cbv iota.
  destruct (dead_take w I1 O) as (E1 & D1). rewrite (bind_some _ _ _ _ _ E1). cbv beta iota. pose proof (d_inv _ _ D1) as I2.
  rewrite (bind_some _ _ _ _ _ (dead_FlushBehindBuffer _ _ I2 (d_ok _ _ D1))), bind_get. change (w_start_pos (emptied w)) with (w_start_pos w). rewrite Z.eqb_refl. cbn [negb andb]; cbv iota. rewrite bind_ret.
  rewrite (bind_some _ _ _ _ _ (get_pos_ok _ I2)), !bind_modify, bind_get. change (w_start_pos (emptied w) + w_cur (emptied w)) with (w_start_pos w + 0). rewrite Z.add_0_r.
  set (w2 := set_buf [] 0 0 (set_start_pos (w_start_pos w) (emptied w))). assert (F : w_failed w = true) by (clear - O OP; unfold ok in O; rewrite OP in O; destruct (w_failed w); [reflexivity|discriminate]).
  assert (I3 : inv w2) by (clear - I2; destruct I2; constructor; unfold w2, used, ok in *; ws; auto).
  assert (A : exists b f', (if w_owning w2 then closed <- syscall sys_other; if negb closed then Fail else ret true else ret true) w2 = Some (b, set_fd f' w2) /\ f_content f' = file w /\ f_append f' = f_append (w_fd w) /\ (nofail w -> Forall (fun n => 0 < n) (f_calls f'))).
  { destruct (w_owning w2); [|exists true, (w_fd w); split; [reflexivity|split; [reflexivity|split; [reflexivity|auto]]]].
    destruct (sys_other_spec (w_fd w2)) as (b & f' & E & C & A & PP & N). rewrite (bind_syscall _ _ _ _ _ E). destruct b; cbn [negb]; cbv iota.
    - exists true, f'. split; [reflexivity|]. split; [exact C|]. split; [exact A|]. intros NF. apply (N NF).
    - exists false, f'. unfold Fail. rewrite bind_get. change (w_failed (set_fd f' w2)) with (w_failed w). rewrite F. split; [reflexivity|]. split; [exact C|]. split; [exact A|]. intros NF. apply (N NF). }
  destruct A as (b & f' & E & C & A & N). rewrite (bind_some _ _ _ _ _ E), bind_get, bind_modify. exists (set_fd f' w2). split; [|split; [|reflexivity]].
  - change (w_failed (set_fd f' w2)) with (w_failed w). rewrite F. reflexivity.
  - constructor; ws; auto; [|constructor; auto]. apply inv_set_fd; [exact I3|rewrite C; apply I1].
Qed.
