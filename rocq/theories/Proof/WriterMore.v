(** Flush(), Seek(), Truncate() and Close(). *)
From Verif Require Import Base.Bytes Spec.PosixFile Model.BufferSizer Model.ByteFill Model.BufferedWriter Proof.PosixProof Proof.BufferSizerProof Proof.ByteFillProof
  Proof.WriterLemmas Proof.WriterSteps Proof.WriterCalls Proof.WriterDead Proof.WriterSeeks.
Notation file w := (f_content (w_fd w)).
Notation kMax := kMaxFdPosition.

Lemma moves_nil_view P delta w w' : moves P delta w [] w' -> ok w' = true -> link delta w' /\ view delta w' = view delta w.
Proof.
  intros M O. destruct (m_view _ _ _ _ _ M O) as [L V]. split; [exact L|]. rewrite V, write_at_nil. change (zlen (@nil Z)) with 0. rewrite Z.add_0_r. symmetry. apply surjective_pairing.
Qed.
Lemma synced_view P delta w w' : moves P delta w [] w' -> ok w' = true -> empty_buffer w' -> file w' = fst (view delta w) /\ w_start_pos w' = snd (view delta w).
Proof. intros M O E. destruct (moves_nil_view _ _ _ _ M O) as [_ V]. rewrite <- V, (view_empty delta w' E). split; reflexivity. Qed.

Lemma flush_parts delta w : inv w -> ok w = true -> link delta w ->
  exists b w1, FlushBehindBuffer (data w) (emptied w) = Some (b, w1) /\ b = ok w1 /\ inv w1 /\ empty_buffer w1 /\ w_sizer w1 = w_sizer w /\
    (b = false -> moves True delta w [] w1) /\
    (b = true -> w_start_pos w1 = w_start_pos w + w_cur w -> moves True delta w [] w1) /\
    (b = true -> w_start_pos w1 <> w_start_pos w + w_cur w ->
     exists c w2, SeekBehindBuffer (w_start_pos w + w_cur w) w1 = Some (c, w2) /\ c = ok w2 /\ moves True delta w [] w2 /\ empty_buffer w2 /\ w_sizer w2 = w_sizer w).
Proof.
  intros I1 O L. unfold FlushBehindBuffer. rewrite bind_get, bind_assert by reflexivity. change (ok (emptied w)) with (ok w). rewrite O. cbn [negb]; cbv iota.
  destruct (data w) as [|x l] eqn:D.
  - exists true, (emptied w). split; [reflexivity|]. split; [symmetry; exact O|]. split; [apply emptied_inv; exact I1|]. split; [apply emptied_empty|]. split; [reflexivity|].
    destruct (SyncBuffer_ok delta w I1 O L) as (b & w' & E & B & M & EB & SI & ST). unfold SyncBuffer in E. rewrite (bind_some _ _ _ _ _ (take_buffer_ok w I1)) in E. cbv beta iota in E. rewrite D in E.
    cbv [ret] in E. injection E as <- <-. split; [discriminate|]. split; [auto|]. intros _ X. destruct X. exact (ST O).
  - assert (DN : data w <> []) by congruence. destruct (sync_ok delta w I1 O L DN) as (b & w1 & E & B & I2 & FR & EB & SI & RA & M0 & VW & M1 & M2). rewrite D in E. exists b, w1.
    split; [exact E|]. split; [exact B|]. split; [exact I2|]. split; [exact EB|]. split; [exact SI|]. split; [exact M0|]. split; [exact M1|].
    intros H1 H2. destruct (M2 H1 H2) as (c & w2 & E2 & C & M3 & EB3 & SI3 & ST3). exists c, w2. split; [exact E2|]. split; [exact C|]. split; [exact M3|]. split; [exact EB3|exact SI3].
Qed.
Lemma moves_begin P delta w d w' : inv w -> ok w = true -> link delta w -> moves P delta w d w' -> forall s, inv (set_sizer s w') -> moves P delta w d (set_sizer s w').
Proof.
  intros I1 O L M s I2. constructor; auto.
  - destruct (m_frame _ _ _ _ _ M). constructor; ws; auto.
  - intros O'. destruct (m_view _ _ _ _ _ M O') as [L' V]. split; [|exact V]. destruct L'. constructor; ws; auto.
  - exact (m_eof _ _ _ _ _ M).
  - exact (m_nofail _ _ _ _ _ M).
  - exact (m_live _ _ _ _ _ M).
  - exact (m_dead _ _ _ _ _ M).
Qed.
Lemma Flush_ok m delta w : inv w -> ok w = true -> link delta w ->
  exists b w', Flush m w = Some (b, w') /\ b = ok w' /\ moves True delta w [] w' /\ (ok w' = true -> file w' = fst (view delta w)).
Proof.
  intros I1 O L. unfold Flush. destruct (end_run_ok w I1) as (s & E & I2). rewrite (bind_some _ _ _ _ _ E). set (w1 := set_sizer s w) in *.
  assert (M1 : moves True delta w [] w1) by (apply moves_sizer; assumption). destruct (moves_nil_view _ _ _ _ M1 O) as [L1 V1].
  rewrite (bind_some _ _ _ _ _ (take_buffer_ok w1 I2)). cbv beta iota. destruct (flush_parts delta w1 I2 O L1) as (b & w2 & E2 & B2 & I3 & EB2 & SI2 & MF & MT & MS).
  rewrite (bind_some _ _ _ _ _ E2). destruct b; cbn [negb]; cbv iota; symmetry in B2.
  2:{ exists false, w2. split; [reflexivity|]. split; [auto|]. split; [|congruence]. apply (moves_trans True delta w [] w1 [] w2); auto. }
  rewrite bind_get.
  assert (A : exists c w3, (if w_start_pos w2 =? w_start_pos w1 + w_cur w1 then ret true else SeekBehindBuffer (w_start_pos w1 + w_cur w1)) w2 = Some (c, w3) /\ c = ok w3 /\ moves True delta w1 [] w3 /\ empty_buffer w3).
  { destruct (w_start_pos w2 =? w_start_pos w1 + w_cur w1) eqn:Q.
    - exists true, w2. split; [reflexivity|]. split; [auto|]. split; [apply MT; [reflexivity|lia]|exact EB2].
    - destruct (MS eq_refl) as (c & w3 & E3 & C & M3 & EB3 & _); [lia|]. exists c, w3. split; [exact E3|]. split; [exact C|]. split; [exact M3|exact EB3]. }
  destruct A as (c & w3 & E3 & C3 & M3 & EB3). rewrite (bind_some _ _ _ _ _ E3). pose proof (moves_trans True delta w [] w1 [] w3 I1 L O M1 M3) as M4. cbn [app] in M4.
  destruct (begin_run_ok w3 (core_of_inv _ (m_inv _ _ _ _ _ M3))) as [BR I5]. rewrite (bind_some _ _ _ _ _ BR). set (w4 := set_sizer _ w3) in *.
  assert (M5 : moves True delta w [] w4) by (apply moves_begin; assumption). assert (EB4 : empty_buffer w4) by exact EB3.
  destruct c; cbn [negb]; cbv iota; symmetry in C3.
  2:{ exists false, w4. split; [reflexivity|]. split; [symmetry; exact C3|]. split; [exact M5|]. intros X. change (ok w3 = true) in X. congruence. }
  change (ok w4 = true) in C3. destruct m.
  2:{ exists true, w4. split; [reflexivity|]. split; [symmetry; exact C3|]. split; [exact M5|]. intros _. exact (proj1 (synced_view _ _ _ _ M5 C3 EB4)). }
  destruct (sys_other_spec (w_fd w4)) as (b & f' & E5 & C & A & PP & N). rewrite (bind_syscall _ _ _ _ _ E5). set (w5 := set_fd f' w4).
  destruct (moves_nil_view _ _ _ _ M5 C3) as [L4 V4]. pose proof (proj1 (synced_view _ _ _ _ M5 C3 EB4)) as F4.
  assert (I6 : inv w5) by (apply inv_set_fd; [exact I5|rewrite C; apply I5]).
  assert (L5 : link delta w5) by (destruct L4; constructor; unfold w5; ws; rewrite ?A, ?C, ?PP; auto).
  assert (F5 : frame w4 w5) by (constructor; unfold w5; ws; auto).
  destruct b; cbn [negb]; cbv iota.
  - exists true, w5. split; [reflexivity|]. split; [symmetry; exact C3|]. split; [|intros _; unfold w5; ws; rewrite C; exact F4].
    apply (moves_trans True delta w [] w4 [] w5); auto. apply moves_same; auto; [unfold same_buffer, w5; ws; rewrite C; repeat split|]. intros NF. split; [exact (proj2 (N NF))|auto].
  - destruct (Fail_ok w5 I6 C3) as (w' & E' & I7 & FR & O3 & FI & ST & LI & CA & RA & WR & SI). exists false, w'. split; [exact E'|]. split; [auto|]. split; [|congruence].
    apply (moves_trans True delta w [] w4 [] w'); auto. apply moves_failed; auto; dz.
    + exact (frame_trans _ _ _ F5 FR).
    + intros X. rewrite FI. unfold w5. ws. rewrite C. split; [|apply Z.le_refl]. rewrite (view_empty delta w4 EB4). exists []. reflexivity.
    + intros NF. destruct (N NF). discriminate.
    + intros _ NF. destruct (N NF). discriminate.
    + rewrite WR. exact (proj2 (proj2 EB4)).
Qed.

Definition seek_to (p : Z) (v : list Z * Z) : bool * (list Z * Z) := if (p <=? snd v) || (p <=? zlen (fst v)) then (true, (fst v, p)) else (false, (fst v, zlen (fst v))).
(** What Seek() and Truncate() do to a good writer *)
Record jumps (P : Prop) (delta delta' : Z) (w w' : writer) (b : bool) (r : bool * (list Z * Z)) : Prop := {
  j_inv : inv w'; j_frame : frame w w'; j_view : ok w' = true -> link delta' w' /\ (b, view delta' w') = r; j_fail : ok w' = false -> b = false;
  j_nofail : nofail w -> nofail w' /\ (seekable w -> seekable w');
  j_live : P -> nofail w -> fits delta w -> ok w' = true /\ fits delta' w'; j_dead : ok w' = false -> w_written w' = 0 }.
Ltac jz := try match goal with
  | |- ok _ = false -> w_written _ = 0 => first [exact (m_dead _ _ _ _ _ ltac:(eassumption)) | progress dz]
  end.
Lemma fits_empty delta w : empty_buffer w -> fits delta w <-> w_start_pos w + Z.max 0 delta <= kMax.
Proof. intros (C & _ & W). unfold fits, used. rewrite C, W. change (Z.max 0 0) with 0. rewrite Z.add_0_r. reflexivity. Qed.
Lemma seek_tail_ok p delta w : inv w -> ok w = true -> link delta w -> 0 <= p < 2 ^ 64 -> p <> w_start_pos w + w_cur w ->
  exists b w', seek_tail p w = Some (b, w') /\ jumps (seekable w) delta delta w w' b (seek_to p (view delta w)) /\ (ok w' = true -> delta = 0).
Proof.
  intros I1 O L P NP. unfold seek_tail. destruct (end_run_ok w I1) as (s & E & I2). rewrite (bind_some _ _ _ _ _ E). set (w1 := set_sizer s w) in *.
  assert (M1 : moves True delta w [] w1) by (apply moves_sizer; assumption). destruct (moves_nil_view _ _ _ _ M1 O) as [L1 V1].
  destruct (SyncBuffer_ok delta w1 I2 O L1) as (b & w2 & E2 & B & M2 & EB2 & S2 & ST2). rewrite (bind_some _ _ _ _ _ E2).
  pose proof (moves_trans True delta w [] w1 [] w2 I1 L O M1 M2) as M3. cbn [app] in M3. destruct b; cbn [negb]; cbv iota; symmetry in B.
  2:{ exists false, w2. split; [reflexivity|]. split; [|congruence]. constructor; auto; jz.
      - exact (m_inv _ _ _ _ _ M3).
      - exact (m_frame _ _ _ _ _ M3).
      - congruence.
      - exact (m_nofail _ _ _ _ _ M3).
      - intros _ NF FT. apply (m_live _ _ _ _ _ M3 Logic.I NF FT). change (zlen (@nil Z)) with 0. unfold view. cbn [snd]. pose proof (i_cur w I1). unfold fits, used in FT. lia. }
  pose proof (m_inv _ _ _ _ _ M3) as I3. destruct (synced_view _ _ _ _ M3 B EB2) as [F2 P2]. destruct (moves_nil_view _ _ _ _ M3 B) as [L2 V2].
  assert (NP2 : p <> w_start_pos w2) by (rewrite P2; exact NP).
  destruct (SeekBehindBuffer_ok delta p w2 I3 B L2 EB2 P NP2) as (c & w3 & E3 & C3 & FR3 & EB3 & FI3 & SI3 & OK3 & NO3 & NF3). rewrite (bind_some _ _ _ _ _ E3).
  destruct (begin_run_ok w3 C3) as [BR I5]. rewrite (bind_some _ _ _ _ _ BR). set (w4 := set_sizer _ w3) in *. assert (EB4 : empty_buffer w4) by exact EB3.
  exists c, w4. split; [reflexivity|]. pose proof (i_start _ I5) as IS. split; [|intros O3; destruct (OK3 O3) as (L3 & R3 & _); apply (l_rand _ _ L3); congruence]. constructor; auto; jz.
  - apply (frame_trans _ w2 _); [exact (m_frame _ _ _ _ _ M3)|]. destruct FR3. constructor; unfold w4; ws; auto.
  - intros O3. destruct (OK3 O3) as (L3 & _ & Q). split; [destruct L3; constructor; unfold w4; ws; auto|]. rewrite (view_empty delta w4 EB4).
    change (file w4) with (file w3). change (w_start_pos w4) with (w_start_pos w3). rewrite FI3. unfold seek_to. rewrite <- F2, <- P2.
    replace (p <=? w_start_pos w2) with (p <? w_start_pos w2) by lia. destruct ((p <? w_start_pos w2) || (p <=? zlen (file w2))); injection Q as -> ->; reflexivity.
  - intros O3. apply (NO3 O3).
  - intros NF. destruct (m_nofail _ _ _ _ _ M3 NF) as [NF1 SK1]. destruct (NF3 NF1) as [NF2 SK2]. split; [exact NF2|]. intros SK. apply (SK2 (SK1 SK)).
  - intros SK NF FT. destruct (m_nofail _ _ _ _ _ M3 NF) as [NF1 SK1]. destruct (NF3 NF1) as [NF2 SK2]. destruct (SK2 (SK1 SK)) as [O3 _]. split; [exact O3|].
    apply (fits_empty _ _ EB4). destruct (OK3 O3) as (L3 & R3 & _). destruct (l_rand _ _ L3) as [-> _]; [congruence|]. change (Z.max 0 0) with 0. lia.
Qed.
Lemma Seek_ok p delta w : inv w -> ok w = true -> link delta w -> 0 <= p < 2 ^ 64 ->
  (exists b w', Seek p w = Some (b, w') /\ jumps (seekable w) delta delta w w' b (seek_to p (view delta w)) /\ (ok w' = true -> p = w_start_pos w + w_cur w \/ delta = 0)) \/
  (Seek p w = None /\ w_random w = None /\ ~ nofail w).
Proof.
  intros I1 O L P. unfold Seek. rewrite (bind_some _ _ _ _ _ (get_pos_ok w I1)). destruct (p =? w_start_pos w + w_cur w) eqn:Q.
  { left. exists true, w. split; [reflexivity|]. split; [|intros _; left; lia]. constructor; auto using frame_refl; jz; [|congruence]. intros _. split; [exact L|]. unfold seek_to, view. cbn [fst snd]. replace (p <=? w_start_pos w + w_cur w) with true by lia.
    cbn [orb]. do 2 f_equal. lia. }
  destruct (SupportsRandomAccess_ok delta w I1 O L) as (r & w1 & E1 & M1 & SB & RT & RF & RN & NOK). rewrite (bind_some _ _ _ _ _ E1), bind_get.
  pose proof (m_inv _ _ _ _ _ M1) as I2. pose proof (m_frame _ _ _ _ _ M1) as FR1.
  assert (LV : seekable w -> nofail w -> r = true /\ ok w1 = true) by (intros SK NF; pose proof (RN NF SK) as X; split; [exact X|apply (RT X)]).
  destruct (r && (w_start_pos w1 <=? p) && (p <=? w_start_pos w1 + Z.max (w_cur w1) (w_written w1))) eqn:Q2.
  - assert (R1 : r = true) by lia. destruct (RT R1) as [O1 RD]. destruct (moves_nil_view _ _ _ _ M1 O1) as [L1 V1]. specialize (SB O1). destruct SB as (B1 & B2 & B3 & B4 & B5 & B6 & B7).
    assert (W : w_written w1 <= w_lim w1). { pose proof (i_wl w1 I2) as X. apply ok_iff in O1. destruct X as [X|X]; [exact X|destruct O1; congruence]. }
    pose proof (i_cur w1 I2) as IC. pose proof (i_buf w1 I2) as IB. pose proof (i_written w1 I2) as IW. rewrite bind_modify, bind_assert by lia. rewrite bind_modify.
    left. eexists true, _. split; [reflexivity|]. set (w' := set_buf _ _ _ _). assert (U : used w' = used w1) by (unfold used, w'; ws; lia).
    assert (I3 : inv w'). { pose proof (i_lim w1 I2). assert (IN : ok w' = false -> w_lim w' = 0) by (intros X; change (ok w1 = false) in X; congruence). clear - I2 U IB W IC IW Q2 RD IN. assert (w_start_pos w1 <= p <= w_start_pos w1 + used w1) by (unfold used; lia).
      assert (UU : used w1 <= w_lim w1) by (unfold used; lia). destruct I2. constructor; auto; rewrite ?U; auto; unfold w'; ws; auto; unfold used in *; try lia. }
    assert (L2 : link delta w') by (destruct L1; constructor; unfold w'; ws; auto). destruct (link_0 delta w1 L1 ltac:(unfold seekable; congruence)) as [-> AP].
    assert (V : view 0 w' = (fst (view 0 w1), p)). { unfold view. cbn [fst snd]. unfold data. rewrite U. unfold w'. ws. f_equal. lia. }
    split; [|intros _; right; reflexivity]. constructor; auto; jz.
    + destruct FR1. constructor; unfold w'; ws; auto.
    + intros _. split; [exact L2|]. rewrite V, V1. unfold seek_to. replace (p <=? zlen (fst (view 0 w))) with true; [rewrite orb_true_r; reflexivity|].
      rewrite <- V1. unfold view. cbn [fst]. pose proof (data_len w1 I2) as DL. destruct (data w1) as [|x l] eqn:D.
      * change (zlen (@nil Z)) with 0 in DL. unfold used in DL. exfalso. lia.
      * rewrite zlen_write_at by (discriminate || (pose proof (i_start w1 I2); lia)). rewrite DL. unfold used. lia.
    + intros X. change (ok w1 = false) in X. congruence.
    + exact (m_nofail _ _ _ _ _ M1).
    + intros _ NF FT. split; [exact O1|]. assert (FT1 : fits 0 w1). { apply (m_live _ _ _ _ _ M1 Logic.I NF FT). change (zlen (@nil Z)) with 0. unfold view. cbn [snd]. pose proof (i_cur w I1). unfold fits, used in FT. lia. }
      unfold fits in *. rewrite U. exact FT1.
  - destruct (ok w1) eqn:O1.
    + destruct (moves_nil_view _ _ _ _ M1 O1) as [L1 V1]. specialize (SB eq_refl). destruct SB as (B1 & B2 & B3 & B4 & B5 & B6 & B7).
      destruct (seek_tail_ok p delta w1 I2 O1 L1 P) as (b & w2 & E2 & J & DZ); [lia|]. left. exists b, w2. split; [exact E2|]. split; [|intros X; right; exact (DZ X)]. rewrite V1 in J. destruct J as [J1 J2 J3 J4 J5 J6 J7]. constructor; auto; jz.
      * exact (frame_trans _ _ _ FR1 J2).
      * intros NF. destruct (m_nofail _ _ _ _ _ M1 NF) as [NF1 SK1]. destruct (J5 NF1) as [NF2 SK2]. auto.
      * intros SK NF FT. destruct (m_nofail _ _ _ _ _ M1 NF) as [NF1 SK1]. apply J6; auto.
        apply (m_live _ _ _ _ _ M1 Logic.I NF FT). change (zlen (@nil Z)) with 0. unfold view. cbn [snd]. pose proof (i_cur w I1). unfold fits, used in FT. lia.
    + destruct (NOK eq_refl) as (N1 & N2 & _). pose proof (m_dead _ _ _ _ _ M1 O1) as W1.
      assert (RN0 : w_random w = None /\ ~ nofail w).
      { destruct (w_random w) as [y|] eqn:R; [unfold SupportsRandomAccess in E1; rewrite bind_get, R in E1; cbv [ret] in E1; congruence|]. split; [reflexivity|]. intros NF.
        destruct LV as [_ X]; [unfold seekable; congruence|exact NF|discriminate]. }
      destruct (Z.eq_dec p (w_start_pos w1)) as [EP|NP].
      * right. split; [|exact RN0]. rewrite EP. exact (dead_seek_tail_start w1 I2 O1 W1).
      * left. destruct (dead_seek_tail p w1 I2 O1 NP) as (w2 & E2 & D). exists false, w2. split; [exact E2|]. split; [|rewrite (d_ok _ _ D); discriminate]. constructor; auto.
        -- exact (d_inv _ _ D).
        -- exact (frame_trans _ _ _ FR1 (d_frame _ _ D)).
        -- rewrite (d_ok _ _ D). discriminate.
        -- intros NF. destruct RN0. contradiction.
        -- intros _ NF. destruct RN0. contradiction.
        -- intros _. destruct (d_written _ _ D); congruence.
Qed.

Definition truncate_to (n : Z) (v : list Z * Z) : bool * (list Z * Z) :=
  if (n <? snd v) || (n <=? zlen (fst v)) then (true, (set_size (fst v) n, n)) else (false, (fst v, zlen (fst v))).
Lemma truncate_and_seek_ok delta n w : inv w -> ok w = true -> link delta w -> empty_buffer w -> 0 <= n <= kMax ->
  exists b w', (result <- TruncateInternal n; if negb result then ret false else SeekInternal n) w = Some (b, w') /\ core w' /\ frame w w' /\ empty_buffer w' /\ w_random w' = w_random w /\
    (ok w' = true -> link 0 w' /\ b = true /\ file w' = set_size (file w) n /\ w_start_pos w' = n) /\ (ok w' = false -> b = false) /\ (nofail w -> nofail w' /\ ok w' = true).
Proof.
  intros I1 O L EB N. destruct (TruncateInternal_ok delta n w I1 O L EB N) as (b & w1 & E1 & B1 & I2 & F1 & EB1 & ST1 & SI1 & R1 & FI1 & NF1 & (d & LK)). rewrite (bind_some _ _ _ _ _ E1).
  destruct b; cbn [negb]; cbv iota; symmetry in B1.
  2:{ exists false, w1. split; [reflexivity|]. split; [apply core_of_inv; exact I2|]. split; [exact F1|]. split; [exact EB1|]. split; [exact R1|]. split; [congruence|]. split; [auto|]. intros NF. destruct (NF1 NF). discriminate. }
  destruct (LK B1) as [L1 D]. assert (AP : f_append (w_fd w1) = true -> zlen (file w1) = n) by (intros _; rewrite FI1, zlen_set_size by lia; reflexivity).
  destruct (SeekInternal_ok d n w1 (core_of_inv _ I2) B1 L1 EB1 N AP) as (b & w3 & E3 & B3 & C3 & F3 & EB3 & FI3 & SI3 & R3 & OK3 & NO3 & NF3).
  exists b, w3. split; [exact E3|]. split; [exact C3|]. split; [exact (frame_trans _ _ _ F1 F3)|]. split; [exact EB3|]. split; [congruence|]. split; [|split; [congruence|]].
  - intros O3. destruct (OK3 O3) as [S3 L3]. split; [exact L3|]. split; [congruence|]. split; [congruence|exact S3].
  - intros NF. apply NF3, NF1, NF.
Qed.
Lemma TruncateBehindBuffer_ok delta n w : inv w -> ok w = true -> link delta w -> empty_buffer w -> 0 <= n < 2 ^ 64 ->
  exists b w', TruncateBehindBuffer n w = Some (b, w') /\ core w' /\ frame w w' /\ empty_buffer w' /\ w_random w' = w_random w /\
    (ok w' = true -> link 0 w' /\ (b, (file w', w_start_pos w')) = truncate_to n (file w, w_start_pos w)) /\ (ok w' = false -> b = false) /\ (nofail w -> nofail w' /\ ok w' = true).
Proof.
  intros I1 O L EB N. pose proof EB as (EC & EL & EW). unfold TruncateBehindBuffer. rewrite bind_get, bind_assert by lia. rewrite O. cbn [negb]; cbv iota. pose proof (i_start w I1) as IS.
  destruct (w_start_pos w <=? n) eqn:Q.
  - destruct (sys_size_spec (w_fd w)) as (sz & f' & E & C & A & PP & SZ & NF). rewrite (bind_syscall _ _ _ _ _ E). set (w1 := set_fd f' w).
    assert (I2 : inv w1) by (apply inv_set_fd; [exact I1|rewrite C; apply I1]). pose proof (i_size w1 I2) as IZ.
    assert (L1 : link delta w1) by (destruct L; constructor; unfold w1; ws; rewrite ?A, ?C, ?PP; auto).
    assert (F1 : frame w w1) by (constructor; unfold w1; ws; auto). assert (EB1 : empty_buffer w1) by exact EB. assert (FI1 : file w1 = file w) by exact C.
    destruct sz as [z|].
    2:{ destruct (Fail_ok w1 I2 O) as (w' & E' & I4 & FR & O3 & FI & ST & LI & CA & RA & WR & SI). exists false, w'. split; [exact E'|]. split; [apply core_of_inv; exact I4|].
        split; [exact (frame_trans _ _ _ F1 FR)|]. split; [apply (fail_empty w1); auto|]. split; [exact RA|]. split; [congruence|]. split; [auto|]. intros X. destruct (NF X). congruence. }
    rewrite (SZ z eq_refl). destruct (zlen (file w) <? n) eqn:Q2.
    + assert (PR : 0 <= zlen (file w) <= kMax) by (pose proof (zlen_nonneg (file w)); rewrite FI1 in IZ; lia).
      assert (AP : f_append (w_fd w1) = true -> zlen (file w1) = zlen (file w)) by (rewrite FI1; auto).
      destruct (SeekInternal_ok delta (zlen (file w)) w1 (core_of_inv _ I2) O L1 EB1 PR AP) as (b & w3 & E3 & B3 & C3 & F3 & EB3 & FI3 & SI3 & R3 & OK3 & NO3 & NF3).
      rewrite (bind_some _ _ _ _ _ E3). exists false, w3. split; [reflexivity|]. split; [exact C3|]. split; [exact (frame_trans _ _ _ F1 F3)|]. split; [exact EB3|]. split; [exact R3|].
      split; [|split; [auto|intros X; apply NF3; exact (proj2 (NF X))]]. intros O3. destruct (OK3 O3) as [S3 L3]. split; [exact L3|]. unfold truncate_to. cbn [fst snd].
      replace (n <? w_start_pos w) with false by lia. replace (n <=? zlen (file w)) with false by lia. cbn [orb]. rewrite S3, FI3, FI1. reflexivity.
    + assert (PR : 0 <= n <= kMax) by (rewrite FI1 in IZ; lia).
      destruct (truncate_and_seek_ok delta n w1 I2 O L1 EB1 PR) as (b & w' & E' & C' & F' & EB' & R' & OK' & NO' & NF'). exists b, w'. split; [exact E'|]. split; [exact C'|].
      split; [exact (frame_trans _ _ _ F1 F')|]. split; [exact EB'|]. split; [exact R'|]. split; [|split; [exact NO'|intros X; apply NF'; exact (proj2 (NF X))]].
      intros O'. destruct (OK' O') as (L' & -> & FI' & ST'). split; [exact L'|]. unfold truncate_to. cbn [fst snd]. replace (n <=? zlen (file w)) with true by lia. rewrite orb_true_r, FI', FI1, ST'. reflexivity.
  - assert (PR : 0 <= n <= kMax) by lia. destruct (truncate_and_seek_ok delta n w I1 O L EB PR) as (b & w' & E' & C' & F' & EB' & R' & OK' & NO' & NF'). exists b, w'. split; [exact E'|].
    split; [exact C'|]. split; [exact F'|]. split; [exact EB'|]. split; [exact R'|]. split; [|split; [exact NO'|exact NF']].
    intros O'. destruct (OK' O') as (L' & -> & FI' & ST'). split; [exact L'|]. unfold truncate_to. cbn [fst snd]. replace (n <? w_start_pos w) with true by lia. rewrite FI', ST'. reflexivity.
Qed.
Lemma Truncate_ok n delta w : inv w -> ok w = true -> link delta w -> 0 <= n < 2 ^ 64 ->
  exists b w', Truncate n w = Some (b, w') /\ jumps True delta 0 w w' b (truncate_to n (view delta w)).
Proof.
  intros I1 O L P. unfold Truncate. destruct (end_run_ok w I1) as (s & E & I2). rewrite (bind_some _ _ _ _ _ E). set (w1 := set_sizer s w) in *.
  assert (M1 : moves True delta w [] w1) by (apply moves_sizer; assumption). destruct (moves_nil_view _ _ _ _ M1 O) as [L1 V1].
  destruct (SyncBuffer_ok delta w1 I2 O L1) as (b & w2 & E2 & B & M2 & EB2 & S2 & ST2). rewrite (bind_some _ _ _ _ _ E2).
  pose proof (moves_trans True delta w [] w1 [] w2 I1 L O M1 M2) as M3. cbn [app] in M3. destruct b; cbn [negb]; cbv iota; symmetry in B.
  2:{ exists false, w2. split; [reflexivity|]. constructor; auto; jz.
      - exact (m_inv _ _ _ _ _ M3).
      - exact (m_frame _ _ _ _ _ M3).
      - congruence.
      - exact (m_nofail _ _ _ _ _ M3).
      - intros _ NF FT. destruct (m_live _ _ _ _ _ M3 Logic.I NF FT) as [X _]; [|congruence]. change (zlen (@nil Z)) with 0. unfold view. cbn [snd]. pose proof (i_cur w I1). unfold fits, used in FT. lia. }
  pose proof (m_inv _ _ _ _ _ M3) as I3. destruct (synced_view _ _ _ _ M3 B EB2) as [F2 P2]. destruct (moves_nil_view _ _ _ _ M3 B) as [L2 V2].
  destruct (TruncateBehindBuffer_ok delta n w2 I3 B L2 EB2 P) as (c & w3 & E3 & C3 & FR3 & EB3 & R3 & OK3 & NO3 & NF3). rewrite (bind_some _ _ _ _ _ E3).
  destruct (begin_run_ok w3 C3) as [BR I5]. rewrite (bind_some _ _ _ _ _ BR). set (w4 := set_sizer _ w3) in *. assert (EB4 : empty_buffer w4) by exact EB3.
  exists c, w4. split; [reflexivity|]. pose proof (i_start _ I5) as IS. constructor; auto; jz.
  - apply (frame_trans _ w2 _); [exact (m_frame _ _ _ _ _ M3)|]. destruct FR3. constructor; unfold w4; ws; auto.
  - intros O3. destruct (OK3 O3) as (L3 & Q). split; [destruct L3; constructor; unfold w4; ws; auto|]. rewrite (view_empty 0 w4 EB4).
    change (file w4) with (file w3). change (w_start_pos w4) with (w_start_pos w3). rewrite Q. f_equal. rewrite F2, P2. symmetry. apply surjective_pairing.
  - intros NF. destruct (m_nofail _ _ _ _ _ M3 NF) as [NF1 SK1]. destruct (NF3 NF1) as [NF2 _]. split; [exact NF2|]. unfold seekable in *. change (w_random w4) with (w_random w3). rewrite R3. exact SK1.
  - intros _ NF FT. destruct (m_nofail _ _ _ _ _ M3 NF) as [NF1 SK1]. destruct (NF3 NF1) as [NF2 O3]. split; [exact O3|].
    apply (fits_empty _ _ EB4). change (Z.max 0 0) with 0. lia.
Qed.

Lemma Close_ok delta w : inv w -> ok w = true -> link delta w ->
  exists b w', Close w = Some (b, w') /\ inv w' /\ w_open w' = false /\ w_failed w' = negb b /\ w_written w' = 0 /\
    (b = true -> file w' = fst (view delta w) /\ w_start_pos w' = snd (view delta w)) /\
    (eof delta w -> (exists t, fst (view delta w) = file w' ++ t) /\ zlen (file w) <= zlen (file w')) /\ (nofail w -> fits delta w -> b = true).
Proof.
  intros I1 O L. unfold Close. rewrite bind_get. pose proof O as OP. apply ok_iff in OP. destruct OP as [OP FA]. rewrite OP. cbn [negb]; cbv iota.
  rewrite (bind_some _ _ _ _ _ (take_buffer_ok w I1)). cbv beta iota. destruct (flush_parts delta w I1 O L) as (b & w2 & E2 & B2 & I3 & EB2 & SI2 & MF & MT & MS).
  rewrite (bind_some _ _ _ _ _ E2), bind_get.
  assert (A : exists c w3, (if negb (w_start_pos w2 =? w_start_pos w + w_cur w) && ok w2 then SeekBehindBuffer (w_start_pos w + w_cur w) else ret true) w2 = Some (c, w3) /\ moves True delta w [] w3 /\ empty_buffer w3).
  { destruct b; symmetry in B2; rewrite B2.
    - rewrite andb_true_r. destruct (w_start_pos w2 =? w_start_pos w + w_cur w) eqn:Q; cbn [negb]; cbv iota.
      + exists true, w2. split; [reflexivity|]. split; [apply MT; [reflexivity|lia]|exact EB2].
      + destruct (MS eq_refl) as (c & w3 & E3 & C & M3 & EB3 & _); [lia|]. exists c, w3. split; [exact E3|]. split; [exact M3|exact EB3].
    - rewrite andb_false_r. exists true, w2. split; [reflexivity|]. split; [apply MF; reflexivity|exact EB2]. }
  destruct A as (c & w3 & E3 & M3 & EB3). rewrite (bind_some _ _ _ _ _ E3). pose proof (m_inv _ _ _ _ _ M3) as I4. pose proof EB3 as (EC & EL & EW).
  rewrite (bind_some _ _ _ _ _ (get_pos_ok _ I4)), !bind_modify, bind_get. rewrite EC, Z.add_0_r.
  set (w4 := set_buf [] 0 0 (set_start_pos (w_start_pos w3) w3)).
  assert (I5 : inv w4) by (clear - I4 EC EL EW; destruct I4; constructor; unfold w4, used, ok in *; ws; auto; try lia; change (zlen (@nil Z)) with 0; lia).
  assert (A : exists x w5, (if w_owning w4 then closed <- syscall sys_other; if negb closed then Fail else ret true else ret true) w4 = Some (x, w5) /\ inv w5 /\ file w5 = file w3 /\ w_start_pos w5 = w_start_pos w3 /\
    w_written w5 = 0 /\ w_lim w5 = 0 /\ (w_failed w5 = false -> w_failed w3 = false) /\ (nofail w3 -> w_failed w5 = w_failed w3)).
  { destruct (w_owning w4).
    2:{ exists true, w4. split; [reflexivity|]. split; [exact I5|]. split; [reflexivity|]. split; [reflexivity|]. split; [exact EW|]. split; [reflexivity|]. split; auto. }
    destruct (sys_other_spec (w_fd w4)) as (y & f' & E & C & A & PP & N). rewrite (bind_syscall _ _ _ _ _ E). set (w5 := set_fd f' w4).
    assert (I6 : inv w5) by (apply inv_set_fd; [exact I5|rewrite C; apply I5]). destruct y; cbn [negb]; cbv iota.
    - exists true, w5. split; [reflexivity|]. split; [exact I6|]. split; [exact C|]. split; [reflexivity|]. split; [exact EW|]. split; [reflexivity|]. split; auto.
    - destruct (ok w5) eqn:O5.
      + destruct (Fail_ok w5 I6 O5) as (w' & E' & I7 & FR & O3 & FI & ST & LI & CA & RA & WR & SI). exists false, w'. split; [exact E'|]. split; [exact I7|]. split; [rewrite FI; exact C|]. split; [exact ST|].
        split; [rewrite WR; exact EW|]. split; [exact LI|]. split; [|intros X; destruct (N X); discriminate]. intros X. pose proof (fr_open _ _ FR) as Y. apply ok_iff in O5. clear - O3 O5 X Y. unfold ok in O3. rewrite X, Y, (proj1 O5) in O3. discriminate.
      + destruct (refuses_Fail w5 I6 O5) as (x & w' & E' & D). exists x, w'. split; [exact E'|]. split; [exact (d_inv _ _ D)|]. split; [rewrite (d_file _ _ D); exact C|]. split; [exact (d_start _ _ D)|].
        split; [destruct (d_written _ _ D) as [X|X]; [exact X|rewrite X; exact EW]|]. split; [exact (i_notok _ (d_inv _ _ D) (d_ok _ _ D))|]. split; [|intros X; destruct (N X); discriminate].
        intros X. destruct (w_failed w3) eqn:F3; [|reflexivity]. pose proof (d_failed _ _ D F3). congruence. }
  destruct A as (x & w5 & E5 & I6 & FI5 & ST5 & WR5 & LI5 & FA5 & NF5). rewrite (bind_some _ _ _ _ _ E5), bind_get, bind_modify.
  exists (negb (w_failed w5)), (set_state (w_failed w5) false w5). split; [reflexivity|]. split; [apply set_closed; assumption|]. split; [reflexivity|]. split; [ws; rewrite negb_involutive; reflexivity|]. split; [exact WR5|].
  assert (OK3 : w_failed w3 = false -> ok w3 = true) by (intros X; apply ok_iff; split; [rewrite (fr_open _ _ (m_frame _ _ _ _ _ M3)); exact OP|exact X]).
  split; [|split].
  - intros X. assert (O3 : ok w3 = true) by (apply OK3, FA5; destruct (w_failed w5); [discriminate|reflexivity]). destruct (synced_view _ _ _ _ M3 O3 EB3) as [F P]. ws. rewrite FI5, ST5. split; assumption.
  - intros X. destruct (m_eof _ _ _ _ _ M3 X) as (_ & (t & T) & Z1). rewrite app_nil_r in T. ws. rewrite FI5. split; [exists t; exact T|exact Z1].
  - intros NF FT. destruct (m_live _ _ _ _ _ M3 Logic.I NF FT) as [O3 _]. { change (zlen (@nil Z)) with 0. unfold view. cbn [snd]. pose proof (i_cur w I1). unfold fits, used in FT. lia. }
    rewrite (NF5 (proj1 (m_nofail _ _ _ _ _ M3 NF))). apply ok_iff in O3. rewrite (proj2 O3). reflexivity.
Qed.
