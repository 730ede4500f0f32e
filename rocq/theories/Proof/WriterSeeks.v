(** What the other functions of the writer do. *)
From Verif Require Import Base.Bytes Spec.PosixFile Model.BufferSizer Model.ByteFill Model.BufferedWriter Proof.PosixProof Proof.BufferSizerProof Proof.ByteFillProof
  Proof.WriterLemmas Proof.WriterSteps Proof.WriterCalls Proof.WriterDead.
Notation file w := (f_content (w_fd w)).
Notation kMax := kMaxFdPosition.

Lemma moves_sizer P delta w s : inv w -> ok w = true -> link delta w -> inv (set_sizer s w) -> moves P delta w [] (set_sizer s w).
Proof.
  intros I1 O L I2. assert (L2 : link delta (set_sizer s w)) by (destruct L; constructor; ws; auto). constructor; auto; dz.
  - constructor; auto; dz.
  - intros _. split; [exact L2|]. rewrite write_at_nil. change (zlen (@nil Z)) with 0. rewrite Z.add_0_r. exact (surjective_pairing (view delta w)).
  - intros X. split; [intros _; exact X|]. destruct (view_eof delta w I1 X) as [Q _]. rewrite Q, app_nil_r. split; [exists (data w); reflexivity|apply Z.le_refl].
Qed.
Lemma fail_empty w w' : inv w' -> w_lim w' = 0 -> w_written w' = w_written w -> empty_buffer w -> empty_buffer w'.
Proof. intros I1 L W (_ & _ & E). pose proof (i_cur w' I1). repeat split; try lia. Qed.

Lemma SizeBehindBuffer_ok delta w : inv w -> ok w = true -> link delta w -> empty_buffer w ->
  exists s w', SizeBehindBuffer w = Some (s, w') /\ moves (seekable w) delta w [] w' /\ empty_buffer w' /\
    (ok w' = true -> s = Some (zlen (file w')) /\ file w' = file w /\ w_random w' = Some true /\ w_sizer w' = w_sizer w /\ w_start_pos w' = w_start_pos w) /\ (ok w' = false -> s = None).
Proof.
  intros I1 O L EB. pose proof EB as (EC & EL & EW). unfold SizeBehindBuffer. rewrite bind_get, bind_assert by (rewrite EL; reflexivity).
  destruct (SupportsRandomAccess_ok delta w I1 O L) as (r & w1 & E1 & M1 & SB & RT & RF & RN & NOK). rewrite (bind_some _ _ _ _ _ E1), bind_get.
  pose proof (m_inv _ _ _ _ _ M1) as I2. pose proof (m_frame _ _ _ _ _ M1) as FR1. destruct r; cbn [negb]; cbv iota.
  - destruct (RT eq_refl) as [O1 R1]. rewrite O1. cbn [negb]; cbv iota. destruct (m_view _ _ _ _ _ M1 O1) as [L1 _]. specialize (SB O1).
    assert (EB1 : empty_buffer w1) by exact (same_empty _ _ SB EB). pose proof SB as (B1 & _ & _ & _ & _ & B2 & B3).
    destruct (sys_size_spec (w_fd w1)) as (sz & f' & E & C & A & PP & SZ & N). rewrite (bind_syscall _ _ _ _ _ E). set (w2 := set_fd f' w1).
    assert (I3 : inv w2) by (apply inv_set_fd; [exact I2|rewrite C; apply I2]).
    assert (L2 : link delta w2) by (destruct L1; constructor; unfold w2; ws; rewrite ?A, ?C, ?PP; auto).
    assert (F2 : frame w1 w2) by (constructor; unfold w2; ws; auto).
    destruct sz as [z|].
    + exists (Some z), w2. split; [reflexivity|]. split.
      { apply (moves_weaken True); [auto|]. apply (moves_trans True delta w [] w1 [] w2); auto. apply moves_same; auto.
        - unfold same_buffer, w2. ws. rewrite C. repeat split.
        - intros NF. split; [exact (proj2 (N NF))|auto]. }
      split; [exact EB1|]. split; [|intros X; change (ok w1 = false) in X; congruence]. intros _. rewrite (SZ z eq_refl). unfold w2. ws. rewrite C. auto.
    + destruct (Fail_ok w2 I3 O1) as (w' & E' & I4 & FR & O3 & FI & ST & LI & CA & RA & WR & SI). rewrite (bind_some _ _ _ _ _ E'). exists None, w'. split; [reflexivity|]. split.
      { apply moves_failed; auto; dz.
        - exact (frame_trans _ _ _ FR1 (frame_trans _ _ _ F2 FR)).
        - intros X. rewrite FI. unfold w2. ws. rewrite C, B3. split; [|lia]. destruct (view_eof delta w I1 X) as [Q _]. rewrite Q, app_nil_r. eexists. reflexivity.
        - intros NF. destruct (N (proj1 (m_nofail _ _ _ _ _ M1 NF))). congruence.
        - intros _ NF. destruct (N (proj1 (m_nofail _ _ _ _ _ M1 NF))). congruence.
        - rewrite WR. exact (proj2 (proj2 EB1)). }
      split; [apply (fail_empty w2); auto|]. split; [congruence|auto].
  - destruct (ok w1) eqn:O1.
    + destruct (Fail_ok w1 I2 O1) as (w' & E' & I4 & FR & O3 & FI & ST & LI & CA & RA & WR & SI). specialize (SB eq_refl). assert (EB1 : empty_buffer w1) by exact (same_empty _ _ SB EB).
      pose proof SB as (B1 & _ & _ & _ & _ & B2 & B3). rewrite (bind_some _ _ _ _ _ E'). exists None, w'. split; [reflexivity|]. split.
      { apply moves_failed; auto; dz.
        - exact (frame_trans _ _ _ FR1 FR).
        - intros X. rewrite FI, B3. split; [|lia]. destruct (view_eof delta w I1 X) as [Q _]. rewrite Q, app_nil_r. eexists. reflexivity.
        - intros NF. destruct (m_nofail _ _ _ _ _ M1 NF) as [NF1 NF2]. split; [unfold nofail; rewrite CA; exact NF1|]. unfold seekable in *. rewrite RA. exact NF2.
        - intros SK NF. specialize (RN NF SK). discriminate. }
      split; [apply (fail_empty w1); auto|]. split; [congruence|auto].
    + rewrite bind_ret. exists None, w1. split; [reflexivity|]. split; [apply (moves_weaken True); auto|]. destruct (NOK eq_refl) as (N1 & _).
      split; [apply (fail_empty w); auto; apply (i_notok w1 I2 O1)|]. split; [congruence|auto].
Qed.
Lemma Size_ok delta w : inv w -> ok w = true -> link delta w ->
  exists s w', Size w = Some (s, w') /\ moves (seekable w) delta w [] w' /\
    (ok w' = true -> s = Some (zlen (file w')) /\ file w' = fst (view delta w) /\ w_random w' = Some true /\ empty_buffer w' /\ w_start_pos w' = w_start_pos w + w_cur w) /\ (ok w' = false -> s = None).
Proof.
  intros I1 O L. unfold Size. destruct (end_run_ok w I1) as (s & E & I2). rewrite (bind_some _ _ _ _ _ E). set (w1 := set_sizer s w) in *.
  assert (M1 : forall P, moves P delta w [] w1) by (intros P; apply moves_sizer; assumption). destruct (m_view _ _ _ _ _ (M1 True) O) as [L1 _].
  destruct (SyncBuffer_ok delta w1 I2 O L1) as (b & w2 & E2 & B & M2 & EB2 & S2 & ST2). rewrite (bind_some _ _ _ _ _ E2).
  pose proof (moves_trans True delta w [] w1 [] w2 I1 L O (M1 True) M2) as M3. pose proof (m_inv _ _ _ _ _ M2) as I3. destruct b; cbn [negb]; cbv iota.
  - symmetry in B. destruct (m_view _ _ _ _ _ M3 B) as [L2 V2]. destruct (SizeBehindBuffer_ok delta w2 I3 B L2 EB2) as (sz & w3 & E3 & M4 & EB3 & OK3 & NO3). rewrite (bind_some _ _ _ _ _ E3).
    assert (M5 : moves (seekable w) delta w [] w3).
    { constructor; dz.
      - exact (m_inv _ _ _ _ _ M4).
      - exact (frame_trans _ _ _ (m_frame _ _ _ _ _ M3) (m_frame _ _ _ _ _ M4)).
      - apply (m_view (seekable w2) delta w ([] ++ []) w3). apply (moves_trans _ _ _ _ w2); auto. apply (moves_weaken True); auto.
      - apply (m_eof (seekable w2) delta w ([] ++ []) w3). apply (moves_trans _ _ _ _ w2); auto. apply (moves_weaken True); auto.
      - apply (m_nofail (seekable w2) delta w ([] ++ []) w3). apply (moves_trans _ _ _ _ w2); auto. apply (moves_weaken True); auto.
      - intros SK NF F H. pose proof (proj2 (m_nofail _ _ _ _ _ M3 NF) SK) as SK2. apply (m_live (seekable w2) delta w ([] ++ []) w3); auto. apply (moves_trans _ _ _ _ w2); auto. apply (moves_weaken True); auto. }
    destruct (ok w3) eqn:O3.
    + destruct (OK3 eq_refl) as (-> & Q1 & Q2 & Q3 & Q4). destruct (begin_run_ok w3 (core_of_inv _ (m_inv _ _ _ _ _ M4))) as [BR I5]. rewrite (bind_some _ _ _ _ _ BR).
      eexists _, _. split; [reflexivity|]. set (w4 := set_sizer _ w3) in *. split.
      { destruct (m_view _ _ _ _ _ M5 O3) as [L3 _]. apply (moves_trans _ delta w [] w3 []); auto. apply moves_sizer; auto. exact (m_inv _ _ _ _ _ M5). }
      split; [|intros X; change (ok w3 = false) in X; congruence]. intros _. rewrite (view_empty delta w2 EB2) in V2. cbn [fst snd] in V2. rewrite write_at_nil in V2.
      change (zlen (@nil Z)) with 0 in V2. rewrite Z.add_0_r in V2. injection V2 as V3 V4. split; [reflexivity|]. split; [unfold w4; ws; rewrite Q1; exact V3|]. split; [exact Q2|]. split; [exact EB3|].
      unfold w4. ws. rewrite Q4. exact V4.
    + rewrite (NO3 eq_refl). exists None, w3. split; [reflexivity|]. split; [exact M5|]. split; [congruence|auto].
  - exists None, w2. split; [reflexivity|]. split; [apply (moves_weaken True); auto|]. split; [congruence|auto].
Qed.
Lemma TruncateInternal_ok delta p w : inv w -> ok w = true -> link delta w -> empty_buffer w -> 0 <= p <= kMax ->
  exists b w', TruncateInternal p w = Some (b, w') /\ b = ok w' /\ inv w' /\ frame w w' /\ empty_buffer w' /\ w_start_pos w' = w_start_pos w /\ w_sizer w' = w_sizer w /\ w_random w' = w_random w /\
    file w' = (if b then set_size (file w) p else file w) /\ (nofail w -> nofail w' /\ b = true) /\ (exists delta', ok w' = true -> link delta' w' /\ (f_append (w_fd w) = false -> delta' = delta)).
Proof.
  intros I1 O L EB P. pose proof EB as (EC & EL & EW). unfold TruncateInternal. rewrite bind_get, bind_assert by (rewrite EL, O; reflexivity).
  destruct (sys_truncate_spec p (w_fd w)) as (b & f' & E & A & PP & C & N). rewrite (bind_syscall _ _ _ _ _ E). set (w1 := set_fd f' w).
  assert (I2 : inv w1) by (apply inv_set_fd; [exact I1|rewrite C; destruct b; [rewrite zlen_set_size by lia; lia|apply I1]]).
  assert (F1 : frame w w1) by (constructor; unfold w1; ws; auto). destruct b; cbn [negb]; cbv iota.
  - exists true, w1. split; [reflexivity|]. split; [symmetry; exact O|]. split; [exact I2|]. split; [exact F1|]. split; [exact EB|]. do 3 (split; [reflexivity|]). split; [exact C|]. split; [intros NF; destruct (N NF) as [N1 N2]; split; [exact N2|exact N1]|].
    destruct (f_append (w_fd w)) eqn:AP.
    + exists (p - w_start_pos w). intros _. split; [|discriminate]. assert (R : w_random w = Some false). { destruct (w_random w) as [[|]|] eqn:R; auto; exfalso; pose proof (l_rand _ _ L) as LR; rewrite R in LR; destruct LR; congruence. }
      constructor; unfold w1; ws; rewrite ?C, ?A, ?zlen_set_size by lia; try lia; try congruence.
      intros IN. destruct (l_ind _ _ L IN). congruence.
    + exists delta. intros _. split; [|reflexivity]. destruct L as [L1 L2 L3 L4 L5]. constructor; unfold w1; ws; rewrite ?A, ?PP; auto. all: try (intros _ X; congruence); intros X; (split; [|reflexivity]); first [exact (proj1 (L2 X))|exact (proj1 (L5 X))].
  - destruct (Fail_ok w1 I2 O) as (w' & E' & I4 & FR & O3 & FI & ST & LI & CA & RA & WR & SI). exists false, w'. split; [exact E'|]. split; [auto|]. split; [exact I4|].
    split; [exact (frame_trans _ _ _ F1 FR)|]. split; [apply (fail_empty w1); auto|]. split; [exact ST|]. split; [exact SI|]. split; [exact RA|]. split; [rewrite FI; exact C|].
    split; [intros NF; destruct (N NF); discriminate|]. exists 0. congruence.
Qed.

Definition fill_tail (n size : Z) : M bool :=
  w <- get;
  cut <- (if w_start_pos w <? size then TruncateInternal (w_start_pos w) else ret true);
  if negb cut then ret false
  else extended <- TruncateInternal (w_start_pos w + n); if negb extended then ret false else SeekInternal (w_start_pos w + n).
Lemma fill_tail_ok n w : inv w -> ok w = true -> link 0 w -> f_append (w_fd w) = false -> w_random w = Some true -> empty_buffer w -> 0 < n -> w_start_pos w + n <= kMax ->
  zlen (file w) <= w_start_pos w + n -> exists b w', fill_tail n (zlen (file w)) w = Some (b, w') /\ b = ok w' /\ moves True 0 w (zeros n) w'.
Proof.
  intros I1 O L AP RD EB N FT SZ. unfold fill_tail. rewrite bind_get. pose proof (i_start w I1) as IS. pose proof (view_empty 0 w EB) as V.
  assert (EO : eof 0 w -> w_start_pos w = zlen (file w)) by (intros [_ X]; lia).
  assert (A : exists b w1, (if w_start_pos w <? zlen (file w) then TruncateInternal (w_start_pos w) else ret true) w = Some (b, w1) /\ b = ok w1 /\ inv w1 /\ frame w w1 /\ empty_buffer w1 /\
    w_start_pos w1 = w_start_pos w /\ w_sizer w1 = w_sizer w /\ w_random w1 = w_random w /\ (b = true -> link 0 w1 /\ set_size (file w1) (w_start_pos w + n) = write_at (file w) (w_start_pos w) (zeros n)) /\
    (eof 0 w -> file w1 = file w /\ b = true) /\ (nofail w -> nofail w1 /\ b = true)).
  { destruct (w_start_pos w <? zlen (file w)) eqn:Q.
    - destruct (TruncateInternal_ok 0 (w_start_pos w) w I1 O L EB IS) as (b & w1 & E & B & I2 & FR & EB1 & ST & SI & RA & FI & NF & (d & LK)). exists b, w1.
      split; [exact E|]. split; [exact B|]. split; [exact I2|]. split; [exact FR|]. split; [exact EB1|]. do 3 (split; [assumption|]). split; [|split; [|exact NF]].
      + intros ->. symmetry in B. destruct (LK B) as [L1 D]. rewrite (D AP) in L1. split; [exact L1|]. rewrite FI. apply set_size_cut_extend; lia.
      + intros X. specialize (EO X). lia.
    - exists true, w. split; [reflexivity|]. split; [auto|]. split; [exact I1|]. split; [apply frame_refl|]. split; [exact EB|]. do 3 (split; [reflexivity|]).
      split; [|split; auto]. intros _. split; [exact L|]. apply set_size_extend; lia. }
  destruct A as (b & w1 & E1 & B1 & I2 & F1 & EB1 & ST1 & SI1 & R1 & OK1 & EO1 & NF1). rewrite (bind_some _ _ _ _ _ E1).
  assert (SK : forall w', w_random w' = Some true -> seekable w') by (intros w' X; unfold seekable; congruence).
  destruct b; cbn [negb]; cbv iota; symmetry in B1.
  2:{ exists false, w1. split; [reflexivity|]. split; [auto|]. apply moves_failed; auto; dz.
      - intros X. destruct (EO1 X). discriminate.
      - intros NF. destruct (NF1 NF). discriminate.
      - intros _ NF. destruct (NF1 NF). discriminate. }
  destruct (OK1 eq_refl) as [L1 SS]. assert (PR : 0 <= w_start_pos w + n <= kMax) by lia.
  destruct (TruncateInternal_ok 0 (w_start_pos w + n) w1 I2 B1 L1 EB1 PR) as (b & w2 & E2 & B2 & I3 & F2 & EB2 & ST2 & SI2 & R2 & FI2 & NF2 & (d & LK2)). rewrite (bind_some _ _ _ _ _ E2).
  pose proof (frame_trans _ _ _ F1 F2) as F12. destruct b; cbn [negb]; cbv iota; symmetry in B2.
  2:{ exists false, w2. split; [reflexivity|]. split; [auto|]. apply moves_failed; auto; dz.
      - intros X. rewrite FI2, (proj1 (EO1 X)), V. cbn [fst]. split; [eexists; reflexivity|apply Z.le_refl].
      - intros NF. destruct (NF1 NF) as [NF3 _]. destruct (NF2 NF3). discriminate.
      - intros _ NF. destruct (NF1 NF) as [NF3 _]. destruct (NF2 NF3). discriminate. }
  assert (AP1 : f_append (w_fd w1) = false) by (rewrite (fr_app _ _ F1); exact AP). destruct (LK2 B2) as [L2 D]. rewrite (D AP1) in L2. rewrite SS in FI2.
  assert (AP2 : f_append (w_fd w2) = true -> zlen (file w2) = w_start_pos w + n) by (rewrite (fr_app _ _ F12); congruence).
  destruct (SeekInternal_ok 0 (w_start_pos w + n) w2 (core_of_inv _ I3) B2 L2 EB2 PR AP2) as (b & w3 & E3 & B3 & C3 & F3 & EB3 & FI3 & SI3 & R3 & OK3 & NO3 & NF3).
  pose proof (frame_trans _ _ _ F12 F3) as F13. exists b, w3. split; [exact E3|]. split; [exact B3|].
  assert (I4 : inv w3). { apply inv_of_core; [exact C3|]. rewrite SI3, SI2, SI1. pose proof (i_base w I1). destruct (ok w3); [destruct (OK3 eq_refl) as [-> _]; lia|rewrite (NO3 eq_refl), ST2, ST1; lia]. }
  assert (R4 : w_random w3 = Some true) by (rewrite R3, R2, R1; exact RD). assert (NF4 : nofail w -> nofail w3 /\ ok w3 = true) by (intros NF; apply NF3, NF2, NF1, NF).
  assert (PF : eof 0 w -> (exists t, fst (view 0 w) ++ zeros n = file w3 ++ t) /\ zlen (file w) <= zlen (file w3)).
  { intros X. rewrite FI3, FI2, V, (EO X), write_at_end. cbn [fst]. split; [exists []; rewrite app_nil_r; reflexivity|rewrite zlen_app; pose proof (zlen_nonneg (zeros n)); lia]. }
  constructor; auto; dz.
  - intros O3. destruct (OK3 O3) as [S3 L3]. split; [exact L3|]. rewrite (view_empty 0 w3 EB3), V, FI3, FI2, S3, zlen_zeros. cbn [fst snd]. rewrite Z.add_0_r. f_equal. lia.
  - intros X. split; [|exact (PF X)]. intros O3. destruct (OK3 O3) as [S3 L3]. split; [apply EB3|]. rewrite FI3, FI2, S3. rewrite (EO X), write_at_end, zlen_app, zlen_zeros. lia.
  - intros NF. split; [apply (NF4 NF)|auto].
  - intros _ NF _ _. destruct (NF4 NF) as [_ O3]. split; [exact O3|]. destruct (OK3 O3) as [S3 _]. destruct EB3 as (X1 & X2 & X3). unfold fits, used. rewrite X1, X3, S3. lia.
Qed.
Lemma moves_dead delta w d1 d2 w1 w2 : moves True delta w d1 w1 -> ok w1 = false -> dead w1 w2 -> moves True delta w (d1 ++ d2) w2.
Proof.
  intros M O D. pose proof (moves_failed_early delta w d1 d2 w1 M O) as M1. apply moves_failed.
  - exact (d_inv _ _ D).
  - exact (frame_trans _ _ _ (m_frame _ _ _ _ _ M1) (d_frame _ _ D)).
  - exact (d_ok _ _ D).
  - rewrite (d_file _ _ D). intros X. apply (m_eof _ _ _ _ _ M1 X).
  - intros NF. destruct (m_nofail _ _ _ _ _ M1 NF) as [A B]. split; [exact (d_nofail _ _ D A)|]. unfold seekable in *. rewrite (d_random _ _ D). exact B.
  - intros p n f x. destruct (m_live _ _ _ _ _ M1 p n f x). congruence.
  - pose proof (m_dead _ _ _ _ _ M O) as X. destruct (d_written _ _ D) as [Y|Y]; congruence.
Qed.
Lemma WriteFill_ok n fill : 0 <= n < 2 ^ 64 -> writes (WriteFill n fill) (repeat fill (Z.to_nat n)).
Proof.
  intros N delta w I1 O L. unfold WriteFill. rewrite bind_get. pose proof (i_cur w I1) as IC.
  destruct ((n <=? available w) && (n <=? kMaxBytesToCopy)) eqn:Q.
  { destruct (put_ok (repeat fill (Z.to_nat n)) delta w I1 O L) as (w1 & E1 & O1 & M1); [unfold zlen; rewrite repeat_length; lia|].
    rewrite (bind_some _ _ _ _ _ E1). exists true, w1. split; [reflexivity|]. split; [auto|exact M1]. }
  rewrite bind_assert by (unfold kMaxBytesToCopy in *; lia).
  assert (A : exists r w1, (if negb (fill =? 0) then ret false else SupportsRandomAccess) w = Some (r, w1) /\ moves True delta w [] w1 /\ (r = true -> fill = 0 /\ ok w1 = true /\ w_random w1 = Some true) /\
    (ok w1 = true -> forall P : Prop, moves P delta w [] w1)).
  { destruct (fill =? 0) eqn:F; cbn [negb]; cbv iota.
    - destruct (SupportsRandomAccess_ok delta w I1 O L) as (r & w1 & E1 & M1 & SB & RT & RF & RN & NOK). exists r, w1. split; [exact E1|]. split; [exact M1|]. split; [intros ->; destruct (RT eq_refl); repeat split; auto; lia|].
      intros O1 P. apply (moves_weaken True); auto.
    - exists false, w. split; [reflexivity|]. split; [apply moves_refl; assumption|]. split; [discriminate|]. intros _ P. apply moves_refl; assumption. }
  destruct A as (r & w1 & E1 & M1 & RT & MP). rewrite (bind_some _ _ _ _ _ E1). pose proof (m_inv _ _ _ _ _ M1) as I2.
  destruct r; cbn [negb]; cbv iota.
  - destruct (RT eq_refl) as (-> & O1 & R1). destruct (m_view _ _ _ _ _ M1 O1) as [L1 V1]. assert (SK1 : seekable w1) by (unfold seekable; congruence).
    destruct (link_0 delta w1 L1 SK1) as [-> AP1]. destruct (Size_ok 0 w1 I2 O1 L1) as (s & w2 & E2 & M2 & OK2 & NO2). rewrite (bind_some _ _ _ _ _ E2).
    pose proof (moves_trans True 0 w [] w1 [] w2 I1 L O1 M1 (moves_weaken _ _ _ _ _ _ (fun _ => SK1) M2)) as M3. cbn [app] in M3. pose proof (m_inv _ _ _ _ _ M2) as I3. destruct (ok w2) eqn:O2.
    2:{ rewrite (NO2 eq_refl). exists false, w2. split; [reflexivity|]. split; [auto|]. apply (moves_failed_early 0 w [] _ w2); auto. }
    destruct (OK2 eq_refl) as (-> & F2 & R2 & EB2 & ST2). rewrite bind_get. pose proof EB2 as (C1 & C2 & C3). rewrite bind_assert by (rewrite C2; reflexivity).
    destruct (m_view _ _ _ _ _ M3 O2) as [L2 V2]. pose proof (i_start w2 I3) as IS2.
    assert (AP2 : f_append (w_fd w2) = false) by (apply (proj2 (l_rand _ _ L2 ltac:(congruence)))).
    assert (U : u64 (kMax - w_start_pos w2) = kMax - w_start_pos w2) by (unfold u64; rewrite Z.mod_small; unfold kMax in *; lia). rewrite U.
    assert (N0 : 0 < n) by (unfold kMaxBytesToCopy, available in *; lia). change (repeat 0 (Z.to_nat n)) with (zeros n).
    destruct (kMax - w_start_pos w2 <? n) eqn:Q2.
    { destruct (Fail_ok w2 I3 O2) as (w' & E' & I4 & FR & O3 & FI & ST & LI & CA & RA & WR & SI). exists false, w'. split; [exact E'|]. split; [auto|].
      rewrite <- (app_nil_l (zeros n)). apply (moves_trans True 0 w [] w2); auto. apply moves_failed; auto; dz.
      - intros X. rewrite FI. split; [|apply Z.le_refl]. rewrite (view_empty 0 w2 EB2). eexists. reflexivity.
      - intros NF. split; [unfold nofail; rewrite CA; exact NF|]. unfold seekable. rewrite RA. auto.
      - intros _ _ _ X. rewrite (view_empty 0 w2 EB2) in X. cbn [snd] in X. rewrite zlen_zeros in X. lia. }
    destruct (w_start_pos w2 + n <? zlen (file w2)) eqn:Q3.
    + destruct (WriteSlowFill_ok n 0 N 0 w2 I3 O2 L2) as (b & w3 & E3 & B3 & M4). exists b, w3. split; [exact E3|]. split; [exact B3|]. apply (moves_trans True 0 w [] w2); auto.
    + destruct (fill_tail_ok n w2 I3 O2 L2 AP2 R2 EB2 N0) as (b & w3 & E3 & B3 & M4); [lia|lia|]. exists b, w3. split; [exact E3|]. split; [exact B3|]. apply (moves_trans True 0 w [] w2); auto.
  - destruct (ok w1) eqn:O1.
    + destruct (m_view _ _ _ _ _ M1 O1) as [L1 V1]. destruct (WriteSlowFill_ok n fill N delta w1 I2 O1 L1) as (b & w2 & E2 & B2 & M2). exists b, w2. split; [exact E2|]. split; [exact B2|].
      apply (moves_trans True delta w [] w1); auto.
    + destruct (dead_WriteSlowFill n fill w1 I2 O1 N) as (w2 & E2 & D2). unfold available, kMaxBytesToCopy in Q. replace (n <=? 0) with false in E2 by lia.
      exists false, w2. split; [exact E2|]. split; [symmetry; exact (d_ok _ _ D2)|]. apply (moves_dead delta w [] _ w1 w2); auto.
Qed.
