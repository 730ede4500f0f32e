(** What calls of the limiting writer do when it has not failed, continued. *)
From Verif Require Import Base.Bytes Spec.PosixFile Model.BufferSizer Model.BufferedWriter.
From Verif Require Import Proof.PosixProof Proof.WriterLemmas Proof.WriterSteps Proof.WriterCalls Proof.WriterDead Proof.WriterSeeks Proof.WriterMore Proof.WriterKeep.
From Verif Require Import Model.LimitingWriter Spec.LimitingWriterSpec Proof.LimWriterLemmas Proof.LimWriterRel Proof.LimWriterCalls.
Import BufferedWriter(writer, call).
Import BufferedWriterSpec(bytes_of, call_ok).
Notation file w := (f_content (w_fd w)).
Notation kMax := kMaxFdPosition.

Lemma concat_take_blocks b : forall n, 0 <= n -> concat (take_blocks n b) = ztake n (concat b).
Proof.
  induction b as [|x b IH]; intros n H; cbn [take_blocks concat]; [rewrite ztake_nil; reflexivity|]. pose proof (zlen_nonneg x). destruct (n <=? 0) eqn:N.
  - replace n with 0 by lia. rewrite (ztake_nonpos 0) by lia. reflexivity.
  - destruct (n <? zlen x) eqn:L.
    + cbn [concat]. rewrite app_nil_r, ztake_app_l by lia. reflexivity.
    + cbn [concat]. rewrite IH by lia. rewrite ztake_app_r by lia. reflexivity.
Qed.
Lemma ztake_repeat (x : Z) m n : 0 <= m <= n -> ztake m (repeat x (Z.to_nat n)) = repeat x (Z.to_nat m).
Proof.
  intros H. replace (Z.to_nat n) with (Z.to_nat m + Z.to_nat (n - m))%nat by lia. rewrite repeat_app.
  assert (Q : zlen (repeat x (Z.to_nat m)) = m) by (unfold zlen; rewrite repeat_length; lia).
  rewrite ztake_app_l by lia. apply ztake_all. lia.
Qed.

Section S.
  Variables (delta : Z) (random : bool).
  Notation rel := (rel delta).
  Notation live := (live delta random).
  Notation does := (does delta random).
  Notation post := (post delta random).
  Notation after := (after delta random).

  (** After a call of the original writer which does not change the view *)
  Lemma does_then P c r l w l' l'' : good delta l -> l_start_pos l + l_cur l <= l_max_pos l -> moves P delta (full l) [] w -> outcome l w l' ->
    (w_written w = 0 \/ (w_written w = w_written (l_dest l) /\ w_start_pos w = w_start_pos (l_dest l))) -> ok w = true -> P -> does c l' r l'' -> does c l r l''.
  Proof.
    intros G H M OU B O HP (SA & [O1 O2] & D). split; [exact SA|]. split; [split; [rewrite O1; exact (o_exact _ _ _ OU)|rewrite O2; exact (o_owning _ _ _ OU)]|].
    intros s R RQ. pose proof (rel_no_excess _ _ _ R H) as E. pose proof (r_pos _ _ _ R) as RP. pose proof (r_high _ _ _ R) as RH.
    destruct (moves_spec delta random P [] s l w l' R E M OU B) as (_ & YES & _); [change (zlen (@nil Z)) with 0; lia|]. destruct (YES O) as (K & R' & FU & LV). rewrite (accept_nil delta s l R) in R'.
    assert (LV' : live l -> room delta c s -> live l').
    { intros Q RO. apply (LV Q); [|exact HP]. unfold room, end_pos in RO. pose proof (zlen_nonneg (bytes c)). pose proof (zlen_nonneg (a_excess s)). change (zlen (@nil Z)) with 0. lia. }
    destruct (D s R') as [(s' & ST & A)|(RF & K' & CL & NL)].
    - rewrite (o_exact _ _ _ OU), (o_owning _ _ _ OU). exact RQ.
    - left. rewrite (o_exact _ _ _ OU), (o_owning _ _ _ OU) in ST. exists s'. split; [exact ST|]. destruct A as [A1 A2 A3 A4]. constructor; auto.
      + intros X Y. destruct (A3 X Y) as (B1 & B2 & B3). split; [exact B1|]. split; [intros Q RO; exact (B2 (LV' Q RO) RO)|]. rewrite <- (o_owning _ _ _ OU). exact B3.
      + intros X Y. destruct (A4 X Y) as (B1 & B2 & B3). split; [exact B1|]. split; [intros Q RO; exact (B2 (LV' Q RO) RO)|]. exact B3.
    - right. split; [exact RF|]. split; [exact K'|]. split; [exact CL|]. intros (Q & RO & MF). apply NL. split; [exact (LV' Q RO)|]. auto.
  Qed.
  Lemma does_push min rec c d l : good delta l -> bytes_of c = Some d -> zlen d <= min -> 0 <= min <= 2 ^ 63 -> 0 <= rec ->
    exists b l', (pushed <- Push min rec; if negb pushed then ret false else lput d;; ret true) l = Some (b, l') /\ does (LWriter c) l (RBool b) l'.
  Proof.
    intros G B ZD MI RE. unfold Push. rewrite lbind_bind. unfold bind at 1. unfold get at 1. cbv beta iota. destruct (min <=? lavailable l) eqn:A.
    { unfold bind at 1. unfold ret at 1. cbn [negb]; cbv beta iota. destruct (does_store delta random c d l G B ltac:(lia)) as [E D]. rewrite (lbind_some _ _ _ _ _ E). eexists _, _. split; [reflexivity|exact D]. }
    rewrite lbind_bind. unfold PushSlow. rewrite lbind_bind. unfold bind at 1. unfold get at 1. cbv beta iota. rewrite lbind_bind, lbind_assert by lia.
    destruct (Z.le_gt_cases (l_start_pos l + l_cur l) (l_max_pos l)) as [H|H].
    2:{ rewrite (lbind_some _ _ _ _ _ (with_dest_exceeded false _ _ _ G ltac:(lia))). cbv [bind get ret negb]. eexists _, _. split; [reflexivity|]. apply does_exceeded; [exact G|lia|].
        intros s R E. apply (lstep_write delta _ d _ _ _ _ _ B). right. destruct (exceeded_accept delta d s l R E) as [-> X]. auto. }
    destruct (Push_ok min rec delta (full l) (g_inv _ _ G) (g_dest _ _ G) (good_link _ _ G) MI RE) as (b & w & E & BO & M & AV).
    destruct (with_dest_ok false _ _ _ _ _ G H E (m_inv _ _ _ _ _ M)) as (l' & E2 & OU). rewrite (lbind_some _ _ _ _ _ E2). rewrite lbind_bind. unfold bind at 1. unfold get at 1. cbv beta iota.
    assert (KE : w_written w = 0 \/ (w_written w = w_written (l_dest l) /\ w_start_pos w = w_start_pos (l_dest l))) by (pose proof (wk_Push _ _ _ _ _ E) as X; unfold full in X; ws_in X; exact X).
    destruct b; cbn [negb]; cbv iota.
    - symmetry in BO. specialize (AV BO).
      destruct (m_view _ _ _ _ _ M BO) as [L1 V]. pose proof (i_cur _ (m_inv _ _ _ _ _ M)) as IC. assert (SP : w_start_pos w <= l_max_pos l).
      { apply (f_equal snd) in V. change (zlen (@nil Z)) with 0 in V. unfold view, full in V. cbn [fst snd] in V. ws_in V. rewrite <- (g_start _ _ G) in V. lia. }
      destruct (outcome_good delta _ _ _ OU (g_ok _ _ G) (g_max64 _ _ G) (m_inv _ _ _ _ _ M) BO L1 SP) as (G' & FU & _).
      { apply (rand_next (full l)); [exact (m_frame _ _ _ _ _ M)|intros N; exact (proj1 (m_nofail _ _ _ _ _ M N))|exact (g_rand _ _ G)]. }
      destruct (o_good _ _ _ OU BO SP) as (_ & _ & _ & CU & LI). unfold BufferedWriter.available in AV. rewrite <- CU, <- LI in AV.
      rewrite lbind_bind, lbind_assert by (unfold lavailable; lia). unfold bind at 1. unfold ret at 1. cbv beta iota. cbn [negb]; cbv iota.
      destruct (does_store delta random c d l' G' B ltac:(unfold lavailable; lia)) as [E3 D]. rewrite (lbind_some _ _ _ _ _ E3). eexists _, _. split; [reflexivity|].
      apply (does_then True (LWriter c) (RBool true) l w l' _ G H M OU KE BO Logic.I D).
    - unfold bind at 1. unfold ret at 1. cbv beta iota. cbn [negb]; cbv iota. eexists _, _. split; [reflexivity|]. symmetry in BO.
      apply (does_moves delta random True (LWriter c) [] (RBool false) l w l' G H M OU KE); auto; try congruence; [apply zlen_nonneg|].
      intros s R EX. split; [change (zlen (@nil Z)) with 0; pose proof (r_pos _ _ _ R); pose proof (r_high _ _ _ R); lia|]. split; [congruence|auto].
  Qed.
  Lemma does_bytes c d l : good delta l -> bytes_of c = Some d -> call_ok c -> exists r l', lexec (LWriter c) l = Some (r, l') /\ does (LWriter c) l r l'.
  Proof.
    intros G B C.
    assert (F : forall f, (exists b l', f l = Some (b, l') /\ does (LWriter c) l (RBool b) l') -> exists r l', (b <- f; ret (RBool b)) l = Some (r, l') /\ does (LWriter c) l r l').
    { intros f (b & l' & E & D). rewrite (lbind_some _ _ _ _ _ E). eexists _, _. split; [reflexivity|exact D]. }
    destruct c; try discriminate B; cbn [bytes_of] in B; injection B as <-; cbn [call_ok] in C.
    - apply F. unfold Write. unfold bind at 1. unfold get at 1. cbv beta iota. destruct (zlen src <=? lavailable l) eqn:A.
      + destruct (does_store delta random (CWrite src) src l G eq_refl ltac:(lia)) as [E D]. rewrite (lbind_some _ _ _ _ _ E). eexists _, _. split; [reflexivity|exact D].
      + apply (does_WriteInternal delta random (CWrite src) src); auto; [apply Write_ok|apply wk_Write|intros n _ _; apply Write_ok].
    - apply F. unfold WriteChar. apply (does_push 1 0 (CWriteChar c)); auto; try lia; try (change (zlen [c]) with 1; lia).
    - apply F. unfold WriteExternal. unfold bind at 1. unfold get at 1. cbv beta iota. destruct ((zlen src <=? lavailable l) && (zlen src <=? kMaxBytesToCopy)) eqn:A.
      + destruct (does_store delta random (CWriteExternal src) src l G eq_refl ltac:(lia)) as [E D]. rewrite (lbind_some _ _ _ _ _ E). eexists _, _. split; [reflexivity|exact D].
      + rewrite lbind_assert by lia. apply (does_WriteInternal delta random (CWriteExternal src) src); auto; [apply WriteExternal_ok|apply wk_External|].
        intros n _ _. pose proof (WriteChain_ok [ztake n src]) as X. cbn [concat] in X. rewrite app_nil_r in X. exact X.
    - apply F. unfold WriteChain. unfold bind at 1. unfold get at 1. cbv beta iota. destruct ((zlen (concat src) <=? lavailable l) && (zlen (concat src) <=? kMaxBytesToCopy)) eqn:A.
      + destruct (does_store delta random (CWriteChain src) (concat src) l G eq_refl ltac:(lia)) as [E D]. rewrite (lbind_some _ _ _ _ _ E). eexists _, _. split; [reflexivity|exact D].
      + rewrite lbind_assert by lia. apply (does_WriteInternal delta random (CWriteChain src) (concat src)); auto; [apply WriteChain_ok|apply wk_Chain|].
        intros n N _. pose proof (WriteChain_ok (take_blocks n src)) as X. rewrite concat_take_blocks in X by lia. exact X.
    - apply F. unfold WriteFill. unfold bind at 1. unfold get at 1. cbv beta iota. set (d := repeat fill (Z.to_nat n)). assert (ZD : zlen d = n) by (unfold d, zlen; rewrite repeat_length; lia).
      destruct ((n <=? lavailable l) && (n <=? kMaxBytesToCopy)) eqn:A.
      + destruct (does_store delta random (CWriteFill n fill) d l G eq_refl ltac:(lia)) as [E D]. rewrite (lbind_some _ _ _ _ _ E). eexists _, _. split; [reflexivity|exact D].
      + rewrite lbind_assert by lia. pose proof (does_WriteInternal delta random (CWriteFill n fill) d (BufferedWriter.WriteFill n fill) (fun m => BufferedWriter.WriteFill m fill) l G eq_refl (WriteFill_ok n fill C) (wk_Fill n fill)) as X. rewrite ZD in X. apply X.
        intros m N _. unfold d. rewrite ztake_repeat by lia. apply WriteFill_ok. lia.
    - destruct C as (C1 & C2 & C3). destruct (does_push min_length recommended_length (CPush min_length recommended_length src) src l G eq_refl C3 C1 C2) as (b & l' & E & D).
      exists (RBool b), l'. split; [|exact D]. cbn [lexec]. unfold bind in *. destruct (Push min_length recommended_length l) as [[p l1]|]; [|discriminate]. destruct p; cbn [negb] in *; cbv iota in *; [|cbv [ret] in *; congruence].
      destruct (lput src l1) as [[u l2]|]; [|discriminate]. cbv [ret] in *. congruence.
  Qed.
End S.
