(** Close(), calls after a failure, and histories of calls of the limiting writer. *)
From Verif Require Import Base.Bytes Spec.PosixFile Model.BufferSizer Model.BufferedWriter.
From Verif Require Import Proof.PosixProof Proof.WriterLemmas Proof.WriterSteps Proof.WriterCalls Proof.WriterDead Proof.WriterSeeks Proof.WriterMore Proof.WriterKeep.
From Verif Require Import Model.LimitingWriter Spec.LimitingWriterSpec Proof.LimWriterLemmas Proof.LimWriterRel Proof.LimWriterCalls Proof.LimWriterMore Proof.LimWriterOther Proof.LimWriterRest.
Import BufferedWriter(writer, call).
Import BufferedWriterSpec(bytes_of, call_ok).
Notation file w := (f_content (w_fd w)).
Notation kMax := kMaxFdPosition.

Section S.
  Variables (delta : Z) (random : bool).
  Notation rel := (rel delta).
  Notation live := (live delta random).
  Notation does := (does delta random).
  Notation after := (after delta random).

  Lemma does_Close l : good delta l -> exists r l', lexec (LWriter CClose) l = Some (r, l') /\ does (LWriter CClose) l r l'.
  Proof.
    intros G. cbn [lexec]. destruct (good_open _ _ G) as [OP FA]. pose proof (good_cur _ _ G) as (C1 & C2 & C3). pose proof (g_max _ _ G) as GM. pose proof (g_max64 _ _ G) as M64. pose proof (cutw_inv _ _ G) as CI.
    assert (CL : link delta (cutw l)) by (apply link_buf, (g_link _ _ G)).
    (* before closing the original writer *)
    assert (X : exists b0 pos l3, Close l = close_tail (l_owning l) pos l3 /\ l_dest l3 = cutw l /\ opts l l3 /\ l_failed l3 = negb b0 /\ 0 <= pos <= l_max_pos l3 /\ l_max_pos l3 = l_max_pos l /\
      forall s, rel s l -> b0 = (zlen (a_excess s) =? 0) && negb (l_exact l && (a_pos s <? a_limit s))).
    { rewrite Close_tail_eq by exact OP. rewrite (g_ok _ _ G). destruct (Z.le_gt_cases (l_start_pos l + l_cur l) (l_max_pos l)) as [H|H].
      - rewrite (lbind_some _ _ _ _ _ (SyncBuffer_ok _ _ G H)). rewrite (lbind_some _ _ _ (l_start_pos l + l_cur l) (set_dest (full l) l)) by (apply (get_lpos_ok (set_dest (full l) l)); lcbn; lia).
        unfold bind at 1. unfold get at 1. cbv beta iota. lcbn. assert (CF : cutw l = full l) by (unfold cutw, full; rewrite Z.min_l by lia; reflexivity).
        assert (SB : forall s, rel s l -> (zlen (a_excess s) =? 0) && negb (l_exact l && (a_pos s <? a_limit s)) = negb (l_exact l && (l_start_pos l + l_cur l <? l_max_pos l))).
        { intros s R. pose proof (rel_no_excess _ _ _ R H) as EX. pose proof (rel_end _ _ _ R) as RE. unfold end_pos in RE. rewrite EX in *. change (zlen (@nil Z)) with 0 in *. rewrite RE, Z.add_0_r, (r_limit _ _ _ R). reflexivity. }
        destruct (l_exact l && (l_start_pos l + l_cur l <? l_max_pos l)) eqn:Q.
        + rewrite lbind_bind, (lbind_some _ _ _ _ _ (annotate_ok (set_dest (full l) l) ltac:(lcbn; exact (g_inv _ _ G)))). destruct (FailWithoutAnnotation_ok (set_dest (full l) l)) as (l3 & E & D3 & OPT & F3 & O3 & S3 & M3 & _ & CL3). destruct (CL3 FA) as [CU LI].
          rewrite (lbind_some _ _ _ _ _ E). cbn [set_dest l_dest l_start_pos l_max_pos] in D3, S3, M3. rewrite (lbind_some _ _ _ (l_start_pos l) l3) by (rewrite get_lpos_ok by (rewrite S3, LI; lia); rewrite S3, CU, Z.add_0_r; reflexivity).
          exists false, (l_start_pos l), l3. split; [reflexivity|]. split; [congruence|]. split; [exact OPT|]. split; [exact F3|]. split; [lia|]. split; [exact M3|]. intros s R. rewrite (SB s R). reflexivity.
        + unfold bind at 1. unfold ret at 1. cbv beta iota. rewrite (lbind_some _ _ _ (l_start_pos l + l_cur l) (set_dest (full l) l)) by (apply (get_lpos_ok (set_dest (full l) l)); lcbn; lia).
          exists true, (l_start_pos l + l_cur l), (set_dest (full l) l). split; [reflexivity|]. lcbn. split; [congruence|]. split; [split; reflexivity|]. split; [exact FA|]. split; [lia|]. split; [reflexivity|]. intros s R. rewrite (SB s R). reflexivity.
      - rewrite (lbind_some _ _ _ _ _ (SyncBuffer_exceeded _ _ G ltac:(lia))). set (l1 := flimit (set_dest (cutw l) l)). assert (GP : get_lpos l1 = Some (l_max_pos l, l1)) by (rewrite get_lpos_ok by (unfold l1, flimit; lcbn; lia); unfold l1, flimit; lcbn; rewrite Z.add_0_r; reflexivity).
        rewrite (lbind_some _ _ _ _ _ GP). unfold bind at 1. unfold get at 1. cbv beta iota. unfold l1 at 1 2. unfold flimit at 1 2. lcbn. replace (l_max_pos l <? l_max_pos l) with false by lia. rewrite andb_false_r. unfold bind at 1. unfold ret at 1. cbv beta iota.
        rewrite (lbind_some _ _ _ _ _ GP). exists false, (l_max_pos l), l1. split; [reflexivity|]. unfold l1, flimit. lcbn. split; [reflexivity|]. split; [split; reflexivity|]. split; [reflexivity|]. split; [lia|]. split; [reflexivity|].
        intros s R. pose proof (rel_excess _ _ _ R ltac:(lia)) as EX. destruct (a_excess s) as [|x e]; [congruence|]. rewrite zlen_cons. pose proof (zlen_nonneg e). replace (1 + zlen e =? 0) with false by lia. reflexivity. }
    destruct X as (b0 & pos & l3 & E & D3 & [OE OO] & F3 & P3 & M3 & SP). rewrite <- OO in E.
    destruct (close_tail_ok pos l3) as (b & l' & E2 & B & [OE2 OO2] & CT); [rewrite D3; exact CI|rewrite D3; intros _; exists delta; exact CL|exact P3|rewrite M3; exact M64|].
    rewrite E2 in E. rewrite (lbind_some _ _ _ _ _ E). exists (RBool b), l'. split; [reflexivity|]. split; [exact (bad_safe _ B)|]. split; [split; congruence|].
    intros s R _. specialize (SP s R). destruct (exceeded_fin delta random s l R) as [FI LV]. rewrite F3, negb_involutive, D3 in CT.
    assert (AFT : fin delta (a_content s) (a_pos s) (l_dest l') -> (live l -> finlive delta (l_dest l')) -> after (LWriter CClose) s (exceeded s) l l').
    { intros X1 X2. constructor; [rewrite (b_ok _ B); reflexivity|auto|intros _ X; rewrite (b_ok _ B) in X; discriminate|]. intros _ _. split; [exact X1|]. split; [intros Q _; exact (X2 Q)|discriminate]. }
    destruct (l_owning l3) eqn:OW.
    - destruct CT as (cb & EC & BB & CN). destruct (fin_Close _ _ _ _ _ _ FI EC) as [F' LV']. destruct cb.
      + rewrite andb_true_r in BB. subst b. left. exists (exceeded s). split; [cbn [lstep bytes_of]; rewrite SP; auto|]. apply AFT; [exact F'|]. intros Q. apply (LV' (LV Q)).
      + rewrite andb_false_r in BB. subst b. right. split; [auto|]. split; [exact (b_ok _ B)|]. split; [exact (CN eq_refl)|]. intros (Q & _). destruct (LV' (LV Q)). discriminate.
    - destruct CT as [DD BB]. subst b. left. exists (exceeded s). split; [cbn [lstep bytes_of]; rewrite SP; auto|]. apply AFT; [rewrite DD, ?D3; exact FI|rewrite DD, ?D3; exact LV].
  Qed.
  Lemma exec_good c l : good delta l -> lcall_ok c -> exists r l', lexec c l = Some (r, l') /\ does c l r l'.
  Proof.
    intros G C. destruct c as [c| | | |]; [|exact (does_FlushFromObject _ _ l G)|apply does_limit; auto..]. destruct (bytes_of c) as [d|] eqn:B; [exact (does_bytes _ _ c d l G B C)|]. cbn [lcall_ok] in C.
    destruct c; try discriminate B; cbn [call_ok] in C.
    - apply does_Flush; auto.
    - apply does_Seek; auto.
    - apply does_Size; auto.
    - apply does_Truncate; auto.
    - apply does_hint; auto.
    - apply does_SRA; auto.
    - apply does_Fail; auto.
    - apply does_Close; auto.
  Qed.
End S.

(** A writer which has failed or is closed *)
Record dies (c : lcall) (l : limiter) (r : result) (l' : limiter) : Prop := {
  e_bad : bad l'; e_opts : opts l l'; e_file : c <> LWriter CClose -> file (l_dest l') = file (l_dest l); e_bytes : bytes c <> [] -> r = RBool false; e_flush : flushes (l_owning l) c = true -> r = RBool false;
  e_fin : forall delta x p, fin delta x p (l_dest l) -> fin delta x p (l_dest l') /\ (finlive delta (l_dest l) -> finlive delta (l_dest l')) }.
Lemma dies_same c l r l' : bad l' -> opts l l' -> l_dest l' = l_dest l -> (bytes c <> [] -> r = RBool false) -> (flushes (l_owning l) c = true -> r = RBool false) -> dies c l r l'.
Proof. intros B OPT D Y F. constructor; auto; rewrite D; auto. Qed.
Ltac ds := apply dies_same; [|first [assumption | split; reflexivity]|first [assumption | reflexivity]|first [assumption | cbn; congruence]|first [assumption | cbn; congruence]].
Lemma lput_bad l : bad l -> lput [] l = Some (tt, l).
Proof.
  intros B. unfold lput. cbv [bind get modify]. unfold assert, lavailable. rewrite (b_cur _ B), (b_lim _ B). change (zlen (@nil Z)) with 0. pose proof (zlen_nonneg (w_buf (l_dest l))). replace (_ && _) with true by lia.
  rewrite Z.add_0_l, (ztake_nonpos 0), (zdrop_nonpos 0) by lia. cbn [app]. rewrite set_buf_id, set_dest_id. unfold set_buffer. f_equal. f_equal. destruct l. cbn in *. destruct B; cbn in *. subst. reflexivity.
Qed.
Lemma WriteInternal_bad n f g l : bad l -> WriteInternal n f g l = Some (false, l).
Proof. intros B. unfold WriteInternal. unfold bind at 1. unfold get at 1. cbv beta iota. rewrite lbind_assert by (pose proof (b_start _ B); lia). rewrite (b_ok _ B). reflexivity. Qed.
Lemma zlen_le_nil (d : list Z) : zlen d <= 0 -> d = [].
Proof. destruct d as [|x d]; [auto|]. rewrite zlen_cons. pose proof (zlen_nonneg d). lia. Qed.
Lemma push_bad min rec d l : bad l -> zlen d <= min -> exists b, (pushed <- Push min rec; if negb pushed then ret false else lput d;; ret true) l = Some (b, l) /\ (d <> [] -> b = false).
Proof.
  intros B H. unfold Push. rewrite lbind_bind. unfold bind at 1. unfold get at 1. cbv beta iota. unfold lavailable. rewrite (b_cur _ B), (b_lim _ B). destruct (min <=? 0 - 0) eqn:A.
  - rewrite (zlen_le_nil d) by lia. unfold bind at 1. unfold ret at 1. cbn [negb]; cbv beta iota. rewrite (lbind_some _ _ _ _ _ (lput_bad l B)). eexists. split; [reflexivity|]. congruence.
  - rewrite lbind_bind. unfold PushSlow. rewrite lbind_bind. unfold bind at 1. unfold get at 1. cbv beta iota. rewrite lbind_bind, lbind_assert by (unfold lavailable; rewrite (b_cur _ B), (b_lim _ B); lia).
    rewrite (lbind_some _ _ _ _ _ (with_dest_bad false _ l B)). cbv [bind get ret negb]. eexists. split; [reflexivity|]. auto.
Qed.
Lemma exec_bad c l : bad l -> lcall_ok c -> (match c with LWriter (CSetWriteSizeHint _) => l_owning l && negb (l_exact l) = false | _ => True end) ->
  exists r l', lexec c l = Some (r, l') /\ dies c l r l'.
Proof.
  intros B C HQ. pose proof (b_start _ B) as BS. pose proof (b_max64 _ B) as M64. pose proof kMaxPosition_value as KV.
  assert (SAME : forall c r, (bytes c <> [] -> r = RBool false) -> (flushes (l_owning l) c = true -> r = RBool false) -> dies c l r l) by (intros; apply dies_same; auto; split; reflexivity).
  assert (GP : get_lpos l = Some (l_start_pos l, l)) by (rewrite get_lpos_ok by (rewrite (b_lim _ B); lia); rewrite (b_cur _ B), Z.add_0_r; reflexivity).
  assert (LIM : forall m c, 0 <= m < 2 ^ 64 -> is_limit c = true -> exists l', set_max_pos m l = Some (tt, l') /\ dies c l RUnit l').
  { intros m c0 M CC. assert (NB : bytes c0 <> [] -> RUnit = RBool false) by (destruct c0; try discriminate CC; cbn; congruence). assert (NF : flushes (l_owning l) c0 = true -> RUnit = RBool false) by (destruct c0; try discriminate CC; cbn; congruence).
    unfold set_max_pos. cbv [bind modify get]. lcbn. destruct (m <? l_start_pos l) eqn:Q.
    - rewrite (FailLimitExceeded_ok (set_max m l)) by (lcbn; exact (b_inv _ B)). cbv [ret]. eexists. split; [reflexivity|]. ds. apply flimit_bad; lcbn; [exact (b_inv _ B)|lia|exact (b_link _ B)].
    - cbv [ret]. eexists. split; [reflexivity|]. ds. destruct B; constructor; lcbn; auto; lia. }
  destruct c as [c| |m|n|]; cbn [lexec].
  2:{ unfold FlushFromObject. rewrite lbind_bind. unfold bind at 1. unfold get at 1. cbv beta iota. rewrite (lbind_some _ _ _ _ _ (with_dest_bad false _ l B)). eexists _, _. split; [reflexivity|]. apply SAME; auto. }
  2:{ destruct (LIM m (LSetMaxPos m) C eq_refl) as (l' & E & D). rewrite (lbind_some _ _ _ _ _ E). eexists _, _. split; [reflexivity|exact D]. }
  2:{ cbn [lcall_ok] in C. unfold set_max_length. rewrite lbind_bind, (lbind_some _ _ _ _ _ GP). rewrite lbind_bind. unfold bind at 1. unfold get at 1. cbv beta iota.
      assert (U : u64 (kMaxPosition - l_start_pos l) = kMaxPosition - l_start_pos l) by (unfold u64; apply Z.mod_small; lia). rewrite U. destruct (kMaxPosition - l_start_pos l <? n) eqn:Q.
      - rewrite lbind_bind. destruct (l_exact l).
        + assert (FB : exists l1, Fail l = Some (false, l1) /\ bad l1 /\ opts l l1 /\ l_dest l1 = l_dest l).
          { unfold Fail. cbv [bind get modify ret]. destruct (l_failed l) eqn:F; [exists l; split; [reflexivity|]; split; [exact B|]; split; [split; reflexivity|reflexivity]|].
            assert (OP : l_open l = false) by (pose proof (b_ok _ B) as X; unfold lok in X; rewrite F in X; destruct (l_open l); [discriminate|reflexivity]). rewrite OP. lcbn. eexists. split; [reflexivity|].
            split; [|split; [split; reflexivity|reflexivity]]. destruct B. constructor; unfold lok; lcbn; auto. }
          destruct FB as (l1 & E & B1 & OPT & D1). rewrite lbind_bind, (lbind_some _ _ _ _ _ E). cbv [bind ret modify]. eexists _, _. split; [reflexivity|]. ds. pose proof (b_start _ B1). pose proof (b_max64 _ B1). destruct B1; constructor; lcbn; auto; lia.
        + cbv [bind ret modify]. eexists _, _. split; [reflexivity|]. ds. destruct B; constructor; lcbn; auto; lia.
      - assert (U2 : u64 (l_start_pos l + n) = l_start_pos l + n) by (unfold u64; apply Z.mod_small; lia). rewrite U2. destruct (LIM (l_start_pos l + n) (LSetMaxLength n) ltac:(lia) eq_refl) as (l' & E & D). rewrite (lbind_some _ _ _ _ _ E). eexists _, _. split; [reflexivity|exact D]. }
  2:{ cbv [clear_limit bind ret modify]. eexists _, _. split; [reflexivity|]. ds. destruct B; constructor; lcbn; auto; lia. }
  cbn [lcall_ok] in C. destruct c; cbn [lexec]; cbn [call_ok] in C.
  - unfold Write. rewrite lbind_bind. unfold bind at 1. unfold get at 1. cbv beta iota. unfold lavailable. rewrite (b_cur _ B), (b_lim _ B). destruct (zlen src <=? 0 - 0) eqn:A.
    + rewrite (zlen_le_nil src) by lia. rewrite lbind_bind, (lbind_some _ _ _ _ _ (lput_bad l B)). eexists _, _. split; [reflexivity|]. apply SAME; cbn; congruence.
    + rewrite (lbind_some _ _ _ _ _ (WriteInternal_bad _ _ _ l B)). eexists _, _. split; [reflexivity|]. apply SAME; auto.
  - destruct (push_bad 1 0 [c] l B ltac:(change (zlen [c]) with 1; lia)) as (b & E & BB). unfold WriteChar. rewrite (lbind_some _ _ _ _ _ E). eexists _, _. split; [reflexivity|]. apply SAME; [|discriminate]. intros _. rewrite BB by discriminate. reflexivity.
  - unfold WriteExternal. rewrite lbind_bind. unfold bind at 1. unfold get at 1. cbv beta iota. unfold lavailable. rewrite (b_cur _ B), (b_lim _ B). destruct ((zlen src <=? 0 - 0) && (zlen src <=? kMaxBytesToCopy)) eqn:A.
    + rewrite (zlen_le_nil src) by lia. rewrite lbind_bind, (lbind_some _ _ _ _ _ (lput_bad l B)). eexists _, _. split; [reflexivity|]. apply SAME; cbn; congruence.
    + rewrite lbind_bind, lbind_assert by (change kMaxBytesToCopy with 511 in *; lia). rewrite (lbind_some _ _ _ _ _ (WriteInternal_bad _ _ _ l B)). eexists _, _. split; [reflexivity|]. apply SAME; auto.
  - unfold WriteChain. rewrite lbind_bind. unfold bind at 1. unfold get at 1. cbv beta iota. unfold lavailable. rewrite (b_cur _ B), (b_lim _ B). destruct ((zlen (concat src) <=? 0 - 0) && (zlen (concat src) <=? kMaxBytesToCopy)) eqn:A.
    + assert (Y : concat src = []) by (apply zlen_le_nil; lia). rewrite Y. rewrite lbind_bind, (lbind_some _ _ _ _ _ (lput_bad l B)). eexists _, _. split; [reflexivity|]. apply SAME; cbn; congruence.
    + rewrite lbind_bind, lbind_assert by (change kMaxBytesToCopy with 511 in *; lia). rewrite (lbind_some _ _ _ _ _ (WriteInternal_bad _ _ _ l B)). eexists _, _. split; [reflexivity|]. apply SAME; auto.
  - unfold WriteFill. rewrite lbind_bind. unfold bind at 1. unfold get at 1. cbv beta iota. unfold lavailable. rewrite (b_cur _ B), (b_lim _ B). destruct ((n <=? 0 - 0) && (n <=? kMaxBytesToCopy)) eqn:A.
    + replace n with 0 by lia. cbn [Z.to_nat repeat]. rewrite lbind_bind, (lbind_some _ _ _ _ _ (lput_bad l B)). eexists _, _. split; [reflexivity|]. apply SAME; cbn; congruence.
    + rewrite lbind_bind, lbind_assert by (change kMaxBytesToCopy with 511 in *; lia). rewrite (lbind_some _ _ _ _ _ (WriteInternal_bad _ _ _ l B)). eexists _, _. split; [reflexivity|]. apply SAME; auto.
  - destruct C as (C1 & C2 & C3). destruct (push_bad min_length recommended_length src l B C3) as (b & E & BB). exists (RBool b), l. split; [|apply SAME; [cbn; intros X; rewrite (BB X); reflexivity|discriminate]].
    unfold bind in *. destruct (Push min_length recommended_length l) as [[p l1]|]; [|discriminate]. destruct p; cbn [negb] in *; cbv iota in *; [|cbv [ret] in *; congruence]. destruct (lput src l1) as [[u l2]|]; [|discriminate]. cbv [ret] in *. congruence.
  - unfold Flush. rewrite (lbind_some _ _ _ _ _ (with_dest_bad false _ l B)). eexists _, _. split; [reflexivity|]. apply SAME; auto.
  - unfold Seek. rewrite lbind_bind, (lbind_some _ _ _ _ _ GP), lbind_bind. unfold bind at 1. unfold get at 1. cbv beta iota. destruct (new_pos =? l_start_pos l).
    + eexists _, _. split; [reflexivity|]. apply SAME; cbn; congruence.
    + cbv zeta. rewrite lbind_bind, (lbind_some _ _ _ _ _ (with_dest_bad false _ l B)). eexists _, _. split; [reflexivity|]. apply SAME; cbn; congruence.
  - unfold Size. rewrite (lbind_some _ _ _ _ _ (with_dest_bad None _ l B)). eexists _, _. split; [reflexivity|]. apply SAME; cbn; congruence.
  - unfold Truncate. rewrite lbind_bind. unfold bind at 1. unfold get at 1. cbv beta iota. rewrite lbind_bind, lbind_assert by lia. rewrite (b_ok _ B). cbn [negb]; cbv iota. eexists _, _. split; [reflexivity|]. apply SAME; cbn; congruence.
  - unfold SetWriteSizeHint. rewrite lbind_bind. unfold bind at 1. unfold get at 1. cbv beta iota. rewrite HQ. eexists _, _. split; [reflexivity|]. apply SAME; cbn; congruence.
  - (* SupportsRandomAccess() *)
    unfold SupportsRandomAccess. destruct (ok (l_dest l)) eqn:O.
    + destruct (b_link _ B O) as [d0 L0]. destruct (SupportsRandomAccess_ok d0 (l_dest l) (b_inv _ B) O L0) as (b & w & E & M & SB & _ & _ & NS & FI). rewrite (lbind_on_dest _ _ _ _ _ E). eexists _, _. split; [reflexivity|].
      constructor; lcbn; try (cbn; congruence); try (split; reflexivity).
      * destruct B. constructor; unfold lok; lcbn; auto; [exact (m_inv _ _ _ _ _ M)|]. intros O'. exists d0. apply (m_view _ _ _ _ _ M O').
      * intros _. destruct (ok w) eqn:O'; [destruct (SB eq_refl) as (_ & _ & _ & _ & _ & _ & X); exact X|]. apply (FI eq_refl).
      * intros d x p F. destruct (f_view _ _ _ _ F O) as [L1 V].
        destruct (SupportsRandomAccess_ok d (l_dest l) (b_inv _ B) O L1) as (b' & w' & E' & M' & SB' & RT' & _ & NS' & FI'). rewrite E in E'. injection E' as <- <-.
        split; [constructor|].
        -- exact (m_inv _ _ _ _ _ M).
        -- intros O'. destruct (m_view _ _ _ _ _ M' O') as [L2 _]. split; [exact L2|]. rewrite (proj1 (same_view d _ _ (SB' O'))). exact V.
        -- intros X. rewrite (fr_open _ _ (m_frame _ _ _ _ _ M)) in X. apply ok_iff in O. destruct O. congruence.
        -- intros [(_ & NF & FT)|[X _]]; [|apply ok_iff in O; destruct O; congruence]. left. destruct (m_nofail _ _ _ _ _ M' NF) as [NF' _].
           assert (K : ok w = true).
           { destruct (w_random (l_dest l)) as [y|] eqn:RN.
             - assert (Y : BufferedWriter.SupportsRandomAccess (l_dest l) = Some (y, l_dest l)) by (unfold BufferedWriter.SupportsRandomAccess; rewrite WriterLemmas.bind_get, RN; reflexivity). rewrite E in Y. injection Y as _ ->. exact O.
             - apply RT'. apply (NS' NF). unfold seekable. congruence. }
           split; [exact K|]. split; [exact NF'|]. pose proof (SB' K) as Y. destruct (same_view d _ _ Y) as [_ U]. destruct Y as (Y & _). unfold fits in *. rewrite U, Y. exact FT.
    + destruct (dead_random (l_dest l) (b_inv _ B) O) as (b & E & _). rewrite (lbind_on_dest _ _ _ _ _ E), set_dest_id. eexists _, _. split; [reflexivity|]. apply SAME; cbn; congruence.
  - (* Fail() *)
    unfold Fail. cbv [bind get modify ret]. destruct (l_failed l) eqn:F; [eexists _, _; split; [reflexivity|]; apply SAME; cbn; congruence|].
    assert (OP : l_open l = false) by (pose proof (b_ok _ B) as X; unfold lok in X; rewrite F in X; destruct (l_open l); [discriminate|reflexivity]). rewrite OP. lcbn. eexists _, _. split; [reflexivity|].
    ds. destruct B. constructor; unfold lok; lcbn; auto.
  - (* Close() *)
    destruct (l_open l) eqn:OP.
    2:{ unfold Close. rewrite lbind_bind. unfold bind at 1. unfold get at 1. cbv beta iota. rewrite OP. cbn [negb]; cbv iota. eexists _, _. split; [reflexivity|]. apply SAME; cbn; congruence. }

    assert (X : exists l3, Close l = close_tail (l_owning l) (l_start_pos l) l3 /\ l_dest l3 = l_dest l /\ opts l l3 /\ l_max_pos l3 = l_max_pos l).
    { rewrite Close_tail_eq by exact OP. rewrite (b_ok _ B). unfold bind at 1. unfold ret at 1. cbv beta iota. rewrite (lbind_some _ _ _ _ _ GP). unfold bind at 1. unfold get at 1. cbv beta iota.
      assert (F : l_failed l = true) by (pose proof (b_ok _ B) as Y; unfold lok in Y; rewrite OP in Y; destruct (l_failed l); [reflexivity|discriminate]).
      destruct (l_exact l && (l_start_pos l <? l_max_pos l)).
      - rewrite lbind_bind, (lbind_some _ _ _ _ _ (annotate_ok l (b_inv _ B))). destruct (FailWithoutAnnotation_ok l) as (l3 & E & _ & _ & _ & _ & _ & _ & EQ & _). rewrite (EQ F) in E. rewrite (lbind_some _ _ _ _ _ E).
        rewrite (lbind_some _ _ _ _ _ GP). exists l. split; [reflexivity|]. split; [reflexivity|]. split; [split; reflexivity|reflexivity].
      - unfold bind at 1. unfold ret at 1. cbv beta iota. rewrite (lbind_some _ _ _ _ _ GP). exists l. split; [reflexivity|]. split; [reflexivity|]. split; [split; reflexivity|reflexivity]. }
    destruct X as (l3 & E & D3 & [OE OO] & M3). rewrite <- OO in E.
    destruct (close_tail_ok (l_start_pos l) l3) as (b & l' & E2 & B' & [OE2 OO2] & CT); [rewrite D3; exact (b_inv _ B)|rewrite D3; exact (b_link _ B)|rewrite M3; exact BS|rewrite M3; exact M64|].
    rewrite E2 in E. rewrite (lbind_some _ _ _ _ _ E). eexists _, _. split; [reflexivity|]. constructor; try (cbn; congruence); auto; [split; congruence|].
    intros d x p F. destruct (l_owning l3).
    + destruct CT as (cb & EC & _). rewrite D3 in EC. destruct (fin_Close _ _ _ _ _ _ F EC) as [F' LV]. split; [exact F'|]. intros Q. apply (LV Q).
    + destruct CT as [DD _]. rewrite DD, D3. auto.
Qed.
