(** Synchronizing, closing and opening of the buffered reader, and histories of calls. *)
From Verif Require Import Base.Bytes Model.BufferSizer Proof.BufferSizerProof.
From Verif Require Import Model.BufferedReader Spec.BufferedReaderSpec Proof.ReaderLemmas Proof.ReaderSteps Proof.ReaderSeeks.
Import BufferedWriter(fd, f_content, f_pos, f_append, f_calls, Build_fd, next_call, kMaxFdPosition, sys_seek, sys_size, sys_tell, sys_other).

Section S.
  Variables (content : list Z) (shift : Z).
  Notation raw := (raw content shift). Notation inv := (inv content shift). Notation frame := (frame content shift). Notation live := (live content shift).
  Notation size := (size content shift). Notation consumes := (consumes content shift). Notation reliable := (reliable content shift). Notation hollow := (hollow content shift).

  Lemma ReadHint_ok min rec r : inv r -> 0 <= min <= 2 ^ 63 -> 0 <= rec -> wp (ReadHint min rec) r (fun _ r' => consumes [] r r').
  Proof.
    intros I1 M1 RC. unfold ReadHint. gt. destruct (min <=? available r) eqn:E; [apply wp_ret; exact (consumes_nil _ _ _ I1)|].
    bnd. eapply wp_conseq; [apply PullSlow_ok; [exact I1|lia|lia]|]. cbn beta. intros b r' (A & _). apply wp_ret. exact A.
  Qed.
  Lemma SetReadAllHint_ok h r : inv r -> wp (SetReadAllHint h) r (fun _ r' => inv r' /\ frame r r' /\ ok r' = ok r /\ pos r' = pos r).
  Proof.
    intros I1. unfold SetReadAllHint. apply wp_modify. split; [|split; [constructor; auto|split; reflexivity]].
    destruct I1 as [R C O B BS]. constructor; auto. destruct R. constructor; auto.
  Qed.
  Lemma Sync_ok r : inv r -> wp Sync r (fun b r' => inv r' /\ frame r r' /\ live r r' /\ b = ok r' /\ (ok r' = true -> pos r' = pos r) /\
    (b = true -> r_random r = true -> r_independent r = false -> f_pos (r_fd r') = pos r')).
  Proof.
    intros I1. destruct (pos_bounds _ _ _ I1) as (PB1 & PB2 & PB3 & PB4 & PB5 & PB6). unfold Sync. gt. destruct ((0 <? available r) && negb (r_random r)) eqn:E.
    - apply wp_ret. split; [exact I1|]. split; [apply frame_refl|]. split; [intros _ O; exact O|]. split; [reflexivity|]. split; [reflexivity|]. intros _ RN. rewrite RN in E. cbn in E. lia.
    - bnd. apply get_pos_ok with (content := content) (shift := shift); [exact I1|]. bnd. apply end_run_ok with (content := content) (shift := shift); [exact I1|]. intros r1 I2 F1 O1 B1 C1 L1. unfold SyncBuffer. md. gt.
      pose proof (inv_hollow _ _ _ I2) as H2. assert (F2 : frame r (set_buf [] 0 r1)) by exact (frame_trans _ _ _ _ _ F1 (frame_set_buf _ _ _ _ _)). set (r2 := set_buf [] 0 r1) in *.
      assert (L2 : r_limit_pos r2 = r_limit_pos r) by exact L1. assert (O2 : ok r2 = ok r) by exact O1. clearbody r2. bnd.
      assert (H : wp (if pos r =? r_limit_pos r2 then ret (ok r2) else SeekBehindBuffer (pos r)) r2 (fun b r' => hollow r' /\ frame r2 r' /\ live r2 r' /\ b = ok r' /\ (ok r' = true -> r_limit_pos r' = pos r))).
      { destruct (pos r =? r_limit_pos r2) eqn:PE.
        - apply wp_ret. split; [exact H2|]. split; [apply frame_refl|]. split; [intros _ O; exact O|]. split; [reflexivity|]. intros _. lia.
        - assert (RN : r_random r = true) by (destruct (r_random r); [reflexivity|cbn in E; lia]).
          eapply wp_conseq; [apply SeekBehind_random; [exact H2|rewrite (fr_rand _ _ _ _ F2); exact RN|exact PB2|lia]|]. cbn beta. intros b r3 (A1 & A2 & A3 & A4 & A5).
          split; [exact A1|]. split; [exact A2|]. split; [exact A3|]. destruct b; [split; [symmetry; apply A5|intros _; apply A5]|]. destruct (ok r3); [lia|]. split; [reflexivity|discriminate]. }
      apply (wp_conseq _ _ _ _ H). clear H. intros b r3 (A1 & A2 & A3 & A4 & A5). bnd. apply begin_run_ok with (content := content) (shift := shift); [exact A1|]. intros r4 I4 F4 O4 B4 P4 FD4. apply wp_ret.
      pose proof (frame_trans _ _ _ _ _ F2 (frame_trans _ _ _ _ _ A2 F4)) as FR.
      split; [exact I4|]. split; [exact FR|]. split; [intros RL O; rewrite O4; apply A3; [exact (fr_rel _ _ _ _ F2 RL)|congruence]|].
      split; [congruence|]. split; [rewrite O4, P4; exact A5|]. intros BT RN IN. pose proof (i_raw _ _ _ I4) as R4.
      rewrite (v_fpos _ _ _ R4); [|congruence|rewrite (fr_ind _ _ _ _ FR); exact IN]. rewrite (v_rand _ _ _ R4); [|rewrite (fr_rand _ _ _ _ FR); exact RN].
      destruct (pos_bounds _ _ _ I4) as (_ & _ & _ & Q & _). unfold available in Q. rewrite B4 in Q. change (zlen (@nil Z)) with 0 in Q. pose proof (i_cur _ _ _ I4) as C4. rewrite B4 in C4. change (zlen (@nil Z)) with 0 in C4. lia.
  Qed.
  Lemma inv_keep r r' : inv r -> raw r' -> r_buf r' = r_buf r -> r_cur r' = r_cur r -> r_limit_pos r' = r_limit_pos r -> rs_base_pos (r_sizer r') = rs_base_pos (r_sizer r) -> inv r'.
  Proof. intros [R C O B BS] R' E1 E2 E3 E4. constructor; rewrite ?E1, ?E2, ?E3, ?E4; assumption. Qed.
  Lemma keep_pos r r' : r_buf r' = r_buf r -> r_cur r' = r_cur r -> r_limit_pos r' = r_limit_pos r -> pos r' = pos r.
  Proof. intros E1 E2 E3. unfold pos, available. rewrite E1, E2, E3. reflexivity. Qed.
  Lemma Fail_inv r : inv r -> wp Fail r (fun _ r' => inv r' /\ frame r r' /\ ok r' = false /\ pos r' = pos r).
  Proof.
    intros I1. eapply wp_conseq; [exact (Fail_ok content shift _ (i_raw _ _ _ I1))|]. cbn beta. intros b r' (_ & A1 & A2 & A3 & A4 & A5 & A6 & A7).
    split; [apply (inv_keep r); auto; congruence|]. split; [exact A3|]. split; [exact A2|]. apply keep_pos; assumption.
  Qed.
  Lemma Size_ok r : inv r -> wp Size r (fun s r' => inv r' /\ frame r r' /\ (r_random r = true -> live r r') /\ pos r' = pos r /\ match s with Some n => n = size /\ ok r' = true | None => ok r' = false end).
  Proof.
    intros I1. pose proof (i_raw _ _ _ I1) as R. unfold Size. gt. destruct (ok r) eqn:O; cbn [negb].
    2:{ apply wp_ret. split; [exact I1|]. split; [apply frame_refl|]. split; [intros _ _ X; congruence|]. split; [reflexivity|exact O]. }
    destruct (v_exact _ _ _ R) as [X|X]; rewrite X.
    2:{ apply wp_ret. split; [exact I1|]. split; [apply frame_refl|]. split; [intros _ _ Y; congruence|]. split; [reflexivity|]. split; [reflexivity|exact O]. }
    destruct (r_random r) eqn:RN; cbn [negb].
    - bnd. apply wp_syscall. intros st f' E. destruct (sys_size_spec _ _ _ E) as (Q1 & Q2 & Q3 & Q4). rewrite (v_fd _ _ _ R) in Q4.
      assert (FF : frame r (set_fd f' r)) by (apply frame_fd; [intros Y; exact (proj1 (Q3 Y))|intros _; exact Q2]). assert (R1 : raw (set_fd f' r)) by (apply raw_fd; [exact R|exact Q1|intros _; exact Q2]).
      assert (I2 : inv (set_fd f' r)) by (apply (inv_keep r); auto).
      destruct st as [st|].
      + destruct Q4 as [Q4|Q4]; [discriminate|]. injection Q4 as ->. pose proof (raw_size _ _ _ R RN) as SZ. bnd. apply set_exact_ok with (content := content) (shift := shift); [exact R1|symmetry; exact SZ|].
        intros r1 A1 A2 A3 A4 A5 A6 A7 _. apply wp_ret.
        split; [apply (inv_keep (set_fd f' r)); auto|]. split; [exact (frame_trans _ _ _ _ _ FF A2)|]. split; [intros _ _ _; rewrite A3; exact O|].
        split; [apply (keep_pos (set_fd f' r)); assumption|]. split; [symmetry; exact SZ|rewrite A3; exact O].
      + bnd. eapply wp_conseq; [exact (Fail_inv _ I2)|]. cbn beta. intros _ r' (A1 & A2 & A3 & A4). apply wp_ret.
        split; [exact A1|]. split; [exact (frame_trans _ _ _ _ _ FF A2)|]. split; [intros _ [Y _]; destruct (Q3 Y); congruence|]. split; [exact A4|exact A3].
    - bnd. eapply wp_conseq; [exact (Fail_inv _ I1)|]. cbn beta. intros _ r' (A1 & A2 & A3 & A4). apply wp_ret.
      split; [exact A1|]. split; [exact A2|]. split; [discriminate|]. split; [exact A4|exact A3].
  Qed.
  Lemma VerifyEnd_ok r : inv r -> wp VerifyEnd r (fun _ r' => inv r' /\ frame r r' /\ (pos r = size -> live r r') /\ pos r' = pos r /\ (ok r' = true -> pos r = size)).
  Proof.
    intros I1. unfold VerifyEnd. bnd. eapply wp_conseq; [apply Pull_ok; [exact I1|lia|lia]|]. cbn beta. intros b r1 (A1 & A2 & A3). pose proof (c_inv _ _ _ _ _ A1) as I2.
    destruct (c_reads _ _ _ _ _ A1) as [_ PP]. change (zlen (@nil Z)) with 0 in PP. rewrite Z.add_0_r in PP. destruct (pos_bounds _ _ _ I2) as (PB1 & PB2 & PB3 & PB4 & PB5 & PB6).
    pose proof (c_frame _ _ _ _ _ A1) as F1. destruct b; cbn [negb].
    - gt. bnd.
      assert (H : wp (if SupportsSize r1 then Size;; get_pos;; ret tt else ret tt) r1 (fun _ r' => inv r' /\ frame r1 r' /\ pos r' = pos r1)).
      { destruct (SupportsSize r1); [|apply wp_ret; split; [exact I2|split; [apply frame_refl|reflexivity]]].
        bnd. eapply wp_conseq; [exact (Size_ok _ I2)|]. cbn beta. intros s r2 (B1 & B2 & _ & B3 & _). bnd. apply get_pos_ok with (content := content) (shift := shift); [exact B1|]. apply wp_ret. auto. }
      apply (wp_conseq _ _ _ _ H). clear H. intros _ r2 (B1 & B2 & B3). bnd. eapply wp_conseq; [exact (Fail_inv _ B1)|]. cbn beta. intros _ r3 (C1 & C2 & C3 & C4). apply wp_ret.
      split; [exact C1|]. split; [exact (frame_trans _ _ _ _ _ F1 (frame_trans _ _ _ _ _ B2 C2))|]. split; [lia|]. split; [lia|congruence].
    - apply wp_ret. split; [exact I2|]. split; [exact F1|]. split; [intros _; exact (c_live _ _ _ _ _ A1)|]. split; [exact PP|]. intros OK. specialize (A3 eq_refl OK). lia.
  Qed.
  Lemma Fail_plain r (Q : bool -> reader -> Prop) : zlen (r_buf r) <= r_limit_pos r -> Q false (set_state true (r_open r) r) -> wp Fail r Q.
  Proof.
    intros L H. unfold Fail. gt. destruct (r_failed r) eqn:F.
    - apply wp_ret. destruct r. cbn in *. subst. exact H.
    - md. destruct (r_open r) eqn:OP.
      + bnd. bnd. unfold get_pos. gt. ast; [rcbn; lia|]. apply wp_ret. apply wp_ret. apply wp_ret. exact H.
      + bnd. apply wp_ret. apply wp_ret. exact H.
  Qed.
  Lemma Close_ok r : inv r -> wp Close r (fun b r' => inv r' /\ (reliable r -> ok r = true -> b = true) /\ (b = true -> r_open r = true -> ok r = true) /\ r_random r' = r_random r /\ r_independent r' = r_independent r /\ (reliable r -> reliable r') /\ (r_independent r = true -> f_pos (r_fd r') = f_pos (r_fd r)) /\ ok r' = false /\
    (ok r = true -> b = true -> pos r' = pos r /\ (r_random r = true -> r_independent r = false -> f_pos (r_fd r') = pos r'))).
  Proof.
    intros I1. unfold Close. gt. destruct (r_open r) eqn:OP; cbn [negb].
    2:{ assert (O : ok r = false) by (unfold ok; rewrite OP; reflexivity). apply wp_ret. split; [exact I1|]. split; [congruence|]. split; [congruence|]. split; [reflexivity|]. split; [reflexivity|]. split; [auto|]. split; [reflexivity|]. split; [exact O|congruence]. }
    destruct (pos_bounds _ _ _ I1) as (PB1 & PB2 & PB3 & PB4 & PB5 & PB6). bnd.
    assert (H : wp (if (0 <? available r) && r_random r then new_pos <- get_pos; SyncBuffer;; SeekBehindBuffer new_pos;; ret tt else ret tt) r
      (fun _ r' => raw r' /\ zlen (r_buf r') - r_cur r' <= r_limit_pos r' + shift /\ 0 <= available r' /\ Z.max 0 (rs_base_pos (r_sizer r')) <= pos r' /\ frame r r' /\ (ok r' = true -> pos r' = pos r /\ (r_random r = true -> r_limit_pos r' = pos r)) /\ live r r')).
    { assert (BSE : rs_base_pos (r_sizer r) <= pos r) by (pose proof (i_base _ _ _ I1); pose proof (i_cur _ _ _ I1); unfold pos, available; lia).
      destruct ((0 <? available r) && r_random r) eqn:E.
      - bnd. apply get_pos_ok with (content := content) (shift := shift); [exact I1|]. unfold SyncBuffer. md. bnd. pose proof (inv_hollow _ _ _ I1) as H2.
        eapply wp_conseq; [apply SeekBehind_random; [exact H2|rcbn; destruct (r_random r); [reflexivity|lia]|exact PB2|rcbn; lia]|]. cbn beta. intros b r3 (A1 & A2 & A3 & A4 & A5). apply wp_ret.
        pose proof (hollow_pos _ _ _ A1) as HP. pose proof (h_raw _ _ _ A1) as R3. pose proof (v_off _ _ _ R3). pose proof (v_lim _ _ _ R3) as VL. rewrite (h_buf _ _ _ A1) in VL. change (zlen (@nil Z)) with 0 in VL.
        split; [exact R3|]. unfold available. rewrite (h_buf _ _ _ A1), (h_cur _ _ _ A1). change (zlen (@nil Z)) with 0. split; [lia|]. split; [lia|].
        split; [rcbn_in A4; rewrite A4, HP; destruct b; [lia|]; destruct (ok r3); rcbn_in A5; lia|].
        split; [exact (frame_trans _ _ _ _ _ (frame_set_buf _ _ _ _ _) A2)|]. split; [|exact (live_trans _ _ _ _ _ (frame_set_buf _ _ _ _ _) (fun _ O => O) A3)].
        intros O3. rewrite O3, HP in *. destruct b; [lia|]. cbn [set_buf r_limit_pos] in *. lia.
      - apply wp_ret. pose proof (i_off _ _ _ I1). pose proof (i_cur _ _ _ I1). split; [apply I1|]. split; [lia|]. split; [exact PB1|]. split; [lia|]. split; [apply frame_refl|]. split; [|intros _ O; exact O]. intros _. split; [reflexivity|]. intros RN. rewrite RN in E. lia. }
    apply (wp_conseq _ _ _ _ H). clear H. intros _ r1 (R1 & A1 & A2 & A3 & F1 & A4 & LV). bnd. unfold get_pos. gt. pose proof (v_lim _ _ _ R1) as VL. ast; [lia|]. apply wp_ret. md. unfold SyncBuffer. md. gt.
    set (r2 := set_buf [] 0 (set_limit_pos (r_limit_pos r1 - available r1) r1)). bnd.
    assert (OP1 : r_open r1 = true) by (rewrite (fr_open _ _ _ _ F1); exact OP).
    assert (H : wp (if r_owning r2 then closed <- syscall sys_other; if negb closed then Fail else ret true else ret true) r2 (fun _ r' => exists f b, r' = set_state b true (set_fd f r2) /\ f_content f = content /\
       f_pos f = f_pos (r_fd r1) /\ (reliable r1 -> Forall (fun n => 0 < n) (f_calls f) /\ b = r_failed r1) /\ (b = false -> r_failed r1 = false))).
    { assert (SAME : exists f b, r2 = set_state b true (set_fd f r2) /\ f_content f = content /\ f_pos f = f_pos (r_fd r1) /\ (reliable r1 -> Forall (fun n => 0 < n) (f_calls f) /\ b = r_failed r1) /\ (b = false -> r_failed r1 = false)).
      { exists (r_fd r1), (r_failed r1). split; [unfold r2; destruct r1; cbn in OP1; subst; reflexivity|]. split; [apply R1|]. split; [reflexivity|]. split; [intros X; split; [apply X|reflexivity]|auto]. }
      destruct (r_owning r2); [|apply wp_ret; exact SAME]. bnd. apply wp_syscall. intros b f' E. destruct (sys_other_spec _ _ _ E) as (Q1 & Q2 & Q3). change (r_fd r2) with (r_fd r1) in *.
      rewrite (v_fd _ _ _ R1) in Q1. destruct b; cbn [negb].
      - apply wp_ret. exists f', (r_failed r1). split; [unfold r2; destruct r1; cbn in OP1; subst; reflexivity|]. split; [exact Q1|]. split; [exact Q2|]. split; [intros [X _]; exact (conj (proj1 (Q3 X)) eq_refl)|auto].
      - apply Fail_plain; [unfold r2; rcbn; change (zlen (@nil Z)) with 0; unfold pos in A3; lia|]. exists f', true. split; [unfold r2; destruct r1; cbn in OP1; subst; reflexivity|].
        split; [exact Q1|]. split; [exact Q2|]. split; [intros [X _]; destruct (Q3 X) as [_ Y]; discriminate Y|discriminate]. }
    apply (wp_conseq _ _ _ _ H). clear H PB1 PB2 PB3 PB4 PB5 PB6. intros _ r3 (f & b & -> & B1 & B2 & B3 & B4). gt. md. apply wp_ret.
    assert (O5 : forall x, ok (set_state x false (set_state b true (set_fd f r2))) = false) by reflexivity.
    destruct R1 as [V1 V2 V3 V4 V5 V6 V7 V8 V9]. unfold pos, available in *.
    assert (IN : forall x, inv (set_state x false (set_state b true (set_fd f r2)))).
    { intros x. assert (SZ : zlen (@nil Z) = 0) by reflexivity. unfold r2. clear - V1 V2 V3 V4 V5 V6 V7 V8 V9 A1 A2 A3 B1 SZ.
      constructor; [constructor|..]; unfold exact_size in *; rcbn; unfold available; rewrite ?SZ; auto; try reflexivity; try discriminate; clear V9; lia. }
    split; [apply IN|].
    split; [intros RL O; cbn [set_state r_failed]; rewrite (proj2 (B3 (fr_rel _ _ _ _ F1 RL))); specialize (LV RL O); unfold ok in LV; apply andb_true_iff in LV; apply LV|].
    split; [cbn [set_state r_failed]; intros BT _; apply (fr_ok _ _ _ _ F1); unfold ok; rewrite OP1; rewrite B4; [reflexivity|]; destruct b; [discriminate|reflexivity]|].
    split; [exact (fr_rand _ _ _ _ F1)|]. split; [exact (fr_ind _ _ _ _ F1)|]. split; [intros RL; split; [exact (proj1 (B3 (fr_rel _ _ _ _ F1 RL)))|exact (proj2 RL)]|].
    split; [intros IND; rcbn; rewrite B2; exact (fr_fdpos _ _ _ _ F1 IND)|]. split; [apply O5|]. rcbn. intros O BT. assert (FF : r_failed r1 = false) by (apply B4; destruct b; [discriminate|reflexivity]).
    assert (O1 : ok r1 = true) by (unfold ok; rewrite OP1, FF; reflexivity). destruct (A4 O1) as [A5 A6]. unfold r2. rcbn. change (zlen (@nil Z)) with 0. unfold available. split; [lia|].
    intros RN IND. rewrite B2. rewrite (V5 O1) by (rewrite (fr_ind _ _ _ _ F1); exact IND). rewrite V7 by (rewrite (fr_rand _ _ _ _ F1); exact RN). specialize (A6 RN). lia.
  Qed.
End S.
