(** Seeking, synchronizing, closing and opening of the buffered reader. *)
From Verif Require Import Base.Bytes Model.BufferSizer Proof.BufferSizerProof.
From Verif Require Import Model.BufferedReader Spec.BufferedReaderSpec Proof.ReaderLemmas Proof.ReaderSteps.
Import BufferedWriter(fd, f_content, f_pos, f_append, f_calls, Build_fd, next_call, kMaxFdPosition, sys_seek, sys_size, sys_tell, sys_other).

Lemma sys_seek_spec p f b f' : sys_seek p f = (b, f') -> f_content f' = f_content f /\ (Forall (fun n => 0 < n) (f_calls f) -> Forall (fun n => 0 < n) (f_calls f') /\ b = true) /\
  (b = true -> f_pos f' = p) /\ (b = false -> f_pos f' = f_pos f).
Proof.
  unfold sys_seek. destruct (next_call f) as [n g] eqn:N. destruct (next_call_spec _ _ _ N) as (C & FP & _ & CS). destruct (n <=? 0) eqn:E; intros H; injection H as <- <-; cbn.
  - split; [exact C|]. split; [intros X; destruct (CS X); lia|]. split; [discriminate|auto].
  - split; [exact C|]. split; [intros X; destruct (CS X); auto|]. split; [auto|discriminate].
Qed.
Lemma sys_size_spec f s f' : sys_size f = (s, f') -> f_content f' = f_content f /\ f_pos f' = f_pos f /\ (Forall (fun n => 0 < n) (f_calls f) -> Forall (fun n => 0 < n) (f_calls f') /\ s <> None) /\
  (s = None \/ s = Some (zlen (f_content f))).
Proof.
  unfold sys_size. destruct (next_call f) as [n g] eqn:N. destruct (next_call_spec _ _ _ N) as (C & FP & _ & CS). intros H; injection H as <- <-. split; [exact C|]. split; [exact FP|].
  destruct (n <=? 0) eqn:E. { split; [intros X; destruct (CS X); lia|auto]. } rewrite C. split; [intros X; destruct (CS X); split; [assumption|discriminate]|auto].
Qed.
Lemma sys_tell_spec f s f' : sys_tell f = (s, f') -> f_content f' = f_content f /\ f_pos f' = f_pos f /\ (Forall (fun n => 0 < n) (f_calls f) -> Forall (fun n => 0 < n) (f_calls f') /\ s <> None) /\
  (s = None \/ s = Some (f_pos f)).
Proof.
  unfold sys_tell. destruct (next_call f) as [n g] eqn:N. destruct (next_call_spec _ _ _ N) as (C & FP & _ & CS). intros H; injection H as <- <-. split; [exact C|]. split; [exact FP|].
  destruct (n <=? 0) eqn:E. { split; [intros X; destruct (CS X); lia|auto]. } rewrite FP. split; [intros X; destruct (CS X); split; [assumption|discriminate]|auto].
Qed.
Lemma sys_other_spec f b f' : sys_other f = (b, f') -> f_content f' = f_content f /\ f_pos f' = f_pos f /\ (Forall (fun n => 0 < n) (f_calls f) -> Forall (fun n => 0 < n) (f_calls f') /\ b = true).
Proof.
  unfold sys_other. destruct (next_call f) as [n g] eqn:N. destruct (next_call_spec _ _ _ N) as (C & FP & _ & CS). intros H; injection H as <- <-. split; [exact C|]. split; [exact FP|].
  intros X; destruct (CS X). split; [assumption|lia].
Qed.

Section S.
  Variables (content : list Z) (shift : Z).
  Notation raw := (raw content shift). Notation inv := (inv content shift). Notation frame := (frame content shift). Notation live := (live content shift).
  Notation size := (size content shift). Notation consumes := (consumes content shift). Notation reliable := (reliable content shift).

  (** The buffer is empty; the beginning of the run does not matter *)
  Record hollow (r : reader) : Prop := { h_raw : raw r; h_buf : r_buf r = []; h_cur : r_cur r = 0 }.
  Lemma hollow_inv r : hollow r -> rs_base_pos (r_sizer r) <= r_limit_pos r -> inv r.
  Proof.
    intros [R B C] BS. pose proof (v_off _ _ _ R). constructor; rewrite ?B, ?C; change (zlen (@nil Z)) with 0; try lia; auto. Qed.
  Lemma inv_hollow r : inv r -> hollow (set_buf [] 0 r).
  Proof. intros I1. constructor; [exact (i_raw _ _ _ (inv_empty _ _ _ I1))|reflexivity|reflexivity]. Qed.
  Lemma hollow_pos r : hollow r -> pos r = r_limit_pos r.
  Proof. intros [R B C]. unfold pos, available. rewrite B, C. change (zlen (@nil Z)) with 0. lia. Qed.
  Lemma raw_size r : raw r -> r_random r = true -> size = zlen content.
  Proof. intros R RN. unfold BufferedReaderSpec.size. rewrite (v_rand _ _ _ R RN). lia. Qed.
  Lemma get_start_hollow r (Q : Z -> reader -> Prop) : hollow r -> Q (r_limit_pos r) r -> wp get_start_pos r Q.
  Proof.
    intros [R B C] H. unfold get_start_pos. pose proof (v_lim _ _ _ R) as VL. rewrite B in VL. change (zlen (@nil Z)) with 0 in VL.
    gt. ast; [rewrite B; change (zlen (@nil Z)) with 0; lia|]. apply wp_ret. rewrite B. change (zlen (@nil Z)) with 0. rewrite Z.sub_0_r. exact H.
  Qed.

  Lemma set_exact_ok (g : bool) sz r (Q : unit -> reader -> Prop) : raw r -> sz = size ->
    (forall r', raw r' -> frame r r' -> ok r' = ok r -> r_buf r' = r_buf r -> r_cur r' = r_cur r -> r_limit_pos r' = r_limit_pos r -> rs_base_pos (r_sizer r') = rs_base_pos (r_sizer r) ->
      r_fd r' = r_fd r -> Q tt r') ->
    wp (if g then ret tt else set_exact_size sz) r Q.
  Proof.
    intros R E H. destruct g.
    - apply wp_ret. apply H; auto. apply frame_refl.
    - unfold set_exact_size. apply wp_modify. apply H; try reflexivity.
      + destruct R. constructor; auto. right. unfold exact_size. rcbn. congruence.
      + constructor; auto. unfold exact_size. rcbn. destruct (v_exact _ _ _ R) as [X|X]; unfold exact_size in *; congruence.
  Qed.
  Lemma raw_fd r f' : raw r -> f_content f' = f_content (r_fd r) -> (ok r = true -> f_pos f' = f_pos (r_fd r)) -> raw (set_fd f' r).
  Proof. intros [A1 A2 A3 A4 A5 A6 A7 A8 A9] C P. constructor; auto; rcbn; [congruence|]. intros O IN. change (ok r = true) in O. rewrite (P O). exact (A5 O IN). Qed.
  Lemma frame_fd r f' : (Forall (fun n => 0 < n) (f_calls (r_fd r)) -> Forall (fun n => 0 < n) (f_calls f')) -> (r_independent r = true -> f_pos f' = f_pos (r_fd r)) -> frame r (set_fd f' r).
  Proof. intros H FP. constructor; auto. intros [X Y]. split; [exact (H X)|exact Y]. Qed.

  (** [b]: found; otherwise the reader fails *)
  Lemma SeekInternal_ok p r : hollow r -> r_random r = true -> ok r = true -> 0 <= p <= size ->
    wp (SeekInternal p) r (fun b r' => hollow r' /\ frame r r' /\ live r r' /\ b = ok r' /\ r_limit_pos r' = (if b then p else r_limit_pos r) /\ rs_base_pos (r_sizer r') = rs_base_pos (r_sizer r)).
  Proof.
    intros H RN O P. destruct H as [R B C]. pose proof (raw_size r R RN) as SZ. pose proof (v_rand _ _ _ R RN) as S0. pose proof (v_max _ _ _ R) as VM. pose proof (v_lim _ _ _ R) as VL. pose proof (v_off _ _ _ R) as VO.
    unfold SeekInternal. gt. ast; [unfold available; rewrite B, C, RN; reflexivity|]. bnd.
    assert (HP : forall r1, r_buf r1 = [] -> r_cur r1 = 0 -> raw r1 -> (ok r1 = true -> r_independent r1 = false -> f_pos (r_fd r1) = p) -> hollow (set_limit_pos p r1)).
    { intros r1 B1 C1 [A1 A2 A3 A4 A5 A6 A7 A8 A9] FP. constructor; auto. constructor; auto; rcbn; rewrite ?B1; change (zlen (@nil Z)) with 0; try lia. }
    destruct (r_independent r) eqn:IN.
    - apply wp_ret. cbn [negb]. md. apply wp_ret. split; [apply HP; auto; congruence|]. split; [constructor; auto|]. split; [intros _ X; exact X|]. split; [symmetry; exact O|]. split; reflexivity.
    - apply wp_syscall. intros b f' E. destruct (sys_seek_spec _ _ _ _ E) as (Q1 & Q2 & Q3 & Q4).
      assert (FF : frame r (set_fd f' r)) by (apply frame_fd; [intros X; exact (proj1 (Q2 X))|congruence]). destruct b; cbn [negb].
      + md. apply wp_ret. split.
        { constructor; rcbn; auto. destruct R. constructor; auto; rcbn; rewrite ?B; change (zlen (@nil Z)) with 0; try lia; try congruence. }
        split; [destruct FF; constructor; auto|]. split; [intros _ X; exact X|]. split; [symmetry; exact O|]. split; reflexivity.
      + assert (R1 : raw (set_fd f' r)) by (apply raw_fd; [exact R|exact Q1|intros _; exact (Q4 eq_refl)]).
        eapply wp_conseq; [exact (Fail_ok content shift _ R1)|]. cbn beta. intros b r' (-> & A1 & A2 & A3 & A4 & A5 & A6 & A7).
        split; [constructor; [exact A1|rewrite A4; exact B|rewrite A5; exact C]|]. split; [exact (frame_trans _ _ _ _ _ FF A3)|].
        split; [intros [X _]; destruct (Q2 X); discriminate|]. split; [symmetry; exact A2|]. split; [exact A6|]. rewrite A7. reflexivity.
  Qed.
  (** Seeking with random access: [p] is found, or it is beyond the end, or there is a failure *)
  Lemma SeekBehind_random p r : hollow r -> r_random r = true -> 0 <= p -> p <> r_limit_pos r ->
    wp (SeekBehindBuffer p) r (fun b r' => hollow r' /\ frame r r' /\ live r r' /\ rs_base_pos (r_sizer r') = rs_base_pos (r_sizer r) /\
      if b then r_limit_pos r' = p /\ p <= size /\ ok r' = true
      else if ok r' then size < p /\ r_limit_pos r' = size else r_limit_pos r' = r_limit_pos r).
  Proof.
    intros H RN P PN. pose proof (h_raw _ H) as R. pose proof (raw_size r R RN) as SZ. pose proof (v_rand _ _ _ R RN) as S0. pose proof (v_off _ _ _ R) as VO. pose proof (zlen_nonneg content).
    unfold SeekBehindBuffer. bnd. apply get_start_hollow; [exact H|]. gt. ast; [rewrite (h_buf _ H); change (zlen (@nil Z)) with 0; lia|]. rewrite RN. cbn [negb].
    destruct (ok r) eqn:O; cbn [negb].
    2:{ apply wp_ret. split; [exact H|]. split; [apply frame_refl|]. split; [intros _ X; congruence|]. split; [reflexivity|]. rewrite O. reflexivity. }
    (** [r1] is [r] with perhaps the size known *)
    assert (TO : forall r1, hollow r1 -> frame r r1 -> ok r1 = true -> r_limit_pos r1 = r_limit_pos r -> rs_base_pos (r_sizer r1) = rs_base_pos (r_sizer r) ->
      wp (if size <? p then SeekInternal size;; ret false else SeekInternal p) r1 (fun b r' => hollow r' /\ frame r r' /\ live r r' /\ rs_base_pos (r_sizer r') = rs_base_pos (r_sizer r) /\
      if b then r_limit_pos r' = p /\ p <= size /\ ok r' = true else if ok r' then size < p /\ r_limit_pos r' = size else r_limit_pos r' = r_limit_pos r)).
    { intros r1 H1 F1 O1 L1 B1. assert (RN1 : r_random r1 = true) by (rewrite (fr_rand _ _ _ _ F1); exact RN). destruct (size <? p) eqn:E.
      - bnd. eapply wp_conseq; [apply SeekInternal_ok; auto; lia|]. cbn beta. intros b r' (A1 & A2 & A3 & A4 & A5 & A6). apply wp_ret.
        split; [exact A1|]. split; [exact (frame_trans _ _ _ _ _ F1 A2)|]. split; [intros RL _; exact (A3 (fr_rel _ _ _ _ F1 RL) O1)|]. split; [congruence|].
        rewrite <- A4. destruct b; [lia|congruence].
      - eapply wp_conseq; [apply SeekInternal_ok; auto; lia|]. cbn beta. intros b r' (A1 & A2 & A3 & A4 & A5 & A6).
        split; [exact A1|]. split; [exact (frame_trans _ _ _ _ _ F1 A2)|]. split; [intros RL _; exact (A3 (fr_rel _ _ _ _ F1 RL) O1)|]. split; [congruence|].
        rewrite <- A4. destruct b; [lia|congruence]. }
    destruct (r_limit_pos r <? p) eqn:FW.
    - destruct (v_exact _ _ _ R) as [X|X]; rewrite X.
      + bnd. apply wp_syscall. intros st f' E. destruct (sys_size_spec _ _ _ E) as (Q1 & Q2 & Q3 & Q4). rewrite (v_fd _ _ _ R) in Q4.
        assert (FF : frame r (set_fd f' r)) by (apply frame_fd; [intros Y; exact (proj1 (Q3 Y))|intros _; exact Q2]). assert (R1 : raw (set_fd f' r)) by (apply raw_fd; [exact R|exact Q1|intros _; exact Q2]).
        destruct st as [st|].
        * destruct Q4 as [Q4|Q4]; [discriminate|]. injection Q4 as ->. rewrite <- SZ. bnd. apply set_exact_ok; [exact R1|reflexivity|]. intros r1 A1 A2 A3 A4 A5 A6 A7 _.
          apply TO; [constructor; [exact A1|rewrite A4; exact (h_buf _ H)|rewrite A5; exact (h_cur _ H)]|exact (frame_trans _ _ _ _ _ FF A2)|rewrite A3; exact O|exact A6|exact A7].
        * eapply wp_conseq; [exact (Fail_ok content shift _ R1)|]. cbn beta. intros b r' (-> & A1 & A2 & A3 & A4 & A5 & A6 & A7).
          split; [constructor; [exact A1|rewrite A4; exact (h_buf _ H)|rewrite A5; exact (h_cur _ H)]|]. split; [exact (frame_trans _ _ _ _ _ FF A3)|].
          split; [intros [Y _]; destruct (Q3 Y); congruence|]. split; [rewrite A7; reflexivity|]. rewrite A2. exact A6.
      + apply TO; auto. apply frame_refl.
    - eapply wp_conseq; [apply SeekInternal_ok; auto; lia|]. cbn beta. intros b r' (A1 & A2 & A3 & A4 & A5 & A6).
      split; [exact A1|]. split; [exact A2|]. split; [exact A3|]. split; [exact A6|]. rewrite <- A4. destruct b; [lia|exact A5].
  Qed.
  Lemma seek_loop_ok p : forall fuel r, inv r -> r_limit_pos r < p -> size - r_limit_pos r < Z.of_nat fuel ->
    wp (seek_loop fuel p) r (fun b r' => inv r' /\ frame r r' /\ live r r' /\ if b then pos r' < p <= r_limit_pos r' else (ok r' = true -> size < p /\ pos r' = size) /\ pos r' <= p).
  Proof.
    induction fuel as [|fuel IH]; intros r I1 P F. { destruct (pos_bounds _ _ _ I1) as (_ & _ & _ & _ & B & _). lia. }
    destruct (pos_bounds _ _ _ I1) as (PB1 & PB2 & PB3 & PB4 & PB5 & PB6).
    cbn [seek_loop]. gt. bnd. apply move_cursor_ok; [lia|]. bnd. set (r1 := set_buf (r_buf r) (r_cur r + available r) r).
    assert (I2 : inv r1). { apply inv_set_cur; [exact I1|]. pose proof (i_cur _ _ _ I1). unfold available in *. lia. }
    assert (A0 : available r1 = 0) by (unfold r1, available; rcbn; lia). assert (L1 : r_limit_pos r1 = r_limit_pos r) by reflexivity.
    assert (F1 : frame r r1) by apply frame_set_buf. assert (O1 : ok r1 = ok r) by reflexivity. clearbody r1.
    eapply wp_conseq; [apply PullSlow_ok; [exact I2|lia|lia]|]. cbn beta. intros b r2 (A1 & A2 & A3 & A4 & A5 & A6). gt. pose proof (c_inv _ _ _ _ _ A1) as I3.
    destruct (pos_bounds _ _ _ I3) as (PC1 & PC2 & PC3 & PC4 & PC5 & PC6). destruct (pos_bounds _ _ _ I2) as (PD1 & PD2 & PD3 & PD4 & PD5 & PD6).
    destruct (c_reads _ _ _ _ _ A1) as [_ PP]. change (zlen (@nil Z)) with 0 in PP.
    assert (F2 : frame r r2) by exact (frame_trans _ _ _ _ _ F1 (c_frame _ _ _ _ _ A1)).
    assert (L2 : live r r2). { intros RL O. apply (c_live _ _ _ _ _ A1); [exact (fr_rel _ _ _ _ F1 RL)|congruence]. }
    destruct b; cbn [negb].
    - destruct (r_limit_pos r2 <? p) eqn:E.
      + eapply wp_conseq; [apply IH; [exact I3|lia|lia]|]. cbn beta. intros b r3 (B1 & B2 & B3 & B4). split; [exact B1|]. split; [exact (frame_trans _ _ _ _ _ F2 B2)|].
        split; [exact (live_trans _ _ _ _ _ F2 L2 B3)|exact B4].
      + apply wp_ret. split; [exact I3|]. split; [exact F2|]. split; [exact L2|]. lia.
    - apply wp_ret. split; [exact I3|]. split; [exact F2|]. split; [exact L2|]. split; [intros OK; specialize (A6 eq_refl OK)|]; lia.
  Qed.
  (** Seeking without random access *)
  Lemma SeekBehind_sequential p r : inv r -> hollow r -> r_random r = false -> p <> r_limit_pos r ->
    wp (SeekBehindBuffer p) r (fun b r' => inv r' /\ frame r r' /\ (r_limit_pos r < p -> live r r') /\
      if b then pos r' = p /\ p <= size else (ok r' = true -> size < p /\ pos r' = size) /\ (r_limit_pos r < p -> pos r' <= p)).
  Proof.
    intros I1 H RN PN. pose proof (h_raw _ H) as R. unfold SeekBehindBuffer. bnd. apply get_start_hollow; [exact H|]. gt. ast; [rewrite (h_buf _ H); change (zlen (@nil Z)) with 0; lia|]. rewrite RN. cbn [negb].
    destruct (p <? r_limit_pos r) eqn:BK.
    - destruct (ok r) eqn:O.
      + eapply wp_conseq; [exact (Fail_ok content shift _ R)|]. cbn beta. intros b r' (-> & A1 & A2 & A3 & A4 & A5 & A6 & A7).
        assert (HO : hollow r') by (constructor; [exact A1|rewrite A4; exact (h_buf _ H)|rewrite A5; exact (h_cur _ H)]).
        split; [apply hollow_inv; [exact HO|]; rewrite A6, A7; pose proof (i_base _ _ _ I1); pose proof (zlen_nonneg (r_buf r)); lia|]. split; [exact A3|]. split; [lia|]. split; [congruence|lia].
      + apply wp_ret. split; [exact I1|]. split; [apply frame_refl|]. split; [lia|]. split; [congruence|lia].
    - unfold BufferedSeekBehindBuffer. bnd. apply get_start_hollow; [exact H|]. gt. ast; [rewrite (h_buf _ H); change (zlen (@nil Z)) with 0; lia|].
      replace (p <=? r_limit_pos r) with false by lia. bnd. eapply wp_conseq; [apply seek_loop_ok; [exact I1|lia|]|].
      { rewrite (v_fd _ _ _ R), Nat2Z.inj_succ. change (Z.of_nat (length content)) with (zlen content). unfold BufferedReaderSpec.size. pose proof (v_off _ _ _ R). lia. }
      cbn beta. intros b r1 (A1 & A2 & A3 & A4). destruct (pos_bounds _ _ _ A1) as (PB1 & PB2 & PB3 & PB4 & PB5 & PB6). destruct b; cbn [negb].
      + gt. pose proof (i_cur _ _ _ A1) as C. unfold available in *. ast; [lia|]. md. apply wp_ret.
        split; [apply inv_set_cur; [exact A1|lia]|]. split; [exact (frame_trans _ _ _ _ _ A2 (frame_set_buf _ _ _ _ _))|]. split; [intros _; exact A3|]. unfold pos, available. rcbn. lia.
      + apply wp_ret. split; [exact A1|]. split; [exact A2|]. split; [intros _; exact A3|]. split; [exact (proj1 A4)|intros _; exact (proj2 A4)].
  Qed.

  Lemma end_run_ok r (Q : unit -> reader -> Prop) : inv r ->
    (forall r', inv r' -> frame r r' -> ok r' = ok r -> r_buf r' = r_buf r -> r_cur r' = r_cur r -> r_limit_pos r' = r_limit_pos r -> Q tt r') -> wp end_run r Q.
  Proof.
    intros I1 H. unfold end_run. bnd. apply get_pos_ok with (content := content) (shift := shift); [exact I1|]. gt.
    pose proof (i_base _ _ _ I1) as BS. pose proof (i_cur _ _ _ I1) as C. destruct (rs_EndRun_ok (r_sizer r) (pos r)) as (s & E & E1 & E2 & E3); [apply I1|unfold pos, available; lia|].
    bnd. apply (wp_of_option _ s); [exact E|]. apply wp_modify. apply H; try reflexivity.
    - destruct I1 as [R C0 O B BS0]. constructor; rcbn; auto; [|rewrite E2; exact BS0]. destruct R. constructor; auto. unfold exact_size in *. rcbn. rewrite E3. assumption.
    - constructor; auto.
  Qed.
  Lemma begin_run_ok r (Q : unit -> reader -> Prop) : hollow r ->
    (forall r', inv r' -> frame r r' -> ok r' = ok r -> r_buf r' = [] -> pos r' = r_limit_pos r -> r_fd r' = r_fd r -> Q tt r') -> wp BeginRun r Q.
  Proof.
    intros H K. unfold BeginRun. bnd. apply get_start_hollow; [exact H|]. apply wp_modify.
    assert (HO : hollow (set_sizer (rs_BeginRun (r_limit_pos r) (r_sizer r)) r)). { destruct H as [R B C]. constructor; auto. destruct R. constructor; auto. }
    apply K; try reflexivity; [|constructor; auto|exact (h_buf _ H)|rewrite (hollow_pos _ HO); reflexivity]. apply hollow_inv; [exact HO|]. rcbn. lia.
  Qed.

  Definition seek_post (p : Z) (r : reader) (b : bool) (r' : reader) : Prop :=
    inv r' /\ frame r r' /\ (r_random r = true \/ pos r <= p -> live r r') /\ if b then pos r' = p /\ p <= size else (ok r' = true -> size < p /\ pos r' = size) /\ (r_limit_pos r < p -> pos r' <= p).
  Lemma SeekSlow_ok p r : inv r -> 0 <= p -> p < r_limit_pos r - zlen (r_buf r) \/ r_limit_pos r < p -> wp (SeekSlow p) r (seek_post p r).
  Proof.
    intros I1 P PN. unfold SeekSlow. bnd. apply get_start_pos_ok with (content := content) (shift := shift); [exact I1|]. gt. ast; [lia|].
    pose proof (i_cur _ _ _ I1) as CU. pose proof (zlen_nonneg (r_buf r)) as ZB.
    destruct (r_random r) eqn:RN; cbn [negb].
    - bnd. apply end_run_ok; [exact I1|]. intros r1 I2 F1 O1 B1 C1 L1. unfold SyncBuffer. md. bnd. pose proof (inv_hollow _ I2) as H2.
      assert (F2 : frame r (set_buf [] 0 r1)) by exact (frame_trans _ _ _ _ _ F1 (frame_set_buf _ _ _ _ _)). set (r2 := set_buf [] 0 r1) in *.
      assert (L2 : r_limit_pos r2 = r_limit_pos r) by exact L1. assert (O2 : ok r2 = ok r) by exact O1. clearbody r2.
      eapply wp_conseq; [apply SeekBehind_random; [exact H2|rewrite (fr_rand _ _ _ _ F2); exact RN|exact P|lia]|]. cbn beta. intros b r3 (A1 & A2 & A3 & A4 & A5).
      bnd. apply begin_run_ok; [exact A1|]. intros r4 I4 F4 O4 B4 P4 _. apply wp_ret. split; [exact I4|]. split; [exact (frame_trans _ _ _ _ _ F2 (frame_trans _ _ _ _ _ A2 F4))|].
      split; [intros _ RL O; rewrite O4; apply A3; [exact (fr_rel _ _ _ _ F2 RL)|congruence]|]. rewrite P4, O4. destruct b; [lia|]. destruct (ok r3); [split; lia|split; [congruence|lia]].
    - unfold SyncBuffer. md. pose proof (inv_hollow _ I1) as H2. pose proof (inv_empty _ _ _ I1) as I2.
      eapply wp_conseq; [apply SeekBehind_sequential; [exact I2|exact H2|exact RN|rcbn; lia]|]. cbn beta. intros b r3 (A1 & A2 & A3 & A4).
      change (r_limit_pos (set_buf [] 0 r)) with (r_limit_pos r) in A3.
      split; [exact A1|]. split; [exact (frame_trans _ _ _ _ _ (frame_set_buf _ _ _ _ _) A2)|]. split; [|exact A4]. intros [X|X]; [congruence|]. unfold pos, available in X. intros RL O. apply A3; [lia|exact RL|exact O].
  Qed.
  Lemma Seek_ok p r : inv r -> 0 <= p -> wp (Seek p) r (seek_post p r).
  Proof.
    intros I1 P. destruct (pos_bounds _ _ _ I1) as (PB1 & PB2 & PB3 & PB4 & PB5 & PB6).
    unfold Seek. bnd. apply get_start_pos_ok with (content := content) (shift := shift); [exact I1|]. gt. destruct ((r_limit_pos r - zlen (r_buf r) <=? p) && (p <=? r_limit_pos r)) eqn:E.
    - md. apply wp_ret. split; [apply inv_set_cur; [exact I1|lia]|]. split; [apply frame_set_buf|]. split; [intros _ _ O; exact O|]. unfold pos, available. rcbn. lia.
    - apply SeekSlow_ok; [exact I1|exact P|lia].
  Qed.
  Lemma Seek_forward p r : inv r -> 0 <= p -> wp (Seek p) r (fun b r' => seek_post p r b r' /\ (pos r <= p -> pos r' <= p)).
  Proof.
    intros I1 P. destruct (pos_bounds _ _ _ I1) as (PB1 & PB2 & PB3 & PB4 & PB5 & PB6). destruct ((pos r <=? p) && (p <=? r_limit_pos r)) eqn:E.
    - unfold Seek. bnd. apply get_start_pos_ok with (content := content) (shift := shift); [exact I1|]. gt. pose proof (i_cur _ _ _ I1). unfold pos, available in *.
      destruct ((r_limit_pos r - zlen (r_buf r) <=? p) && (p <=? r_limit_pos r)) eqn:E2; [|lia].
      md. apply wp_ret. split; [|rcbn; lia]. split; [apply inv_set_cur; [exact I1|lia]|]. split; [apply frame_set_buf|]. split; [intros _ _ O; exact O|]. unfold pos, available. rcbn. lia.
    - eapply wp_conseq; [exact (Seek_ok _ _ I1 P)|]. intros b r' A. split; [exact A|]. destruct A as (_ & _ & _ & A). destruct b; lia.
  Qed.
  Lemma Skip_ok n r : inv r -> 0 <= n < 2 ^ 64 -> wp (Skip n) r (fun x r' => inv r' /\ frame r r' /\ live r r' /\
    if fst x then snd x = n /\ pos r' = pos r + n /\ pos r + n <= size else ok r' = true -> size < pos r + n /\ pos r' = size /\ snd x = pos r' - pos r).
  Proof.
    intros I1 N. destruct (pos_bounds _ _ _ I1) as (PB1 & PB2 & PB3 & PB4 & PB5 & PB6). pose proof kmax as KM. unfold Skip. gt. destruct (n <=? available r) eqn:E.
    - bnd. apply move_cursor_ok; [lia|]. apply wp_ret. cbn [fst snd]. pose proof (i_cur _ _ _ I1). unfold available in E.
      split; [apply inv_set_cur; [exact I1|lia]|]. split; [apply frame_set_buf|]. split; [intros _ O; exact O|]. unfold pos, available in *. rcbn. lia.
    - bnd. apply get_pos_ok with (content := content) (shift := shift); [exact I1|]. bnd.
      eapply wp_conseq with (P := fun b r' => inv r' /\ frame r r' /\ live r r' /\ if b : bool then pos r' = pos r + n /\ pos r + n <= size else (ok r' = true -> size < pos r + n /\ pos r' = size) /\ pos r' <= pos r + n).
      { destruct (2 ^ 64 - 1 - pos r <? n) eqn:OV.
        - bnd. eapply wp_conseq; [apply SeekSlow_ok; [exact I1|lia|lia]|]. intros b r' (A1 & A2 & A3 & A4). apply wp_ret. destruct (pos_bounds _ _ _ A1) as (B1 & B2 & B3 & B4 & B5 & B6).
          split; [exact A1|]. split; [exact A2|]. split; [apply A3; lia|]. destruct b; lia.
        - eapply wp_conseq; [apply SeekSlow_ok; [exact I1|lia|lia]|]. intros b r' (A1 & A2 & A3 & A4). split; [exact A1|]. split; [exact A2|]. split; [apply A3; lia|]. destruct b; lia. }
      cbn beta. intros b r' (A1 & A2 & A3 & A4). bnd. apply get_pos_ok with (content := content) (shift := shift); [exact A1|]. ast; [destruct b; lia|]. destruct b; cbn [negb].
      + ast; [lia|]. apply wp_ret. cbn [fst snd]. auto.
      + apply wp_ret. cbn [fst snd]. split; [exact A1|]. split; [exact A2|]. split; [exact A3|]. destruct A4 as [A4 A5]. intros OK. destruct (A4 OK) as [A6 A7].
        destruct (pos_bounds _ _ _ A1) as (_ & _ & _ & _ & B & _). unfold SaturatingSub. lia.
  Qed.
End S.
