(** The other functions of the limiting reader. *)
From Verif Require Import Base.Bytes Model.BufferSizer.
From Verif Require Import Model.BufferedReader Spec.BufferedReaderSpec Proof.ReaderLemmas Proof.ReaderSteps Proof.ReaderSeeks Proof.ReaderRun Proof.ReaderProof.
From Verif Require Import Model.LimitingReader Spec.LimitingReaderSpec Proof.LimitingLemmas.
Import BufferedWriter(f_pos, kMaxFdPosition).

Section S.
  Variables (content : list Z) (shift : Z) (random independent owning : bool).
  Notation inv := (inv content shift). Notation frame := (frame content shift). Notation live := (live content shift).
  Notation size := (size content shift). Notation consumes := (consumes content shift). Notation reliable := (reliable content shift).
  Notation reads := (reads content shift). Notation ending := (ending content shift). Notation enough := (enough content shift). Notation has := (has content shift).
  Notation linv := (linv content shift random independent owning). Notation moved := (moved content shift random independent owning). Notation moves := (moves content shift random independent owning).
  Notation lread := (lread content shift random independent owning). Notation llive := (llive content shift).
  Local Notation get_lpos_ok := (get_lpos_ok content shift random independent owning).
  Local Notation take_ok := (take_ok content shift random independent owning).
  Local Notation d_inv := (d_inv content shift random independent owning). Local Notation d_ok := (d_ok content shift random independent owning).
  Local Notation d_rel := (d_rel content shift random independent owning).

  Lemma reads_nil p : reads [] p (p + 0).
  Proof. split; reflexivity. Qed.
  Lemma llive_then good l l1 l2 s p k : moves s l p k l1 -> llive good l l1 -> lok l2 = lok l1 -> llive good l l2.
  Proof. intros M A B R O G. rewrite B. exact (A R O G). Qed.
  Lemma ReadView_ok s l n : linv s l -> 0 <= n <= 2 ^ 63 -> lwp (ReadView n) l (lread s l n).
  Proof.
    intros V N. unfold ReadView. lb. eapply lwp_conseq; [apply Pull_ok; [exact V|exact N|lia]|]. cbn beta. intros b l1 (A1 & A2 & A3). lg. lb. pose proof (d_inv _ _ _ _ _ A1) as V1.
    destruct (linv_bounds _ _ _ _ _ _ _ V1) as (_ & _ & _ & _ & LB5 & _). cbn [with_pos a_pos] in *.
    eapply take_ok; [exact V1|clear - A3 N LB5; destruct b; lia|]. cbn [with_pos a_pos]. intros d l' B1 B2 B3 B4. apply lwp_ret. unfold LimitingLemmas.lread. cbn [fst snd]. rewrite B1.
    pose proof (moves_trans _ _ _ _ _ _ _ _ _ _ _ _ _ A1 B2) as M. split; [exact M|]. split; [exact B3|]. split; [exact (llive_then _ _ _ _ _ _ _ A1 A2 B4)|].
    destruct b; [reflexivity|]. rewrite B4. exact A3.
  Qed.
  Lemma ReadByte_ok s l : linv s l -> lwp ReadByte l (lread s l 1).
  Proof.
    intros V. unfold ReadByte. lb. eapply lwp_conseq; [apply Pull_ok; [exact V|lia|lia]|]. cbn beta. intros b l1 (A1 & A2 & A3). pose proof (d_inv _ _ _ _ _ A1) as V1.
    destruct (linv_bounds _ _ _ _ _ _ _ V1) as (_ & _ & _ & _ & LB5 & _). destruct b; cbn [negb].
    - lb. eapply take_ok; [exact V1|clear - A3; lia|]. cbn [with_pos a_pos]. intros d l' B1 B2 B3 B4. apply lwp_ret. unfold LimitingLemmas.lread. cbn [fst snd]. rewrite B1.
      pose proof (moves_trans _ _ _ _ _ _ _ _ _ _ _ _ _ A1 B2) as M. split; [exact M|]. split; [exact B3|]. split; [exact (llive_then _ _ _ _ _ _ _ A1 A2 B4)|reflexivity].
    - apply lwp_ret. unfold LimitingLemmas.lread. cbn [fst snd]. change (zlen (@nil Z)) with 0. split; [rewrite Z.add_0_r; exact A1|]. split; [apply reads_nil|]. split; [exact A2|].
      destruct A3 as [A3 A4]. assert (lavailable l1 = 0) by (clear - A3 LB5; lia). split; [lia|]. intros OK. specialize (A4 OK). rewrite H in A4. exact A4.
  Qed.
  (** The result of reading at most [n] bytes *)
  Definition lsome (s : state) (l : limiter) (n : Z) (x : bool * list Z) (l' : limiter) : Prop :=
    moved s l (a_pos s + zlen (snd x)) l' /\ reads (snd x) (a_pos s) (a_pos s + zlen (snd x)) /\ llive (has s (a_pos s + Z.min n 1)) l l' /\
    if fst x then zlen (snd x) <= n /\ (0 < n -> 0 < zlen (snd x)) else zlen (snd x) = 0 /\ (lok l' = true -> a_pos s + zlen (snd x) = ending s /\ enough s).
  Lemma src_ReadSome n r : inv r -> 0 <= n -> wp (BufferedReader.ReadSome n) r (fun x r' => some_post content shift n r x r' /\ (n = 0 -> fst x = true)).
  Proof.
    intros I1 N. destruct (Z.eq_dec n 0) as [->|NE].
    - pose proof (pos_bounds _ _ r I1) as (PB1 & _). unfold BufferedReader.ReadSome. gt. rewrite orb_true_r. bnd. apply (ReaderSteps.take_ok content shift); [exact I1|lia|]. intros d r' D C _ _ _ _ _. apply wp_ret.
      split; [|reflexivity]. split; cbn [fst snd]; [exact C|lia].
    - eapply wp_conseq; [apply (ReaderSteps.ReadSome_ok content shift); [exact I1|exact N]|]. intros x r' H. split; [exact H|]. intros X. destruct (NE X).
  Qed.
  Lemma ReadSomeSlow_ok s l n : linv s l -> 0 < n -> lavailable l = 0 -> lwp (ReadSomeSlow n) l (lsome s l n).
  Proof.
    intros V N AV. destruct (linv_bounds _ _ _ _ _ _ _ V) as (LB1 & LB2 & LB3 & LB4 & LB5 & LB6 & LB7). unfold ReadSomeSlow. lb. apply get_lpos_ok with s; [exact V|]. lg. rewrite (v_limit _ _ _ _ _ _ _ V).
    la; [clear - N AV LB2; lia|].
    destruct (lok l) eqn:O; cbn [negb].
    2:{ apply lwp_ret. unfold lsome. cbn [fst snd]. change (zlen (@nil Z)) with 0. split; [rewrite Z.add_0_r; exact (moved_refl _ _ _ _ _ _ _ V)|]. split; [apply reads_nil|].
        split; [intros _ X; congruence|]. split; [reflexivity|]. intros X. congruence. }
    set (n' := Z.min n (a_limit s - a_pos s)). assert (N' : 0 <= n' <= n /\ n' <= a_limit s - a_pos s /\ (n' = n \/ n' = a_limit s - a_pos s)) by (unfold n'; clear - N LB2; lia). clearbody n'.
    pose proof (synced_ok _ _ _ _ _ s l V) as Y. pose proof (y_inv _ _ _ _ _ _ Y) as I0.
    eapply slow_ok; [exact V|apply src_ReadSome; [exact I0|clear - N'; lia]|cbn beta; intros b r ((A & _) & _); exact (c_inv _ _ _ _ _ A)|]. cbn beta. intros [b d] r l' ((A1 & A2) & A4) I1 MD. cbn [fst snd] in *.
    destruct (consumed_ok _ _ _ _ _ s l d r l' V O A1 ltac:(clear - A2 N'; destruct b; lia) MD) as (C1 & C2 & C3 & C4 & C5 & C6).
    pose proof (d_inv _ _ _ _ _ C1) as V1. destruct (linv_bounds _ _ _ _ _ _ _ V1) as (LC1 & LC2 & LC3 & LC4 & LC5 & LC6 & LC7). cbn [with_pos a_pos a_limit] in *.
    unfold lsome. destruct b; cbn [negb].
    - apply lwp_ret. cbn [fst snd]. split; [exact C1|]. split; [exact C2|]. split; [intros R _ _; rewrite C3; exact (C4 R)|].
      destruct A2 as [A2 A3]. destruct (0 <? n') eqn:E; [specialize (A3 ltac:(clear - E; lia)); clear - A2 A3 N'; lia|clear A3]. clear - A2 E N' LC3 N. pose proof (zlen_nonneg d) as ZD. unfold LimitingReaderSpec.ending, LimitingReaderSpec.enough in *.
      split; [lia|]. intros _. split; [lia|]. intros _. lia.
    - destruct A2 as [A2 A3]. lb.
      eapply lwp_conseq; [exact (CheckEnough_ok _ _ _ _ _ _ _ V1)|]. cbn beta. intros b l2 (B1 & B2 & B3 & B4 & B5). cbn [with_pos a_pos a_limit a_exact] in *. rewrite B1. apply lwp_ret. cbn [fst snd].
      split; [exact (moves_trans _ _ _ _ _ _ _ _ _ _ _ _ _ C1 B2)|]. split; [exact C2|].
      assert (PE : ok r = true -> a_pos s + zlen d = ending s).
      { intros OK. specialize (A3 OK). clear - C5 A3 A2 LC3 LC2. unfold LimitingReaderSpec.ending. destruct C5 as [X|(X1 & X2 & X3)]; cbn [with_pos a_pos a_limit] in *; lia. }
      split.
      { intros R _ H. pose proof (C4 R) as OK. rewrite B4; [rewrite C3; exact OK|]. specialize (A3 OK). specialize (PE OK). destruct (a_exact s) eqn:EX; [|reflexivity]. specialize (H EX).
        assert (n' <> 0) by (intros X; specialize (A4 X); discriminate). clear - H H0 A3 A2 PE N' N LB2 C5. unfold LimitingReaderSpec.ending in PE. exfalso. destruct C5 as [X|(X1 & X2 & X3)]; cbn [with_pos a_pos a_limit] in *; lia. }
      split; [exact A2|]. intros OK. pose proof (d_ok _ _ _ _ _ B2 OK) as O1. rewrite C3 in O1. split; [exact (PE O1)|]. unfold LimitingReaderSpec.enough. rewrite (B3 OK). discriminate.
  Qed.
  Lemma check_some_ok s l n m : linv s l -> 0 < n -> lwp m l (lsome s l n) -> lwp (check_read_some n m) l (lsome s l n).
  Proof.
    intros V N W. unfold check_read_some. lb. apply get_lpos_ok with s; [exact V|]. lb. apply (lwp_conseq _ _ _ _ W). intros [b d] l' (A1 & A2 & A3 & A4). cbn [fst snd] in *.
    lb. eapply get_lpos_ok; [exact (d_inv _ _ _ _ _ A1)|]. cbn [with_pos a_pos]. pose proof (zlen_nonneg d) as ZD.
    la; [clear - A4 ZD N; destruct b; lia|]. la; [clear - A4 N; cbn [fst]; destruct b; lia|]. la; [cbn [snd]; clear; lia|]. apply lwp_ret. split; [exact A1|]. auto.
  Qed.
  Lemma some_took s l n m d l' : zlen d = m -> m <= n -> (0 < n -> 0 < m) -> moved s l (a_pos s + m) l' -> reads d (a_pos s) (a_pos s + m) -> lok l' = lok l -> lsome s l n (true, d) l'.
  Proof. intros A N P B C D. unfold lsome. cbn [fst snd]. rewrite A. split; [exact B|]. split; [exact C|]. split; [|auto]. intros _ X _. congruence. Qed.
  Lemma ReadSome_ok s l n : linv s l -> 0 <= n -> lwp (ReadSome n) l (lsome s l n).
  Proof.
    intros V N. destruct (linv_bounds _ _ _ _ _ _ _ V) as (_ & _ & _ & _ & LB5 & _). unfold ReadSome. lg. destruct ((0 <? lavailable l) || (n =? 0)) eqn:E.
    - lb. apply take_ok with s; [exact V|clear - N E LB5; lia|]. intros d l' A B C D. apply lwp_ret. apply (some_took _ _ _ _ _ _ A); auto; clear - N E LB5; lia.
    - apply check_some_ok; [exact V|clear - E N; lia|]. apply ReadSomeSlow_ok; [exact V|clear - E N; lia|clear - E LB5; lia].
  Qed.
  Lemma ReadSomeView_ok s l n : linv s l -> 0 <= n -> lwp (ReadSomeView n) l (lsome s l n).
  Proof.
    intros V N. unfold ReadSomeView. lb. destruct (n =? 0) eqn:E.
    - apply lwp_ret. lg. lb. destruct (linv_bounds _ _ _ _ _ _ _ V) as (_ & _ & _ & _ & LB5 & _). apply take_ok with s; [exact V|clear - N E LB5; lia|]. intros d l' A B C D. apply lwp_ret. apply (some_took _ _ _ _ _ _ A); auto; clear - N E LB5; lia.
    - eapply lwp_conseq; [apply Pull_ok; [exact V|lia|exact N]|]. cbn beta. intros b l1 (A1 & A2 & A3). lg. lb. pose proof (d_inv _ _ _ _ _ A1) as V1.
      destruct (linv_bounds _ _ _ _ _ _ _ V1) as (_ & _ & _ & _ & LB5 & _). cbn [with_pos a_pos] in *.
      eapply take_ok; [exact V1|clear - N LB5; lia|]. cbn [with_pos a_pos]. intros d l' B1 B2 B3 B4. apply lwp_ret. unfold lsome. cbn [fst snd]. rewrite B1.
      pose proof (moves_trans _ _ _ _ _ _ _ _ _ _ _ _ _ A1 B2) as M. split; [exact M|]. split; [exact B3|]. replace (Z.min n 1) with 1 by (clear - E N; lia). split; [exact (llive_then _ _ _ _ _ _ _ A1 A2 B4)|].
      destruct b; [clear - A3 E N; lia|]. destruct A3 as [A3 A4]. assert (X : lavailable l1 = 0) by (clear - A3 LB5; lia). rewrite X in *. rewrite B4. replace (Z.min n 0) with 0 by (clear - N; lia). split; [reflexivity|exact A4].
  Qed.
  (** If the data are in the buffer then reading them succeeds *)
  Lemma some_enough s l n m x l' : lread s l m x l' -> (fst x = true \/ snd x = []) -> m <= lavailable l -> linv s l -> 0 <= m <= n -> (0 < n -> 0 < m) -> lsome s l n x l'.
  Proof.
    intros (A1 & A2 & A3 & A4) A5 AV V M1 M2. destruct (linv_bounds _ _ _ _ _ _ _ V) as (LB1 & LB2 & LB3 & LB4 & LB5 & LB6 & LB7). destruct x as [b d]. cbn [fst snd] in *.
    split; [exact A1|]. split; [exact A2|]. split.
    - intros R O G. apply A3; auto. intros EX. clear - LB6 LB4 AV LB3 LB2. unfold LimitingReaderSpec.ending in *. lia.
    - cbn [fst snd]. destruct b; [clear - A4 M1 M2; lia|]. destruct A5 as [X|X]; [discriminate|]. subst d. split; [reflexivity|]. exact (proj2 A4).
  Qed.
  Lemma ReadSomeChain_ok s l n : linv s l -> 0 <= n -> lwp (ReadSomeChain n) l (lsome s l n).
  Proof.
    intros V N. destruct (linv_bounds _ _ _ _ _ _ _ V) as (_ & _ & _ & _ & LB5 & _). unfold ReadSomeChain. lg. destruct ((0 <? lavailable l) || (n =? 0)) eqn:E.
    - destruct (Z.min n (lavailable l) <=? kMaxBytesToCopy) eqn:E2.
      + lb. apply take_ok with s; [exact V|clear - N E LB5; lia|]. intros d l' A B C D. apply lwp_ret. apply (some_took _ _ _ _ _ _ A); auto; clear - N E LB5; lia.
      + eapply lwp_conseq; [apply (check_read_full content shift random independent owning s l _ _ (fun x => fst x = true \/ snd x = [])); [exact V|]|cbn beta; intros x l' (A1 & A2); apply (some_enough s l n (Z.min n (lavailable l)) x l'); auto; clear - N E LB5; lia].
        eapply lwp_conseq; [apply ReadSlow_full; [exact V|clear - E2; lia]|]. cbn beta. intros x l' [H1 H2]. split; [exact H1|]. apply H2. clear. lia.
    - apply check_some_ok; [exact V|clear - E N; lia|]. lg. la; [clear - E N LB5; lia|]. lb. eapply lwp_conseq; [apply PullSlow_ok; [exact V|clear - E LB5; lia|exact N]|]. cbn beta. intros b l1 (A1 & A2 & A3). lg.
      pose proof (d_inv _ _ _ _ _ A1) as V1. destruct (linv_bounds _ _ _ _ _ _ _ V1) as (_ & _ & _ & _ & LC5 & _). cbn [with_pos a_pos] in *.
      destruct b; cbn [negb].
      + set (s1 := with_pos (a_pos s) (lok l1) (a_behind s) s) in *. eapply lwp_conseq; [apply (ReadChain_full content shift random independent owning s1); [exact V1|clear - N A3; lia]|]. cbn beta. intros x l' (B1 & B2).
        assert (X : lsome s1 l1 n x l') by (apply (some_enough s1 l1 n (Z.min n (lavailable l1)) x l'); auto; clear - N E A3; lia).
        destruct X as (X1 & X2 & X3 & X4). split; [exact (moves_trans _ _ _ _ _ _ _ _ _ _ _ _ _ A1 X1)|]. split; [exact X2|]. split; [|exact X4].
        intros R O G. apply X3; [exact (d_rel _ _ _ _ _ A1 R)| |exact G]. apply A2; auto. replace (Z.min n 1) with 1 in G by (clear - N E; lia). exact G.
      + apply lwp_ret. unfold lsome. cbn [fst snd]. change (zlen (@nil Z)) with 0. split; [rewrite Z.add_0_r; exact A1|]. split; [apply reads_nil|]. replace (Z.min n 1) with 1 by (clear - N E; lia). split; [exact A2|]. split; [reflexivity|].
        intros OK. destruct A3 as [A3 A4]. assert (X : lavailable l1 = 0) by (clear - A3 LC5; lia). rewrite X in A4. exact (A4 OK).
  Qed.
  Lemma ReadHint_ok s l n rec : linv s l -> 0 <= n <= 2 ^ 63 -> 0 <= rec -> lwp (ReadHint n rec) l (fun _ l' => moved s l (a_pos s) l' /\ llive True l l').
  Proof.
    intros V N RC. destruct (linv_bounds _ _ _ _ _ _ _ V) as (LB1 & LB2 & LB3 & LB4 & LB5 & LB6 & LB7). unfold ReadHint. lg. destruct (n <=? lavailable l) eqn:E.
    - apply lwp_ret. split; [exact (moved_refl _ _ _ _ _ _ _ V)|]. intros _ X _. exact X.
    - lb. apply get_lpos_ok with s; [exact V|]. rewrite (v_limit _ _ _ _ _ _ _ V). la; [clear - LB2; lia|]. destruct (lok l) eqn:O; cbn [negb].
      2:{ apply lwp_ret. split; [exact (moved_refl _ _ _ _ _ _ _ V)|]. intros _ X _. exact X. }
      pose proof (synced_ok _ _ _ _ _ s l V) as Y. pose proof (y_inv _ _ _ _ _ _ Y) as I0.
      lb. apply SyncBuffer_ok with content shift random independent owning s; [exact V|]. lb. apply lwp_on_src. lcbn.
      eapply wp_conseq; [apply ReadHint_ok; [exact I0|clear - N LB2 E LB5; lia|clear - RC LB2; lia]|]. cbn beta. intros _ r C.
      eapply MakeBuffer_ok; [exact (c_inv _ _ _ _ _ C)|cbn [set_src l_max_pos]; rewrite (v_limit _ _ _ _ _ _ _ V); clear - LB1 LB2; lia|]. intros l' MD. apply made_src in MD. apply made_src in MD.
      destruct (consumed_ok _ _ _ _ _ s l [] r l' V O C ltac:(change (zlen (@nil Z)) with 0; clear - LB2; lia) MD) as (C1 & _ & C3 & C4 & C5 & C6). change (zlen (@nil Z)) with 0 in *. rewrite Z.add_0_r in *.
      split; [exact C1|]. intros R _ _. rewrite C3. exact (C4 R).
  Qed.
  (** The original reader is moved, not with other data *)
  Lemma kept_ok s l r l' : linv s l -> inv r -> frame (synced l) r -> (ok r = true -> at_src s (pos r)) -> made r l l' -> lok l = true ->
    linv (with_pos (lpos l') (lok l') (a_behind s) s) l' /\ (lok l' = true -> lpos l' = a_pos s) /\ lok l' = ok r /\ moves s l (lpos l') (a_behind s) l'.
  Proof.
    intros V I1 F AT MD O. destruct (linv_bounds _ _ _ _ _ _ _ V) as (LB1 & LB2 & _). pose proof (synced_ok _ _ _ _ _ s l V) as Y. pose proof (made_lok _ _ _ MD O) as LO.
    pose proof (m_pos _ _ _ MD) as PE. rewrite (v_limit _ _ _ _ _ _ _ V) in PE.
    assert (VN : linv (with_pos (lpos l') (lok l') (a_behind s) s) l').
    { rewrite PE. apply (made_linv content shift random independent owning s l r l' (a_behind s) V I1); auto.
      - rewrite (fr_rand _ _ _ _ F). exact (y_rnd _ _ _ _ _ _ Y).
      - rewrite (fr_ind _ _ _ _ F). exact (y_ind _ _ _ _ _ _ Y).
      - rewrite LO. intros X. destruct (AT X) as [U|(U & _)]; [right; rewrite U; exact LB2|left; exact U]. }
    assert (FR : frame (l_src l) r) by exact (frame_trans _ _ _ _ _ (y_frame _ _ _ _ _ _ Y) F).
    split; [exact VN|]. split; [rewrite LO; intros X; rewrite PE; exact (at_src_min _ _ (AT X) LB2)|]. split; [exact LO|].
    constructor; auto; [rewrite (m_src _ _ _ MD); exact (fr_rel _ _ _ _ FR)|exact (m_open _ _ _ MD)].
  Qed.
  Lemma Sync_ok s l from_object : linv s l -> lwp (Sync from_object) l (fun b l' => moves s l (lpos l') (a_behind s) l' /\ llive True l l' /\ (b = lok l') /\
    (lok l' = true -> lpos l' = a_pos s /\ at_src s (pos (l_src l')) /\ (from_object = false -> pos (l_src l') = a_pos s -> random = true -> independent = false -> f_pos (r_fd (l_src l')) = a_pos s))).
  Proof.
    intros V. destruct (linv_bounds _ _ _ _ _ _ _ V) as (LB1 & LB2 & _). unfold Sync. lg. destruct (lok l) eqn:O; cbn [negb].
    2:{ apply lwp_ret. rewrite (v_pos _ _ _ _ _ _ _ V). split; [exact (moved_refl _ _ _ _ _ _ _ V)|]. split; [intros _ X _; exact X|]. split; [congruence|]. congruence. }
    pose proof (synced_ok _ _ _ _ _ s l V) as Y. pose proof (y_inv _ _ _ _ _ _ Y) as I0. pose proof (y_at _ _ _ _ _ _ Y O) as AT.
    assert (OS : ok (synced l) = true) by (rewrite (y_ok _ _ _ _ _ _ Y); exact (v_srcok _ _ _ _ _ _ _ V O)).
    lb. apply SyncBuffer_ok with content shift random independent owning s; [exact V|]. lb. lcbn.
    assert (FIN : forall b r, inv r -> frame (synced l) r -> (reliable (synced l) -> ok r = true) -> b = ok r -> (ok r = true -> pos r = pos (synced l)) ->
      (from_object = false -> ok r = true -> random = true -> independent = false -> f_pos (r_fd r) = pos r) ->
      lwp (MakeBuffer;; ret b) (set_src r (set_src (synced l) l)) (fun b l' => moves s l (lpos l') (a_behind s) l' /\ llive True l l' /\ (b = lok l') /\
        (lok l' = true -> lpos l' = a_pos s /\ at_src s (pos (l_src l')) /\ (from_object = false -> pos (l_src l') = a_pos s -> random = true -> independent = false -> f_pos (r_fd (l_src l')) = a_pos s)))).
    { intros b r A1 A2 A3 A4 A5 A6. lb. eapply MakeBuffer_ok; [exact A1|cbn [set_src l_max_pos]; rewrite (v_limit _ _ _ _ _ _ _ V); clear - LB1 LB2; lia|]. intros l' MD. apply made_src in MD. apply made_src in MD. apply lwp_ret.
      cbn [set_src l_src] in MD. destruct (kept_ok s l r l' V A1 A2 ltac:(intros X; rewrite (A5 X); exact AT) MD O) as (B1 & B2 & B3 & B4).
      split; [exact B4|]. split; [intros R _ _; rewrite B3; apply A3; exact (fr_rel _ _ _ _ (y_frame _ _ _ _ _ _ Y) R)|]. split; [congruence|]. intros X. split; [exact (B2 X)|]. rewrite (m_src _ _ _ MD). rewrite B3 in X.
      split; [rewrite (A5 X); exact AT|]. intros FO PP RN IN. rewrite <- PP. apply A6; auto. }
    destruct (negb from_object || l_owning l) eqn:E.
    - apply lwp_on_src. cbn [set_src l_src]. eapply wp_conseq; [exact (Sync_ok _ _ _ I0)|]. cbn beta. intros b r (A1 & A2 & A3 & A4 & A5 & A6). apply FIN; auto.
      intros _ X RN IN. apply A6; [congruence| |]; [rewrite (y_rnd _ _ _ _ _ _ Y); exact RN|rewrite (y_ind _ _ _ _ _ _ Y); exact IN].
    - apply lwp_ret. change (set_src (synced l) l) with (set_src (synced l) (set_src (synced l) l)). apply FIN; auto using frame_refl. intros FO. rewrite FO in E. discriminate E.
  Qed.
  Lemma Size_ok s l : linv s l -> lwp Size l (fun x l' => moved s l (a_pos s) l' /\ llive (a_exact s = true \/ random = true) l l' /\
    match x with Some n => n = (if a_exact s then a_limit s else ending s) /\ lok l' = true | None => lok l' = false end).
  Proof.
    intros V. destruct (linv_bounds _ _ _ _ _ _ _ V) as (LB1 & LB2 & _). unfold Size. lb. apply get_lpos_ok with s; [exact V|]. lg. rewrite (v_limit _ _ _ _ _ _ _ V), (v_ex _ _ _ _ _ _ _ V). la; [clear - LB2; lia|].
    destruct (lok l) eqn:O; cbn [negb].
    2:{ apply lwp_ret. split; [exact (moved_refl _ _ _ _ _ _ _ V)|]. split; [intros _ X _; exact X|exact O]. }
    destruct (a_exact s) eqn:EX.
    { apply lwp_ret. split; [exact (moved_refl _ _ _ _ _ _ _ V)|]. split; [intros _ X _; exact X|]. auto. }
    pose proof (synced_ok _ _ _ _ _ s l V) as Y. pose proof (y_inv _ _ _ _ _ _ Y) as I0. pose proof (y_at _ _ _ _ _ _ Y O) as AT.
    assert (OS : ok (synced l) = true) by (rewrite (y_ok _ _ _ _ _ _ Y); exact (v_srcok _ _ _ _ _ _ _ V O)).
    eapply slow_ok; [exact V|exact (Size_ok _ _ _ I0)|cbn beta; intros x r (A & _); exact A|]. cbn beta. intros x r l' (A1 & A2 & A3 & A4 & A5) I1 MD. apply lwp_ret.
    destruct (kept_ok s l r l' V A1 A2 ltac:(intros X; rewrite A4; exact AT) MD O) as (B1 & B2 & B3 & B4).
    assert (PE : lpos l' = a_pos s). { rewrite (m_pos _ _ _ MD), (v_limit _ _ _ _ _ _ _ V), A4. exact (at_src_min _ _ AT LB2). }
    rewrite PE in B4. split; [exact B4|]. split.
    { intros R _ [X|X]; [congruence|]. rewrite B3. apply A3; [rewrite (y_rnd _ _ _ _ _ _ Y); exact X|exact (fr_rel _ _ _ _ (y_frame _ _ _ _ _ _ Y) R)|exact OS]. }
    rewrite B3. destruct x as [n|]; [|exact A5]. destruct A5 as [A5 A6]. split; [|exact A6]. rewrite A5. unfold LimitingReaderSpec.ending. apply Z.min_comm.
  Qed.
  Lemma VerifyEnd_ok s l : linv s l -> lwp VerifyEnd l (fun _ l' => moved s l (a_pos s) l' /\ llive (a_pos s = ending s /\ enough s) l l' /\ (lok l' = true -> a_pos s = ending s /\ enough s)).
  Proof.
    intros V. unfold VerifyEnd. lb. eapply lwp_conseq; [apply Pull_ok; [exact V|lia|lia]|]. cbn beta. intros b l1 (A1 & A2 & A3). pose proof (d_inv _ _ _ _ _ A1) as V1.
    destruct (linv_bounds _ _ _ _ _ _ _ V1) as (LB1 & LB2 & LB3 & LB4 & LB5 & LB6 & LB7). cbn [with_pos a_pos a_limit] in *. change (LimitingReaderSpec.ending content shift (with_pos (a_pos s) (lok l1) (a_behind s) s)) with (ending s) in LB6. destruct b; cbn [negb].
    - lg. lb. set (s1 := with_pos (a_pos s) (lok l1) (a_behind s) s) in *.
      assert (FIN : forall l2, moved s1 l1 (a_pos s) l2 -> lwp (Fail;; ret tt) l2 (fun _ l' => moved s l (a_pos s) l' /\ llive (a_pos s = ending s /\ enough s) l l' /\ (lok l' = true -> a_pos s = ending s /\ enough s))).
      { intros l2 M2. lb. eapply lwp_conseq; [exact (Fail_ok _ _ _ _ _ _ _ (d_inv _ _ _ _ _ M2))|]. cbn beta. intros b l3 (B1 & B2 & B3 & _). apply lwp_ret.
        split; [exact (moves_trans _ _ _ _ _ _ _ _ _ _ _ _ _ A1 (moves_trans _ _ _ _ _ _ _ _ _ _ _ _ _ M2 B3))|]. split; [|congruence].
        intros _ _ [X _]. exfalso. clear - X LB4 LB6 A3. lia. }
      destruct (SupportsSize l1).
      + lb. eapply lwp_conseq; [exact (Size_ok s1 l1 V1)|]. cbn beta. intros x l2 (B1 & B2 & B3). lb. eapply get_lpos_ok; [exact (d_inv _ _ _ _ _ B1)|]. apply lwp_ret. apply FIN. exact B1.
      + apply lwp_ret. apply FIN. exact (moved_refl _ _ _ _ _ _ _ V1).
    - apply lwp_ret. split; [exact A1|]. destruct A3 as [A3 A4]. assert (X : lavailable l1 = 0) by (clear - A3 LB5; lia). rewrite X, Z.add_0_r in A4. split; [|exact A4].
      intros R O [G1 G2]. apply A2; auto. intros EX. specialize (G2 EX). clear - G1 G2. unfold LimitingReaderSpec.ending in G1. lia.
  Qed.
End S.
