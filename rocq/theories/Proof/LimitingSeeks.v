(** Seeking and closing the limiting reader. *)
From Verif Require Import Base.Bytes Model.BufferSizer.
From Verif Require Import Model.BufferedReader Spec.BufferedReaderSpec Proof.ReaderLemmas Proof.ReaderSteps Proof.ReaderSeeks Proof.ReaderRun Proof.ReaderProof.
From Verif Require Import Model.LimitingReader Spec.LimitingReaderSpec Proof.LimitingLemmas Proof.LimitingSteps.
Import BufferedWriter(f_pos, kMaxFdPosition).

Section S.
  Variables (content : list Z) (shift : Z) (random independent owning : bool).
  Notation inv := (inv content shift). Notation frame := (frame content shift). Notation live := (live content shift).
  Notation size := (size content shift). Notation consumes := (consumes content shift). Notation reliable := (reliable content shift).
  Notation reads := (reads content shift). Notation ending := (ending content shift). Notation enough := (enough content shift). Notation has := (has content shift).
  Notation linv := (linv content shift random independent owning). Notation moved := (moved content shift random independent owning). Notation moves := (moves content shift random independent owning).
  Notation llive := (llive content shift).
  Local Notation get_lpos_ok := (get_lpos_ok content shift random independent owning). Local Notation get_start_lpos_ok := (get_start_lpos_ok content shift random independent owning).
  Local Notation take_ok := (take_ok content shift random independent owning).
  Local Notation d_inv := (d_inv content shift random independent owning). Local Notation d_ok := (d_ok content shift random independent owning).
  Local Notation d_rel := (d_rel content shift random independent owning).

  Lemma moves_behind s l p l' k : moves s l p false l' -> moves s l p k l'.
  Proof. intros M. constructor; try apply M. apply linv_behind. exact (d_inv _ _ _ _ _ M). Qed.
  Definition seeks (s : state) (l : limiter) (p : Z) (b : bool) (l' : limiter) : Prop :=
    llive (has s p /\ (random = true \/ (a_pos s <= p /\ a_behind s = false))) l l' /\
    if b then lpos l' = p /\ p <= ending s else (lok l' = true -> ending s < p /\ lpos l' = ending s /\ enough s) /\ (l_limit_pos l < p -> lpos l' <= p).
  Lemma SeekSlow_ok s l p : linv s l -> 0 <= p -> p < l_limit_pos l - (l_limit l - l_start l) \/ l_limit_pos l < p ->
    lwp (SeekSlow p) l (fun b l' => moves s l (lpos l') (a_behind s && negb (lok l')) l' /\ seeks s l p b l').
  Proof.
    intros V P PN. destruct (linv_bounds _ _ _ _ _ _ _ V) as (LB1 & LB2 & LB3 & LB4 & LB5 & LB6 & LB7). unfold SeekSlow. lb. apply get_lpos_ok with s; [exact V|]. lb. apply get_start_lpos_ok with s; [exact V|].
    lg. rewrite (v_limit _ _ _ _ _ _ _ V). la; [clear - PN LB2; lia|]. destruct (lok l) eqn:O; cbn [negb].
    2:{ apply lwp_ret. rewrite (v_pos _ _ _ _ _ _ _ V), O. rewrite andb_true_r. split; [exact (moved_refl _ _ _ _ _ _ _ V)|]. split; [intros _ X; congruence|]. split; [congruence|]. rewrite (v_pos _ _ _ _ _ _ _ V). clear - LB4 LB5. lia. }
    set (p' := Z.min p (a_limit s)). assert (P' : 0 <= p' <= p /\ p' <= a_limit s /\ (p' = p \/ p' = a_limit s)) by (unfold p'; clear - P LB1 LB2; lia). clearbody p'.
    pose proof (synced_ok _ _ _ _ _ s l V) as Y. pose proof (y_inv _ _ _ _ _ _ Y) as I0. pose proof (y_at _ _ _ _ _ _ Y O) as AT.
    assert (OS : ok (synced l) = true) by (rewrite (y_ok _ _ _ _ _ _ Y); exact (v_srcok _ _ _ _ _ _ _ V O)).
    eapply slow_ok; [exact V|apply (Seek_forward content shift); [exact I0|clear - P'; lia]|cbn beta; intros b r ((A & _) & _); exact A|]. cbn beta. intros b r l' ((A1 & A2 & A3 & A4) & A5) I1 MD.
    pose proof (made_lok _ _ _ MD O) as LO. pose proof (m_pos _ _ _ MD) as PE. rewrite (v_limit _ _ _ _ _ _ _ V) in PE.
    assert (PR : ok r = true -> pos r <= a_limit s). { intros X. destruct b; [clear - A4 P'; lia|]. destruct A4 as [A4 _]. specialize (A4 X). clear - A4 P'. lia. }
    assert (FR : frame (l_src l) r) by exact (frame_trans _ _ _ _ _ (y_frame _ _ _ _ _ _ Y) A2).
    assert (M1 : moves s l (lpos l') (a_behind s && negb (lok l')) l').
    { constructor; [|auto|rewrite (m_src _ _ _ MD); exact (fr_rel _ _ _ _ FR)|exact (m_open _ _ _ MD)]. rewrite PE. apply (made_linv content shift random independent owning s l r l' _ V I1); auto.
      - rewrite (fr_rand _ _ _ _ A2). exact (y_rnd _ _ _ _ _ _ Y).
      - rewrite (fr_ind _ _ _ _ A2). exact (y_ind _ _ _ _ _ _ Y).
      - rewrite LO. intros X. right. exact (PR X).
      - rewrite LO. destruct (a_behind s); [|auto]. destruct (ok r); [|discriminate]. intros _. right. exact (PR eq_refl). }
    assert (LV : reliable (l_src l) -> has s p /\ (random = true \/ (a_pos s <= p /\ a_behind s = false)) -> ok r = true).
    { intros R [_ G]. apply A3; [|exact (fr_rel _ _ _ _ (y_frame _ _ _ _ _ _ Y) R)|exact OS]. rewrite (y_rnd _ _ _ _ _ _ Y). destruct G as [G|[G1 G2]]; [left; exact G|right].
      destruct AT as [X|(X & _)]; [|congruence]. clear - X G1 P' LB2. lia. }
    assert (FW : l_limit_pos l < p -> lpos l' <= p). { intros X. rewrite PE. destruct AT as [U|(U1 & U2 & U3)]; [specialize (A5 ltac:(clear - U P' LB2 LB4 LB5 X; lia)); clear - A5 P'; lia|]. clear - U2 LB4 LB5 X. lia. }
    destruct b; cbn [negb].
    - apply lwp_ret. split; [exact M1|]. split; [intros R _ G; rewrite LO; exact (LV R G)|]. assert (LP : lpos l' = p') by (rewrite PE; clear - A4 P'; lia). rewrite LP. destruct A4 as [A4 A6].
      destruct (p' =? p) eqn:E; unfold LimitingReaderSpec.ending, LimitingReaderSpec.enough.
      + clear - A6 E P'. lia.
      + split; [|clear - P'; lia]. intros _. split; [clear - E P'; lia|]. split; [clear - E P' A6; lia|]. intros _. clear - E P' A6. lia.
    - destruct A4 as [A4 A6]. eapply lwp_conseq; [exact (CheckEnough_ok _ _ _ _ _ _ _ (d_inv _ _ _ _ _ M1))|]. cbn beta. intros b l2 (B1 & B2 & B3 & B4 & B5). cbn [with_pos a_pos a_limit a_exact] in *. rewrite B1.
      assert (PL : lpos l2 = lpos l') by exact (v_pos _ _ _ _ _ _ _ (d_inv _ _ _ _ _ B2)). rewrite PL.
      pose proof (moves_trans _ _ _ _ _ _ _ _ _ _ _ _ _ M1 B2) as M2. cbn [with_pos a_pos a_behind] in M2. split.
      { destruct (lok l2) eqn:O2.
        - rewrite (d_ok _ _ _ _ _ B2 O2) in M2. exact M2.
        - rewrite andb_true_r. destruct (lok l') eqn:O1; cbn [negb] in M2; [rewrite andb_false_r in M2; apply moves_behind; exact M2|rewrite andb_true_r in M2; exact M2]. }
      split.
      { intros R _ G. pose proof (LV R G) as OK. rewrite B4; [rewrite LO; exact OK|]. destruct (a_exact s) eqn:EX; [|reflexivity]. destruct G as [G _]. specialize (G EX). specialize (A4 OK). clear - G A4 P'. exfalso. lia. }
      rewrite PL. split; [|exact FW]. intros OK. pose proof (d_ok _ _ _ _ _ B2 OK) as O1. rewrite LO in O1. specialize (A4 O1). specialize (B3 OK). rewrite PE. unfold LimitingReaderSpec.ending, LimitingReaderSpec.enough. rewrite B3.
      split; [clear - A4 P'; lia|]. split; [clear - A4 P'; lia|discriminate].
  Qed.
  Lemma Seek_ok s l p : linv s l -> 0 <= p -> lwp (Seek p) l (fun b l' => moves s l (lpos l') (a_behind s && ((p =? a_pos s) || negb (lok l'))) l' /\ seeks s l p b l').
  Proof.
    intros V P. destruct (linv_bounds _ _ _ _ _ _ _ V) as (LB1 & LB2 & LB3 & LB4 & LB5 & LB6 & LB7). pose proof (v_ptr _ _ _ _ _ _ _ V) as PT. pose proof (v_pos _ _ _ _ _ _ _ V) as VP. pose proof (v_lp _ _ _ _ _ _ _ V) as VL.
    unfold Seek. lb. apply get_start_lpos_ok with s; [exact V|]. lg.
    destruct ((l_limit_pos l - (l_limit l - l_start l) <=? p) && (p <=? l_limit_pos l)) eqn:E.
    - lm. apply lwp_ret. set (l' := set_buffer _ _ _ _ _). assert (PE : lpos l' = p) by (unfold lpos, l'; lcbn; lia). rewrite PE. change (lok l') with (lok l). split.
      + assert (PC : 0 <= l_start l <= l_limit l - (l_limit_pos l - p) /\ l_limit l - (l_limit_pos l - p) <= l_limit l) by (clear - E PT; lia).
        constructor; [|auto|auto|reflexivity]. constructor; try apply V; try reflexivity; try exact PE.
        * unfold l'. lcbn. clear - PC PT. lia.
        * change (lok l') with (lok l). destruct (v_al _ _ _ _ _ _ _ V) as [X|(X & Y & Z1)]; [left; exact X|].
          assert (PP : p = a_pos s) by (clear - X Y E VP; unfold lpos, lavailable in VP; lia). right. unfold l'. lcbn. split; [clear - PC X Y; lia|]. split; [clear - PC X Y; lia|].
          intros OK. destruct (Z1 OK) as (U1 & U2 & U3). cbn [with_pos a_behind a_limit]. rewrite U1, PP, Z.eqb_refl. split; [reflexivity|]. split; [exact U2|]. unfold src_pos in *. lcbn.
          replace (l_limit l - (l_limit_pos l - a_pos s)) with (l_cur l) by (clear - PC X Y PP; lia). exact U3.
        * destruct (v_file _ _ _ _ _ _ _ V) as (F1 & F2 & F3). split; [exact F1|]. split; [exact F2|]. cbn [with_pos a_behind a_pos]. intros B. pose proof (i_off _ _ _ (v_src _ _ _ _ _ _ _ V)) as OF.
          destruct (v_al _ _ _ _ _ _ _ V) as [X|(X & Y & _)]; [clear - X OF PC E PT; unfold aligned in X; lia|].
          assert (PP : p = a_pos s) by (clear - X Y E VP; unfold lpos, lavailable in VP; lia). rewrite PP in *. apply F3. rewrite Z.eqb_refl in B. destruct (a_behind s); [discriminate B|reflexivity].
      + split; [intros _ X _; exact X|]. split; [exact PE|]. clear - E LB6. lia.
    - eapply lwp_conseq; [apply SeekSlow_ok; [exact V|exact P|clear - E; lia]|]. cbn beta. intros b l' [M S1]. split; [|exact S1].
      assert ((p =? a_pos s) = false) as -> by (clear - E PT VP; unfold lpos, lavailable in VP; lia). exact M.
  Qed.
  Lemma Skip_ok s l n : linv s l -> 0 <= n < 2 ^ 64 -> lwp (Skip n) l (fun x l' => moves s l (lpos l') (a_behind s) l' /\ llive (has s (a_pos s + n) /\ (random = true \/ a_behind s = false)) l l' /\
    if fst x then snd x = n /\ lpos l' = a_pos s + n else lok l' = true -> ending s < a_pos s + n /\ lpos l' = ending s /\ snd x = lpos l' - a_pos s /\ enough s).
  Proof.
    intros V N. destruct (linv_bounds _ _ _ _ _ _ _ V) as (LB1 & LB2 & LB3 & LB4 & LB5 & LB6 & LB7). pose proof (LimitingLemmas.v_max _ _ _ _ _ _ _ V) as VM. pose proof kmax as KM. unfold Skip. lg. destruct (n <=? lavailable l) eqn:E.
    - lb. apply take_ok with s; [exact V|clear - N E; lia|]. intros d l' A B C D. apply lwp_ret. cbn [fst snd]. assert (PE : lpos l' = a_pos s + n) by exact (v_pos _ _ _ _ _ _ _ (d_inv _ _ _ _ _ B)). rewrite PE. split; [exact B|]. split; [|auto].
      intros _ X _. congruence.
    - lb. apply get_lpos_ok with s; [exact V|]. lb.
      assert (FIN : forall p (f : bool -> bool), 0 <= p <= a_pos s + n -> l_limit_pos l < p -> (has s (a_pos s + n) -> has s p) -> (f true = true -> p = a_pos s + n) -> (f true = false -> kMaxFdPosition < p) -> f false = false ->
        lwp (b <- SeekSlow p; ret (f b)) l (fun b l' => lwp (pos <- get_lpos; assert (pos <=? a_pos s + n);; if negb b then ret (false, SaturatingSub pos (a_pos s)) else assert (pos =? a_pos s + n);; ret (true, n)) l'
          (fun x l' => moves s l (lpos l') (a_behind s) l' /\ llive (has s (a_pos s + n) /\ (random = true \/ a_behind s = false)) l l' /\
            if fst x then snd x = n /\ lpos l' = a_pos s + n else lok l' = true -> ending s < a_pos s + n /\ lpos l' = ending s /\ snd x = lpos l' - a_pos s /\ enough s))).
      { intros p f P1 P2 P3 P4 P5 P6. lb. eapply lwp_conseq; [apply SeekSlow_ok; [exact V|clear - P1; lia|right; exact P2]|]. cbn beta. intros b l' [M [S1 S2]]. apply lwp_ret.
        pose proof (d_inv _ _ _ _ _ M) as V1. destruct (linv_bounds _ _ _ _ _ _ _ V1) as (LC1 & LC2 & LC3 & LC4 & LC5 & LC6 & LC7). cbn [with_pos a_pos a_limit] in *.
        assert (M' : moves s l (lpos l') (a_behind s) l'). { destruct (lok l'); cbn [negb] in M; [rewrite andb_false_r in M; apply moves_behind; exact M|rewrite andb_true_r in M; exact M]. }
        assert (LV : llive (has s (a_pos s + n) /\ (random = true \/ a_behind s = false)) l l').
        { intros R O [G1 G2]. apply S1; auto. split; [exact (P3 G1)|]. destruct G2 as [G2|G2]; [left; exact G2|right; split; [clear - P2 LB4 LB5; lia|exact G2]]. }
        lb. eapply get_lpos_ok; [exact V1|]. cbn [with_pos a_pos]. la; [destruct b; [clear - S2 P1; lia|specialize (proj2 S2 P2) as X; clear - X P1; lia]|].
        destruct b.
        - destruct S2 as [S2 S3]. destruct (f true) eqn:F; cbn [negb].
          + rewrite (P4 eq_refl) in S2. la; [clear - S2; lia|]. apply lwp_ret. cbn [fst snd]. auto.
          + specialize (P5 eq_refl). clear - S2 P5 LC7. exfalso. lia.
        - rewrite P6. cbn [negb]. apply lwp_ret. cbn [fst snd]. split; [exact M'|]. split; [exact LV|]. destruct S2 as [S2 _]. intros OK. destruct (S2 OK) as (U1 & U2 & U3). split; [clear - U1 P1; lia|]. split; [exact U2|]. split; [|exact U3].
          rewrite U2. clear - LB2 LB3. unfold SaturatingSub, LimitingReaderSpec.ending. lia. }
      destruct (2 ^ 64 - 1 - a_pos s <? n) eqn:OV.
      + apply (FIN (2 ^ 64 - 1) (fun _ => false)); try (clear - N OV LB7 LB4 LB5 KM V; pose proof (proj1 (proj2 (v_file _ _ _ _ _ _ _ V))); lia); try discriminate; try reflexivity.
        intros H EX. specialize (H EX). clear - H OV VM. unfold kMaxPosition in VM. lia.
      + pose proof (FIN (a_pos s + n) (fun b => b) ltac:(clear - N LB1; lia) ltac:(clear - E LB4; lia) ltac:(auto) ltac:(auto) ltac:(discriminate) eq_refl) as H.
        unfold lwp, bind, ret in H |- *. destruct (SeekSlow (a_pos s + n) l) as [[b l']|]; exact H.
  Qed.
End S.
