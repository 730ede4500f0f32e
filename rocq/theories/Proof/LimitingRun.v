(** Closing the limiting reader, its options, and histories. *)
From Verif Require Import Base.Bytes Model.BufferSizer.
From Verif Require Import Model.BufferedReader Spec.BufferedReaderSpec Proof.ReaderLemmas Proof.ReaderSteps Proof.ReaderSeeks Proof.ReaderRun Proof.ReaderProof.
From Verif Require Import Model.LimitingReader Spec.LimitingReaderSpec Proof.LimitingLemmas Proof.LimitingSteps Proof.LimitingSeeks.
Import BufferedWriter(f_pos, kMaxFdPosition).

Definition mkstate (p : Z) (k : bool) (m : Z) (e f b : bool) (sc : list (Z * bool * bool)) : state :=
  {| a_pos := p; a_ok := k; a_limit := m; a_exact := e; a_longer := f; a_behind := b; a_scopes := sc |}.
Section S.
  Variables (content : list Z) (shift : Z) (random independent owning : bool).
  Notation inv := (inv content shift). Notation frame := (frame content shift). Notation live := (live content shift).
  Notation size := (size content shift). Notation consumes := (consumes content shift). Notation reliable := (reliable content shift).
  Notation reads := (reads content shift). Notation ending := (ending content shift). Notation enough := (enough content shift). Notation has := (has content shift).
  Notation linv := (linv content shift random independent owning). Notation moved := (moved content shift random independent owning). Notation moves := (moves content shift random independent owning).
  Notation llive := (llive content shift).
  Local Notation get_lpos_ok := (get_lpos_ok content shift random independent owning). Local Notation get_start_lpos_ok := (get_start_lpos_ok content shift random independent owning).
  Local Notation d_inv := (d_inv content shift random independent owning). Local Notation d_ok := (d_ok content shift random independent owning).
  Local Notation d_rel := (d_rel content shift random independent owning).

  (** The state between Done() of the base class and the end of Close() *)
  Record closing (s : state) (l l1 : limiter) : Prop := {
    z_inv : inv (l_src l1); z_rnd : r_random (l_src l1) = random; z_ind : r_independent (l_src l1) = independent; z_own : l_owning l1 = owning;
    z_buf : l_start l1 = 0 /\ l_cur l1 = 0 /\ l_limit l1 = 0 /\ l_limit_pos l1 = a_pos s; z_opts : l_max_pos l1 = a_limit s /\ l_exact l1 = a_exact s /\ l_fail_if_longer l1 = a_longer s /\ l_scopes l1 = map scope_of (a_scopes s);
    z_rel : reliable (l_src l) -> reliable (l_src l1) }.
  Lemma closing_linv s l l1 : linv s l -> closing s l l1 -> lok l1 = false -> linv (with_pos (a_pos s) (lok l1) (a_behind s) s) l1.
  Proof.
    intros V C O. destruct (linv_bounds _ _ _ _ _ _ _ V) as (LB1 & LB2 & LB3 & LB4 & LB5 & LB6 & LB7). destruct (z_buf _ _ _ C) as (B1 & B2 & B3 & B4). destruct (z_opts _ _ _ C) as (O1 & O2 & O3 & O4).
    constructor; cbn [with_pos a_pos a_ok a_limit a_exact a_longer a_behind a_scopes]; try apply C; auto; rewrite ?B1, ?B2, ?B3, ?B4.
    - unfold lpos, lavailable. rewrite B2, B3, B4. clear. lia.
    - pose proof (zlen_nonneg (r_buf (l_src l1))). clear - H. lia.
    - clear - LB1 LB2. lia.
    - exact (LimitingLemmas.v_max _ _ _ _ _ _ _ V).
    - rewrite O. discriminate.
    - right. split; [reflexivity|]. split; [reflexivity|]. rewrite O. discriminate.
    - split; [exact LB3|]. split; [exact LB7|]. exact (proj2 (proj2 (v_file _ _ _ _ _ _ _ V))).
  Qed.
  Lemma DoneBase_ok s l : linv s l -> lwp DoneBase l (fun _ l1 => closing s l l1 /\ (lok l = false -> l_failed l1 = l_failed l) /\
    (lok l = true -> r_open (l_src l1) = true /\ at_src s (pos (l_src l1)) /\
      (l_failed l1 = false -> a_behind s = false -> a_longer s = true -> a_pos s = a_limit s -> size <= a_limit s \/ ok (l_src l1) = false) /\
      (a_longer s && (a_pos s =? a_limit s) = false -> ok (l_src l1) = true /\ l_failed l1 = false) /\
      (reliable (l_src l) -> ~ (a_longer s = true /\ a_pos s = a_limit s /\ a_limit s < size) -> ~ (a_behind s = true /\ a_longer s = true) -> ok (l_src l1) = true /\ l_failed l1 = false))).
  Proof.
    intros V. destruct (linv_bounds _ _ _ _ _ _ _ V) as (LB1 & LB2 & LB3 & LB4 & LB5 & LB6 & LB7). unfold DoneBase. lg. lb. destruct (lok l) eqn:O.
    2:{ apply lwp_ret. lb. apply get_lpos_ok with s; [exact V|]. apply lwp_modify. split; [|split; [reflexivity|discriminate]]. constructor; try apply V; auto. split; [|split; [|split]]; apply V. }
    pose proof (synced_ok _ _ _ _ _ s l V) as Y. pose proof (y_inv _ _ _ _ _ _ Y) as I0. pose proof (y_at _ _ _ _ _ _ Y O) as AT. pose proof (v_srcok _ _ _ _ _ _ _ V O) as OS0.
    assert (OS : ok (synced l) = true) by (rewrite (y_ok _ _ _ _ _ _ Y); exact OS0).
    assert (OP : r_open (synced l) = true) by (clear - OS; unfold ok in OS; destruct (r_open (synced l)); [reflexivity|discriminate OS]).
    assert (FL : l_failed l = false) by (clear - O; unfold lok in O; destruct (l_open l), (l_failed l); cbn in O; congruence).
    lb. apply SyncBuffer_ok with content shift random independent owning s; [exact V|]. lb. apply get_lpos_ok with s; [apply linv_synced; exact V|]. change (l_fail_if_longer l) with (l_fail_if_longer l).
    rewrite (v_longer _ _ _ _ _ _ _ V), (v_limit _ _ _ _ _ _ _ V).
    assert (FIN : forall r k, inv r -> frame (synced l) r -> pos r = pos (synced l) -> 
      (k = false -> a_behind s = false -> a_longer s = true -> a_pos s = a_limit s -> size <= a_limit s \/ ok r = false) ->
      (a_longer s && (a_pos s =? a_limit s) = false -> ok r = true /\ k = false) ->
      (reliable (l_src l) -> ~ (a_longer s = true /\ a_pos s = a_limit s /\ a_limit s < size) -> ~ (a_behind s = true /\ a_longer s = true) -> ok r = true /\ k = false) ->
      lwp (pos <- get_lpos; modify (set_buffer 0 0 0 pos)) (set_lstate k (l_open l) (set_src r l)) (fun _ l1 => closing s l l1 /\ (true = false -> l_failed l1 = l_failed l) /\
    (true = true -> r_open (l_src l1) = true /\ at_src s (pos (l_src l1)) /\
      (l_failed l1 = false -> a_behind s = false -> a_longer s = true -> a_pos s = a_limit s -> size <= a_limit s \/ ok (l_src l1) = false) /\
      (a_longer s && (a_pos s =? a_limit s) = false -> ok (l_src l1) = true /\ l_failed l1 = false) /\
      (reliable (l_src l) -> ~ (a_longer s = true /\ a_pos s = a_limit s /\ a_limit s < size) -> ~ (a_behind s = true /\ a_longer s = true) -> ok (l_src l1) = true /\ l_failed l1 = false)))).
    { intros r k A1 A2 A3 A4 A5 A6. lb. unfold get_lpos. lg. la; [pose proof (v_lp _ _ _ _ _ _ _ V) as X; lcbn; clear - X; lia|]. apply lwp_ret. apply lwp_modify.
      assert (PE : l_limit_pos l - (l_limit l - l_cur l) = a_pos s) by exact (v_pos _ _ _ _ _ _ _ V).
      assert (FR : frame (l_src l) r) by exact (frame_trans _ _ _ _ _ (y_frame _ _ _ _ _ _ Y) A2).
      split.
      { constructor; lcbn; auto; try apply V.
        - rewrite (fr_rand _ _ _ _ A2). exact (y_rnd _ _ _ _ _ _ Y).
        - rewrite (fr_ind _ _ _ _ A2). exact (y_ind _ _ _ _ _ _ Y).
        - split; [|split; [|split]]; apply V.
        - exact (fr_rel _ _ _ _ FR). }
      split; [discriminate|]. intros _. lcbn. split; [rewrite (fr_open _ _ _ _ A2); exact OP|]. split; [rewrite A3; exact AT|]. auto. }
    destruct (a_longer s && (a_pos s =? a_limit s)) eqn:E.
    - lb. apply lwp_on_src. cbn [set_src l_src]. eapply wp_conseq; [apply (ReaderSteps.Pull_ok content shift); [exact I0|lia|lia]|]. cbn beta. intros b r (A1 & A2 & A3).
      destruct (c_reads _ _ _ _ _ A1) as [_ PP]. change (zlen (@nil Z)) with 0 in PP. rewrite Z.add_0_r in PP. pose proof (c_inv _ _ _ _ _ A1) as I1. destruct (pos_bounds _ _ _ I1) as (PB1 & PB2 & PB3 & PB4 & PB5 & PB6).
      assert (LO : reliable (l_src l) -> ok r = true) by (intros R; apply (c_live _ _ _ _ _ A1); [exact (fr_rel _ _ _ _ (y_frame _ _ _ _ _ _ Y) R)|exact OS]).
      apply andb_true_iff in E. destruct E as [E1 E2]. apply Z.eqb_eq in E2.
      destruct b.
      + apply lwp_modify. apply (FIN r true); [exact I1|exact (c_frame _ _ _ _ _ A1)|exact PP|discriminate|discriminate|]. intros _ N1 N2. exfalso. destruct AT as [X|(X & _)]; [|apply N2; auto]. apply N1. split; [exact E1|]. split; [exact E2|].
        clear - X PP PB4 PB5 A2 E2. lia.
      + specialize (A3 eq_refl). apply lwp_ret. replace (set_src r (set_src (synced l) l)) with (set_lstate false (l_open l) (set_src r l)) by (rewrite <- FL; destruct l; reflexivity).
        apply (FIN r false); [exact I1|exact (c_frame _ _ _ _ _ A1)|exact PP| |discriminate|intros R _ _; split; [exact (LO R)|reflexivity]]. intros _ BH _ _. destruct (ok r) eqn:OR; [left|right; reflexivity]. destruct AT as [X|(X & _)]; [|congruence]. specialize (A3 eq_refl).
        clear - X PP A3 A2 PB1 PB4 E2. lia.
    - apply lwp_ret. replace (set_src (synced l) l) with (set_lstate false (l_open l) (set_src (synced l) l)) by (rewrite <- FL; destruct l; reflexivity).
      apply (FIN (synced l) false); [exact I0|apply frame_refl|reflexivity| |auto|auto]. intros _ _ X1 X2. rewrite X1, X2, Z.eqb_refl in E. discriminate E.
  Qed.
  Lemma Close_ok s l : linv s l -> lwp Close l (fun b l' => lok l' = false /\ linv (with_pos (a_pos s) (lok l') (a_behind s) s) l' /\ (reliable (l_src l) -> reliable (l_src l')) /\
    (reliable (l_src l) -> lok l = true -> ~ (a_longer s = true /\ a_pos s = a_limit s /\ a_limit s < size) -> ~ (a_behind s = true /\ a_longer s = true) -> b = true) /\
    (lok l = true -> b = true ->
      (a_behind s = false -> pos (l_src l') = a_pos s /\ (owning = true -> random = true -> independent = false -> f_pos (r_fd (l_src l')) = a_pos s)) /\
      (a_behind s = false -> a_longer s = true -> a_pos s = a_limit s -> size <= a_limit s \/ (owning = false /\ ok (l_src l') = false)))).
  Proof.
    intros V. unfold Close. lg. destruct (l_open l) eqn:OP; cbn [negb].
    2:{ assert (O : lok l = false) by (unfold lok; rewrite OP; reflexivity). apply lwp_ret. split; [exact O|]. split; [exact (d_inv _ _ _ _ _ (moved_refl _ _ _ _ _ _ _ V))|]. split; [auto|]. split; congruence. }
    lb. eapply lwp_conseq; [exact (DoneBase_ok s l V)|]. cbn beta. intros _ l1 (C & F0 & H).
    lb. pose proof (v_own _ _ _ _ _ _ _ V) as LW.
    assert (FIN : forall l2, closing s l l2 ->
      (lok l = true -> reliable (l_src l) -> ~ (a_longer s = true /\ a_pos s = a_limit s /\ a_limit s < size) -> ~ (a_behind s = true /\ a_longer s = true) -> l_failed l2 = false) ->
      (lok l = true -> l_failed l2 = false -> (a_behind s = false -> pos (l_src l2) = a_pos s /\ (owning = true -> random = true -> independent = false -> f_pos (r_fd (l_src l2)) = a_pos s)) /\
        (a_behind s = false -> a_longer s = true -> a_pos s = a_limit s -> size <= a_limit s \/ (owning = false /\ ok (l_src l2) = false))) ->
      lwp (l <- get; modify (set_lstate (l_failed l) false);; ret (negb (l_failed l))) l2 (fun b l' => lok l' = false /\ linv (with_pos (a_pos s) (lok l') (a_behind s) s) l' /\ (reliable (l_src l) -> reliable (l_src l')) /\
    (reliable (l_src l) -> lok l = true -> ~ (a_longer s = true /\ a_pos s = a_limit s /\ a_limit s < size) -> ~ (a_behind s = true /\ a_longer s = true) -> b = true) /\
    (lok l = true -> b = true ->
      (a_behind s = false -> pos (l_src l') = a_pos s /\ (owning = true -> random = true -> independent = false -> f_pos (r_fd (l_src l')) = a_pos s)) /\
      (a_behind s = false -> a_longer s = true -> a_pos s = a_limit s -> size <= a_limit s \/ (owning = false /\ ok (l_src l') = false))))).
    { intros l2 C2 G1 G2. lg. lm. apply lwp_ret. set (l3 := set_lstate (l_failed l2) false l2). assert (O3 : lok l3 = false) by reflexivity. split; [exact O3|].
      split; [apply (closing_linv s l); [exact V|constructor; apply C2|exact O3]|].
      split; [exact (z_rel _ _ _ C2)|]. split; [intros R O N1 N2; rewrite (G1 O R N1 N2); reflexivity|]. intros O B. apply G2; [exact O|]. destruct (l_failed l2); [discriminate B|reflexivity]. }
    destruct (l_owning l).
    - lb. apply lwp_on_src. eapply wp_conseq; [exact (ReaderRun.Close_ok _ _ _ (z_inv _ _ _ C))|]. cbn beta. intros b r (A1 & A2 & A3 & A4 & A5 & A6 & A7 & A8 & A9).
      assert (C2 : closing s l (set_src r l1)). { constructor; cbn [set_src l_src]; try apply C; [exact A1|rewrite A4; apply C|rewrite A5; apply C|intros R; exact (A6 (z_rel _ _ _ C R))]. }
      destruct b; cbn [negb].
      + apply lwp_ret. apply FIN; [exact C2| |].
        * intros O R N1 N2. destruct (H O) as (_ & _ & _ & _ & H5). exact (proj2 (H5 R N1 N2)).
        * intros O NF. destruct (H O) as (H1 & H2 & H3 & _). pose proof (A3 eq_refl H1) as OK. destruct (A9 OK eq_refl) as [B1 B2]. cbn [set_src l_src l_failed] in *. split.
          -- intros BH. destruct H2 as [H2|(H2 & _)]; [|congruence]. rewrite B1. split; [exact H2|]. intros _ RN IN. rewrite B2, B1; [exact H2| |]; [rewrite (z_rnd _ _ _ C); exact RN|rewrite (z_ind _ _ _ C); exact IN].
          -- intros BH LO PL. left. destruct (H3 NF BH LO PL) as [X|X]; [exact X|congruence].
      + apply lwp_modify. apply FIN; [constructor; apply C2| |discriminate].
        intros O R N1 N2. destruct (H O) as (_ & _ & _ & _ & H5). destruct (H5 R N1 N2) as [OK _]. discriminate (A2 (z_rel _ _ _ C R) OK).
    - apply lwp_ret. apply FIN; [exact C| |].
      * intros O R N1 N2. destruct (H O) as (_ & _ & _ & _ & H5). exact (proj2 (H5 R N1 N2)).
      * intros O NF. destruct (H O) as (H1 & H2 & H3 & _). split.
        -- intros BH. destruct H2 as [H2|(H2 & _)]; [|congruence]. split; [exact H2|congruence].
        -- intros BH LO PL. destruct (H3 NF BH LO PL) as [X|X]; [left; exact X|right; auto].
  Qed.
End S.
