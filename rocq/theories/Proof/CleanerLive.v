(** Progress of BackgroundCleaner. *)
From Verif Require Import Base.Bytes Model.Cleaner Spec.CleanerSpec Proof.CleanerList Proof.CleanerProof Proof.CleanerThread.

Lemma clean_not_blocked s now evs : clean s now evs <> Blocked.
Proof. unfold clean, wait. destruct (next s); [|discriminate]. destruct (deref _ _); [|discriminate]. destruct (negb _); [discriminate|]. destruct (after _ _); discriminate. Qed.
Lemma blocked_ok s a : Inv s -> allowed s a -> act s a = Blocked ->
  match a with
  | ACancel i | AUnregister i => exists c p, reg (abs_of s) i = Some (c, p) /\ running (abs_of s) = Some c
  | AThread _ _ | ADestroyed => True
  | ARegister _ | ASchedule _ _ | ADestroy => False
  end.
Proof.
  intros HI A B. assert (NC : forall e, not_current s e = false -> current s = Some (cleanee e)) by (intros e Q; unfold not_current in Q; apply negb_false_iff in Q; now apply it_eqb_eq). destruct a as [c|i d|i|i|wake now| |]; cbn [act] in B; auto.
  - discriminate.
  - unfold ScheduleCleaning in B. destruct d as [d|]; [|discriminate]. destruct (deref _ _); [|discriminate]. destruct (le_time _ _); [discriminate|]. destruct (place _ _ _ _ _) as [(pos & hit)|]; [|discriminate]. destruct (splice _ _ _); [|discriminate]. destruct (it_eqb _ _) in B; discriminate.
  - unfold CancelCleaning in B. cbn. destruct (deref (entries s) i) as [e|]; [|discriminate]. exists (cleanee e), (deadline e). split; [reflexivity|]. apply NC. destruct (not_current s e); [|reflexivity]. destruct (deadline e); [|discriminate]. destruct (it_eqb (next s) (Some i)); [destruct (after _ _); discriminate|destruct (splice _ _ _); discriminate].
  - unfold Unregister in B. cbn. destruct (deref (entries s) i) as [e|]; [|discriminate]. exists (cleanee e), (deadline e). split; [reflexivity|]. apply NC. destruct (not_current s e); [|reflexivity]. destruct (it_eqb (next s) (Some i)); [destruct (after _ _); discriminate|discriminate].
  - unfold Destroy in B. destruct (entries s); discriminate.
Qed.
Lemma pending_lists s i c d : Inv s -> reg (abs_of s) i = Some (c, Some d) -> exists idle e p, lists (entries s) (next s) idle (e :: p) /\ dl e <= d /\ no_thread s = false /\ next s = Some (eid e) /\ (forall d', thread s = TWaiting d' -> reduced s = true \/ due (e :: p) d').
Proof.
  intros [(idle & pend & LS & TH & W) ND FR T C CL DY] R. cbn in R. destruct (deref (entries s) i) as [x|] eqn:X; [|discriminate]. cbn in R. injection R as _ DX. apply deref_some in X. destruct X as (I & _). destruct LS as (L & FI & FP & SP & NX).
  destruct (pend_split idle pend x _ L FI I ltac:(congruence)) as (p1 & p2 & EP). assert (DL : dl x = d) by (unfold dl; now rewrite DX). destruct pend as [|e p]; [destruct p1; discriminate|].
  exists idle, e, p. split; [repeat split; auto|]. split; [|split; [apply TH; discriminate|split; [exact NX|exact W]]]. apply Srt_cons in SP. destruct SP as (_ & S). assert (IX : In x (e :: p)) by (rewrite EP; apply in_or_app; right; now left). destruct IX as [->|IX]; [lia|]. specialize (S x IX). lia.
Qed.
Lemma thread_run s t s' evs : Thread s t t = Done s' evs -> runs s [AThread t t] s' evs.
Proof. intros E. rewrite <- (app_nil_r evs). eapply runs_cons; [exact Logic.I|exact E|apply runs_nil]. Qed.
Lemma timely s i c d t : Inv s -> reg (abs_of s) i = Some (c, Some d) -> d <= t ->
  exists n s' evs' c', (n <= 2)%nat /\ runs s (repeat (AThread t t) n) s' evs' /\ In (EvCleanBegin c' t) evs'.
Proof.
  intros HI R LE. destruct (pending_lists s i c d HI R) as (idle & e & p & LS & DE & NT & N & W).
  assert (DY : dying s = false). { destruct (dying s) eqn:Q; [|reflexivity]. destruct (i_dying s HI Q) as (E & _). cbn in R. rewrite E in R. discriminate. }
  assert (TN : thread s <> TNone) by (intros Q; apply (i_thread s HI) in Q; congruence).
  assert (K : forall s0, entries s0 = entries s -> next s0 = next s -> current s0 = None -> no_thread s0 = no_thread s -> fresh s0 = fresh s -> dying s0 = dying s -> core s0 idle e p).
  { intros s0 E1 E2 E3 E4 E5 E6. unfold core. rewrite E1, E2, E3, E4, E5, E6. repeat split; auto; try apply LS; apply HI. }
  assert (CLN : forall s0 evs, core s0 idle e p -> exists s', clean s0 t evs = Done s' (evs ++ [EvCleanBegin (cleanee e) t])).
  { intros s0 evs K0. destruct (clean_ok s0 t evs idle e p K0) as [(L & _)|(_ & s' & E & _)]; [lia|eauto]. }
  assert (ONE : forall s0, core s0 idle e p -> thread s0 = TWaiting (deadline e) -> reduced s0 = false -> exists s', Thread s0 t t = Done s' [EvCleanBegin (cleanee e) t]).
  { intros s0 K0 T0 R0. pose proof (core_deref _ _ _ _ K0) as (N0 & _ & d0 & E0 & D0). destruct (CLN s0 [] K0) as (s' & E). exists s'. unfold Thread. rewrite T0, R0, E0, N0. cbn [le_time orb]. replace (d0 <=? t) with true by (symmetry; apply Z.leb_le; lia). exact E. }
  assert (TWO : forall s1, current s = None -> Thread s t t = Done s1 [] -> wait s [] = Done s1 [] -> exists n s' evs' c', (n <= 2)%nat /\ runs s (repeat (AThread t t) n) s' evs' /\ In (EvCleanBegin c' t) evs').
  { intros s1 CU E1 E2. pose proof (K s eq_refl eq_refl CU eq_refl eq_refl eq_refl) as K0. destruct (wait_ok s [] idle e p K0) as (s1' & W1 & HI1 & A1 & A2 & A3 & A4 & A5). rewrite E2 in W1. injection W1 as <-.
    assert (K1 : core s1 idle e p). { destruct (next_cases s1 HI1) as [(N1 & _)|(idle1 & e1 & p1 & L1 & NT1 & N1 & ND1 & FR1 & DY1)]; [congruence|]. unfold core. rewrite A1, A5 in *. split; [exact LS|]. split; [exact ND1|]. split; [exact FR1|]. split; [exact NT1|]. split; [congruence|exact DY1]. }
    destruct (ONE s1 K1 A3 A4) as (s2 & E3). exists 2%nat, s2, [EvCleanBegin (cleanee e) t], (cleanee e). split; [lia|]. split; [|now left]. cbn [repeat]. change [EvCleanBegin (cleanee e) t] with ([] ++ [EvCleanBegin (cleanee e) t]). eapply runs_cons; [exact Logic.I|exact E1|now apply thread_run]. }
  destruct (thread s) as [| |d'|] eqn:TS; [congruence| | |].
  - pose proof (current_none s HI ltac:(congruence)) as CU. destruct (wait_ok s [] idle e p (K s eq_refl eq_refl CU eq_refl eq_refl eq_refl)) as (s1 & W1 & _). apply (TWO s1 CU); [|exact W1]. unfold Thread. now rewrite TS, N.
  - pose proof (current_none s HI ltac:(congruence)) as CU. destruct (reduced s) eqn:RD.
    + destruct (wait_ok s [] idle e p (K s eq_refl eq_refl CU eq_refl eq_refl eq_refl)) as (s1 & W1 & _). apply (TWO s1 CU); [|exact W1]. unfold Thread. now rewrite TS, RD, N.
    + destruct (W d' eq_refl) as [Q|DU]; [discriminate|]. destruct d' as [x|]; [|destruct DU]. cbn in DU. destruct (CLN s [] (K s eq_refl eq_refl CU eq_refl eq_refl eq_refl)) as (s' & E). exists 1%nat, s', [EvCleanBegin (cleanee e) t], (cleanee e). split; [lia|]. split; [|now left]. apply thread_run. unfold Thread. rewrite TS, RD, N. cbn [le_time orb]. replace (x <=? t) with true by (symmetry; apply Z.leb_le; lia). exact E.
  - set (s0 := St (entries s) (next s) None (reduced s) (no_thread s) (thread s) (fresh s) (dying s)). destruct (CLN s0 [EvCleanEnd] (K s0 eq_refl eq_refl eq_refl eq_refl eq_refl eq_refl)) as (s' & E). exists 1%nat, s', [EvCleanEnd; EvCleanBegin (cleanee e) t], (cleanee e). split; [lia|]. split; [|right; now left]. apply thread_run. unfold Thread. rewrite TS. cbv zeta. cbn [next]. rewrite N. subst s0. rewrite TS, N in E. exact E.
Qed.
Lemma awake s t : Inv s -> act s (AThread t t) = Blocked -> forall i c d, reg (abs_of s) i = Some (c, Some d) -> t < d.
Proof.
  intros HI B i c d R. destruct (Z.lt_ge_cases t d) as [L|L]; [exact L|]. exfalso. destruct (timely s i c d t HI R L) as (n & s' & evs & c' & _ & RN & I). destruct n as [|n]; cbn [repeat] in RN; inversion RN as [|? ? ? ? ? ? ? A E RR]; subst; [destruct I|]. cbn [act] in *. congruence.
Qed.
Lemma destroy_ok s t : Inv s -> dying s = true -> exists n s', (n <= 1)%nat /\ runs s (repeat (AThread t t) n) s' [] /\ act s' ADestroyed = Done s' [EvDestroyed] /\ forall t', act s' (AThread t' t') = Blocked.
Proof.
  intros HI D. destruct (i_dying s HI D) as (E & RD).
  assert (N : next s = None). { destruct (next_cases s HI) as [(N & _)|(idle & e & p & (L & _) & _)]; [exact N|]. rewrite E in L. destruct idle; discriminate. }
  assert (EX : forall evs, exit_thread s evs = Done (St (entries s) (next s) (current s) (reduced s) true TNone (fresh s) (dying s)) evs) by reflexivity.
  destruct (thread s) as [| |d|] eqn:TS.
  - exists 0%nat, s. split; [lia|]. split; [apply runs_nil|]. assert (NT : no_thread s = true) by (apply (i_thread s HI); exact TS). cbn [act]. unfold Destroyed, Thread. rewrite NT, TS. split; reflexivity.
  - exists 1%nat. eexists. split; [lia|]. split; [apply thread_run; unfold Thread; rewrite TS, N; apply EX|]. split; reflexivity.
  - exists 1%nat. eexists. split; [lia|]. split; [apply thread_run; unfold Thread; rewrite TS, (RD d eq_refl), N; apply EX|]. split; reflexivity.
  - exfalso. assert (C : current s <> None) by (apply (i_current s HI); exact TS). destruct (current s) as [c|] eqn:Q; [|congruence]. destruct (i_cleanee s HI c Q) as (e & I & _). rewrite E in I. destruct I.
Qed.
Lemma cancelled a i c evs a' : spec_run a evs a' -> reg a i = Some (c, None) -> running a <> Some c ->
  (forall j p, reg a j = Some (c, p) -> j = i) -> (forall ev, In ev evs -> match ev with EvRegister _ c' => c' <> c | EvSchedule j d => j <> i | EvUnregister j => j <> i | _ => True end) ->
  forall now, ~ In (EvCleanBegin c now) evs.
Proof.
  induction 1 as [a a' E R|a ev a1 evs a2 S H IH]; intros P N ONE EV now I; [destruct I|].
  pose proof (EV ev (or_introl eq_refl)) as EV1. assert (EV2 : forall ev, In ev evs -> match ev with EvRegister _ c' => c' <> c | EvSchedule j d => j <> i | EvUnregister j => j <> i | _ => True end) by (intros; apply EV; now right).
  destruct I as [->|I].
  - destruct S as (_ & _ & j & d & Q & _). rewrite (ONE j _ Q), P in Q. discriminate.
  - revert I. apply IH; auto; destruct ev; cbn in S.
    + destruct S as (A & U & _). rewrite U. destruct (Z.eqb_spec i token); [congruence|exact P].
    + destruct S as (c1 & p & A & U & _). rewrite U. destruct (Z.eqb_spec i token); [congruence|exact P].
    + destruct S as (c1 & p & A & _ & U & _). rewrite U. destruct (Z.eqb_spec i token); [subst; rewrite P in A; now injection A as <- <-|exact P].
    + destruct S as (c1 & p & A & _ & U & _). rewrite U. destruct (Z.eqb_spec i token); [congruence|exact P].
    + destruct S as (_ & _ & j & d & A & _ & _ & U). rewrite U. destruct (Z.eqb_spec i j); [subst; rewrite P in A; discriminate|exact P].
    + destruct S as (_ & _ & U). now rewrite U.
    + destruct S as (_ & _ & U & _). now rewrite U.
    + destruct S as (_ & _ & ->). exact N.
    + destruct S as (c1 & p & _ & _ & ->). exact N.
    + destruct S as (c1 & p & _ & _ & _ & ->). exact N.
    + destruct S as (c1 & p & _ & _ & _ & ->). exact N.
    + destruct S as (_ & -> & j & d & A & _). intros [= ->]. rewrite (ONE j _ A), P in A. discriminate.
    + destruct S as (_ & -> & _). discriminate.
    + destruct S as (_ & _ & _ & ->). exact N.
    + destruct S as (A & U & _). intros j p. rewrite U. destruct (Z.eqb_spec j token); [intros [= Q]; congruence|apply ONE].
    + destruct S as (c1 & q & A & U & _). intros j p. rewrite U. destruct (Z.eqb_spec j token); [subst; intros [= <- _]; now apply (ONE token q)|apply ONE].
    + destruct S as (c1 & q & A & _ & U & _). intros j p. rewrite U. destruct (Z.eqb_spec j token); [subst; intros [= <- _]; now apply (ONE token q)|apply ONE].
    + destruct S as (c1 & q & A & _ & U & _). intros j p. rewrite U. destruct (Z.eqb_spec j token); [discriminate|apply ONE].
    + destruct S as (_ & _ & k & d & A & _ & _ & U). intros j p. rewrite U. destruct (Z.eqb_spec j k); [subst; intros [= <- _]; now apply (ONE k (Some d))|apply ONE].
    + destruct S as (_ & _ & U). intros j p. rewrite U. apply ONE.
    + destruct S as (_ & _ & U & _). intros j p. rewrite U. apply ONE.
Qed.
