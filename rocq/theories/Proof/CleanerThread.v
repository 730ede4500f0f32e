(** Scheduling and the background thread. *)
From Coq Require Import Sorting.Sorted Sorting.Permutation.
From Verif Require Import Base.Bytes Model.Cleaner Spec.CleanerSpec Proof.CleanerList Proof.CleanerProof.

Lemma schedule_ok s i d : Inv s -> dying s = false -> reg (abs_of s) i <> None -> step_ok s (ScheduleCleaning s i d).
Proof.
  intros HI D R. pose proof HI as [(idle & pend & (L & FI & FP & SP & NX) & TH & W) ND FR T C CL DY]. unfold ScheduleCleaning. cbn in R. destruct (deref (entries s) i) as [e|] eqn:E; [|rewrite ?E in R; destruct R; reflexivity]. pose proof E as E0. apply deref_some in E. destruct E as (I & <-).
  assert (NOP : forall d, earliest (deadline e) d = deadline e -> step_ok s (Done s [EvSchedule (eid e) d])).
  { intros d' Q. split; [exact HI|]. apply run1. exists (cleanee e), (deadline e). cbn. rewrite E0. split; [reflexivity|]. split; [|reflexivity]. intros j. cbn. destruct (Z.eqb_spec j (eid e)) as [->|]; [|reflexivity]. rewrite E0, Q. reflexivity. }
  destruct d as [d|]; [|apply NOP; now destruct (deadline e)].
  destruct (le_time (deadline e) d) eqn:LE; [apply NOP; destruct (deadline e); [cbn in *; apply Z.leb_le in LE; f_equal; lia|discriminate]|].
  set (e' := Entry (eid e) (cleanee e) (Some d)).
  (* the list afterwards *)
  assert (X : exists idle' q1 r l1 l2 pos,
     place (S (length (entries s))) (entries s) (next s) d (match deadline e with None => None | Some _ => Some (eid e) end) = Some (pos, is_nil q1) /\
     splice (entries s) pos (eid e) = Some (idle' ++ q1 ++ e :: r) /\ entries s = l1 ++ e :: l2 /\ Permutation (idle' ++ q1 ++ e :: r) (e :: l1 ++ l2) /\ Permutation (idle' ++ q1 ++ e' :: r) (e' :: l1 ++ l2) /\
     Forall (fun e => deadline e = None) idle' /\ Forall (fun e => deadline e <> None) (q1 ++ r) /\ Srt (q1 ++ r) /\ Forall (fun x => dl x <= d) q1 /\ Forall (fun x => d <= dl x) r /\
     earliest (deadline e) (Some d) = Some d /\ (q1 = [] \/ exists x p, q1 = x :: p /\ exists p', pend = x :: p')).
  { assert (SQ : forall q1 q2 rest : list entry, Srt ((q1 ++ q2) ++ rest) -> (q1 = [] \/ exists q0 x, q1 = q0 ++ [x] /\ dl x <= d) -> Forall (fun x => dl x <= d) q1).
    { intros q1 q2 rest S [->|(q0 & x & -> & H)]; [constructor|]. rewrite <- !app_assoc in S. apply Srt_app in S. destruct S as (_ & _ & S3). apply Forall_app. split; [|now repeat constructor]. apply Forall_forall. intros y Y. specialize (S3 y x Y ltac:(now left)). lia. }
    destruct (deadline e) as [x|] eqn:DE.
    - destruct (pend_split idle pend e _ L FI I ltac:(congruence)) as (p1 & p2 & EP). subst pend. cbn in LE. apply Z.leb_gt in LE.
      pose proof FP as FP0. apply Forall_app in FP0. destruct FP0 as (F1 & F2). inversion F2; subst x0 l.
      destruct (place_ok idle (e :: p2) d p1 (S (length (entries s)))) as (q1 & q2 & EQ & P & G & Q1); [rewrite L, !app_length; lia|rewrite <- L; exact ND|exact F1|].
      rewrite NX. cbn [begin] in P. rewrite <- L in P. rewrite P. subst p1. rewrite <- !app_assoc in *. 
      pose proof SP as SP0. rewrite app_assoc in SP. pose proof (SQ q1 q2 _ SP Q1) as LQ. rewrite <- app_assoc in SP. apply Srt_app in SP. destruct SP as (S1 & S2 & S3). apply Srt_app in S2. destruct S2 as (S2 & S4 & S5). apply Srt_cons in S4. destruct S4 as (S4 & S6).
      exists idle, q1, (q2 ++ p2), (idle ++ q1 ++ q2), p2, (begin (q2 ++ e :: p2)). split; [reflexivity|]. split.
      { rewrite L. rewrite !app_assoc. rewrite <- (app_assoc (idle ++ q1) q2). rewrite splice_back; [now rewrite <- !app_assoc|]. rewrite L in ND. rewrite <- app_assoc. exact ND. }
      split; [now rewrite L, <- !app_assoc|]. split; [rewrite !app_assoc; rewrite <- (app_assoc _ q2 p2); apply Permutation_sym, (Permutation_middle (idle ++ q1) (q2 ++ p2))|]. split; [rewrite !app_assoc; rewrite <- (app_assoc _ q2 p2); apply Permutation_sym, (Permutation_middle (idle ++ q1) (q2 ++ p2))|].
      split; [exact FI|]. apply Forall_app in F1. destruct F1 as (F1 & F3). split; [apply Forall_app; split; [exact F1|apply Forall_app; split; assumption]|].
      split; [apply Srt_app; split; [exact S1|]; split; [apply Srt_app; split; [exact S2|split; [exact S4|]]; intros u v U V; apply S5; [exact U|now right]|]; intros u v U V; apply S3; [exact U|]; apply in_app_or in V; apply in_or_app; destruct V; [now left|right; now right]|].
      split; [exact LQ|]. split; [apply Forall_app; split; [eapply Forall_impl; [|exact G]; cbn; intros; lia|apply Forall_forall; intros y Y; specialize (S6 y Y); unfold dl in S6 at 1; rewrite DE in S6; lia]|].
      split; [cbn; f_equal; lia|]. destruct q1 as [|u q1]; [now left|]. right. exists u, q1. split; [reflexivity|]. eexists. reflexivity.
    - destruct (idle_split idle pend e _ L FP I DE) as (i1 & i2 & EI). subst idle.
      destruct (place_ok (i1 ++ e :: i2) [] d pend (S (length (entries s)))) as (q1 & q2 & EQ & P & G & Q1); [rewrite L, app_length; lia|rewrite app_nil_r, <- L; exact ND|exact FP|].
      rewrite !app_nil_r in P. rewrite NX. cbn [begin] in P. rewrite <- L in P. rewrite P. subst pend.
      pose proof (SQ q1 q2 [] ltac:(now rewrite app_nil_r) Q1) as LQ. pose proof SP as SP0. apply Srt_app in SP. destruct SP as (S1 & S2 & S3). apply Forall_app in FI. destruct FI as (F1 & F2). inversion F2; subst x l.
      exists (i1 ++ i2), q1, q2, i1, (i2 ++ q1 ++ q2), (begin q2). split; [reflexivity|]. rewrite <- !app_assoc in L. cbn [app] in L. split.
      { rewrite L. rewrite (app_assoc i2 q1 q2). rewrite splice_forward; [now rewrite <- !app_assoc|]. rewrite L in ND. now rewrite <- app_assoc. }
      split; [exact L|]. assert (PM : forall y, Permutation ((i1 ++ i2) ++ q1 ++ y :: q2) (y :: i1 ++ i2 ++ q1 ++ q2)) by (intros y; rewrite <- !app_assoc; rewrite !app_assoc; rewrite <- (app_assoc (i1 ++ i2)); rewrite <- (app_assoc (i1 ++ i2) q1 q2), app_assoc; rewrite (app_assoc (i1 ++ i2) q1 q2); apply Permutation_sym, Permutation_middle).
      split; [apply PM|]. split; [apply PM|]. split; [now apply Forall_app|]. split; [exact FP|]. split; [exact SP0|]. split; [exact LQ|]. split; [eapply Forall_impl; [|exact G]; cbn; intros; lia|]. split; [reflexivity|]. destruct q1 as [|u q1]; [now left|]. right. exists u, q1. split; [reflexivity|]. eexists. reflexivity. }
  destruct X as (idle' & q1 & r & l1 & l2 & pos & -> & -> & EL & P1 & P2 & FI' & FQ & SQ & LQ & GR & EA & HD).
  assert (N1 : NoDup (ids (idle' ++ q1 ++ e :: r))). { eapply NoDup_perm; [|apply Permutation_sym; exact P1]. eapply NoDup_perm; [exact ND|]. rewrite EL. apply Permutation_sym, Permutation_middle. }
  rewrite app_assoc in N1. rewrite (app_assoc idle' q1). rewrite (set_mid _ _ _ _ N1). fold e'. rewrite <- app_assoc.
  set (n := if is_nil q1 then Some (eid e) else next s).
  assert (EN : n = begin (q1 ++ e' :: r)). { unfold n. destruct HD as [->|(x & p & -> & p' & EP)]; [reflexivity|]. cbn. now rewrite NX, EP. }
  assert (NN : it_eqb n None = false) by (rewrite EN; destruct q1; reflexivity). rewrite NN.
  set (s' := St _ _ _ _ _ _ _ _). destruct (upd_abs s s' l1 e l2 (Some d) ND EL P2) as (ND' & U). apply Srt_app in SQ. destruct SQ as (S1 & S2 & S3). apply Forall_app in FQ. destruct FQ as (F1 & F2). rewrite Forall_forall in LQ, GR. split.
  - constructor; cbn; auto.
    + exists idle', (q1 ++ e' :: r). split; [split; [reflexivity|]|].
      * split; [exact FI'|]. split; [apply Forall_app; split; [exact F1|constructor; [discriminate|exact F2]]|]. split; [|exact EN].
        apply Srt_app. split; [exact S1|]. split; [apply Srt_cons; split; [exact S2|exact GR]|]. intros u v UU [<-|V]; [exact (LQ u UU)|now apply S3].
      * split; [reflexivity|]. destruct (no_thread s) eqn:NT; [discriminate|]. intros d' Q. destruct q1 as [|x p]; [now left|]. destruct HD as [HD|(x' & p0 & [= <- <-] & p' & EP)]; [discriminate|]. destruct (W d' Q) as [?|DU]; [now left|]. right. rewrite EP in DU. exact DU.
    + rewrite EL in FR. eapply fresh_perm; [exact FR|exact P2].
    + destruct (no_thread s) eqn:NT; [split; discriminate|]. exact T.
    + destruct (no_thread s) eqn:NT; [|exact C]. split; [|discriminate]. intros Q. apply C in Q. rewrite (proj1 T eq_refl) in Q. discriminate.
    + intros c Q. eapply cleanee_perm; [exact P2|]. rewrite <- EL. now apply CL.
    + congruence.
  - apply run1. exists (cleanee e), (deadline e). cbn [abs_of reg running current]. rewrite E0. split; [reflexivity|]. rewrite EA. split; [exact U|reflexivity].
Qed.
(** The parts of the background thread start with a pending entry *)
Definition core (s : st) (idle : list entry) (e : entry) (p : list entry) : Prop :=
  lists (entries s) (next s) idle (e :: p) /\ NoDup (ids (entries s)) /\ Forall (fun x => eid x < fresh s) (entries s) /\ no_thread s = false /\ current s = None /\ dying s = false.
Lemma core_deref s idle e p : core s idle e p -> next s = Some (eid e) /\ deref (entries s) (eid e) = Some e /\ exists d, deadline e = Some d /\ dl e = d.
Proof.
  intros ((L & FI & FP & SP & NX) & ND & _). split; [exact NX|]. split; [apply deref_in; [exact ND|]; rewrite L; apply in_or_app; right; now left|]. inversion FP; subst. unfold dl. destruct (deadline e) as [d|]; [now exists d|congruence].
Qed.
Lemma wait_ok s evs idle e p : core s idle e p -> exists s', wait s evs = Done s' evs /\ Inv s' /\ entries s' = entries s /\ current s' = current s /\ thread s' = TWaiting (deadline e) /\ reduced s' = false /\ next s' = next s.
Proof.
  intros K. destruct (core_deref _ _ _ _ K) as (N & DR & d & DE & DD). destruct K as (LS & ND & FR & NT & CU & DY). unfold wait. rewrite N, DR. eexists. split; [reflexivity|]. split; [|repeat split; now rewrite ?N].
  constructor; cbn; auto.
  - exists idle, (e :: p). rewrite <- N. split; [exact LS|]. split; [auto|]. intros d' [= <-]. right. cbn. rewrite DE, DD. lia.
  - rewrite NT. split; discriminate.
  - rewrite CU. split; congruence.
  - congruence.
  - congruence.
Qed.
Lemma clean_ok s now evs idle e p : core s idle e p ->
  (now < dl e /\ exists s', clean s now evs = Done s' evs /\ Inv s' /\ entries s' = entries s /\ current s' = current s /\ thread s' = TWaiting (deadline e)) \/
  (dl e <= now /\ exists s', clean s now evs = Done s' (evs ++ [EvCleanBegin (cleanee e) now]) /\ Inv s' /\ spec_step (abs_of s) (EvCleanBegin (cleanee e) now) (abs_of s')).
Proof.
  intros K. pose proof (core_deref _ _ _ _ K) as (N & DR & d & DE & DD). unfold clean. rewrite N, DR, DE. cbn [le_time]. destruct (Z.leb_spec d now) as [LE|LT]; cbn [negb].
  2:{ left. split; [lia|]. destruct (wait_ok s evs _ _ _ K) as (s' & A & B & C & D & F & _). exists s'. rewrite <- ?DE. auto 10. }
  right. split; [lia|]. destruct K as ((L & FI & FP & SP & NX) & ND & FR & NT & CU & DY). rewrite L in *. rewrite (after_mid _ _ _ ND), (set_mid _ _ _ _ ND). eexists. split; [reflexivity|].
  set (e' := Entry (eid e) (cleanee e) None). set (s' := St _ _ _ _ _ _ _ _).
  assert (P : Permutation (entries s') (e' :: idle ++ p)) by (cbn; apply Permutation_sym, Permutation_middle). destruct (upd_abs s s' idle e p None ltac:(now rewrite L) L P) as (ND' & U). inversion FP as [|? ? X FP']; subst. pose proof SP as SP0. apply Srt_cons in SP. destruct SP as (S2 & S4). split.
  - constructor; cbn; auto.
    + exists (idle ++ [e']), p. split; [split; [now rewrite <- app_assoc|]|split; [auto|discriminate]]. split; [apply Forall_app; split; [exact FI|now repeat constructor]|]. auto.
    + eapply fresh_perm; [exact FR|exact P].
    + rewrite NT. split; discriminate.
    + split; [reflexivity|discriminate].
    + intros c [= <-]. exists e'. split; [apply in_or_app; right; now left|reflexivity].
    + congruence.
  - split; [exact CU|]. split; [reflexivity|]. exists (eid e), (dl e). cbn [abs_of reg]. rewrite L, DR. cbn [option_map]. rewrite DE. split; [reflexivity|]. split; [lia|]. split; [|exact U].
    intros j c' d' Q. destruct (deref (idle ++ e :: p) j) as [y|] eqn:Y; [|discriminate]. cbn in Q. injection Q as _ Q. apply deref_some in Y. destruct Y as (Y & _). apply in_app_or in Y. assert (DY' : dl y = d') by (unfold dl; now rewrite Q). rewrite <- DY'. destruct Y as [Y|[<-|Y]]; [|lia|exact (S4 y Y)]. rewrite Forall_forall in FI. rewrite (FI y Y) in Q. discriminate.
Qed.
Lemma same_abs s s' : entries s' = entries s -> current s' = current s -> spec_run (abs_of s) [] (abs_of s').
Proof. intros E C. constructor; cbn; [now rewrite E|exact C]. Qed.
Lemma next_cases s : Inv s -> (next s = None /\ exists idle, lists (entries s) (next s) idle []) \/ exists idle e p, lists (entries s) (next s) idle (e :: p) /\ no_thread s = false /\ next s = Some (eid e) /\ NoDup (ids (entries s)) /\ Forall (fun x => eid x < fresh s) (entries s) /\ dying s = false.
Proof.
  intros [(idle & pend & LS & TH & W) ND FR T C CL DY]. destruct pend as [|e p]; [left|right].
  - split; [apply LS|]. now exists idle.
  - exists idle, e, p. split; [exact LS|]. split; [apply TH; discriminate|]. split; [apply LS|]. split; [exact ND|]. split; [exact FR|]. destruct (dying s); [|reflexivity]. destruct (DY eq_refl) as (E & _). destruct LS as (L & _). rewrite L in E. destruct idle; discriminate.
Qed.
Lemma exit_ok s evs idle : lists (entries s) (next s) idle [] -> NoDup (ids (entries s)) -> Forall (fun x => eid x < fresh s) (entries s) -> current s = None -> (dying s = true -> entries s = []) ->
  exists s', exit_thread s evs = Done s' evs /\ Inv s' /\ entries s' = entries s /\ current s' = current s.
Proof.
  intros LS ND FR CU DY. eexists. split; [reflexivity|]. split; [|split; reflexivity]. constructor; cbn; auto.
  - exists idle, []. split; [exact LS|]. split; [congruence|discriminate].
  - split; reflexivity.
  - rewrite CU. split; congruence.
  - congruence.
  - intros Q. split; [auto|discriminate].
Qed.
Lemma current_none s : Inv s -> thread s <> TCleaning -> current s = None.
Proof. intros HI N. destruct (current s) eqn:E; [|reflexivity]. destruct N. apply (i_current s HI). congruence. Qed.
Lemma thread_ok s wake now : Inv s -> step_ok s (Thread s wake now).
Proof.
  intros HI. pose proof (next_cases s HI) as NC. unfold Thread. destruct (thread s) as [| |d|] eqn:TS.
  - exact Logic.I.
  - pose proof (current_none s HI ltac:(congruence)) as CU. destruct NC as [(N & idle & LS)|(idle & e & p & LS & NT & N & ND & FR & DY)]; rewrite N.
    + rewrite N in LS. destruct (exit_ok s [] idle) as (s' & -> & X & E1 & E2); [now rewrite N|apply HI|apply HI|exact CU|apply HI|]. split; [exact X|now apply same_abs].
    + destruct (wait_ok s [] idle e p) as (s' & -> & X & E1 & E2 & _); [repeat split; auto; apply LS|]. split; [exact X|now apply same_abs].
  - pose proof (current_none s HI ltac:(congruence)) as CU. destruct (reduced s || le_time d wake); [|exact Logic.I]. destruct NC as [(N & idle & LS)|(idle & e & p & LS & NT & N & ND & FR & DY)]; rewrite N.
    + rewrite N in LS. destruct (exit_ok s [] idle) as (s' & -> & X & E1 & E2); [now rewrite N|apply HI|apply HI|exact CU|apply HI|]. split; [exact X|now apply same_abs].
    + assert (K : core s idle e p) by (repeat split; auto; apply LS). destruct (reduced s).
      * destruct (wait_ok s [] idle e p K) as (s' & -> & X & E1 & E2 & _). split; [exact X|now apply same_abs].
      * destruct (clean_ok s now [] idle e p K) as [(_ & s' & -> & X & E1 & E2 & _)|(_ & s' & -> & X & E)]; (split; [exact X|]); [now apply same_abs|now apply run1].
  - set (s0 := St _ _ None _ _ _ _ _). assert (CE : spec_step (abs_of s) EvCleanEnd (abs_of s0)) by (split; [apply (proj2 (i_current s HI)); exact TS|split; reflexivity]). change (next s0) with (next s).
    destruct NC as [(N & idle & LS)|(idle & e & p & LS & NT & N & ND & FR & DY)]; rewrite N.
    + destruct (exit_ok s0 [EvCleanEnd] idle) as (s' & -> & X & E1 & E2); [exact LS|apply HI|apply HI|reflexivity|apply HI|]. split; [exact X|]. eapply spec_cons; [exact CE|now apply same_abs].
    + assert (K : core s0 idle e p) by (repeat split; auto; apply LS).
      destruct (clean_ok s0 now [EvCleanEnd] idle e p K) as [(_ & s' & -> & X & E1 & E2 & _)|(_ & s' & -> & X & E)]; (split; [exact X|]); (eapply spec_cons; [exact CE|]); [now apply same_abs|now apply run1].
Qed.
Lemma act_ok s a : Inv s -> allowed s a -> step_ok s (act s a).
Proof.
  intros HI A. destruct a as [c|i d|i|i|wake now| |]; cbn [act allowed] in *.
  - now apply register_ok.
  - destruct A. now apply schedule_ok.
  - destruct A. now apply cancel_ok.
  - destruct A. now apply unregister_ok.
  - now apply thread_ok.
  - destruct A as (D & A). unfold Destroy. destruct (entries s) as [|e l] eqn:E.
    + split; [|constructor; cbn; [now rewrite E|reflexivity]]. pose proof HI as [(idle & pend & LS & TH & W) ND FR T C CL DY]. constructor; cbn; auto; try constructor; try apply T; try apply C; auto.
      * exists [], []. rewrite E in LS. destruct LS as (L & _ & _ & _ & NX). symmetry in L. apply app_eq_nil in L. destruct L as (-> & ->). split; [repeat split; auto; constructor|]. split; [congruence|]. intros d Q. now left.
      * rewrite E in CL. exact CL.
    + specialize (A (eid e)). cbn in A. rewrite E, deref_cons, Z.eqb_refl in A. discriminate.
  - unfold Destroyed. destruct (no_thread s) eqn:NT; [|exact Logic.I]. split; [exact HI|]. apply run1. destruct (i_dying s HI A) as (E & _). pose proof (current_none s HI) as CU. rewrite (proj1 (i_thread s HI) NT) in CU. specialize (CU ltac:(discriminate)). cbn. rewrite E. repeat split; auto.
Qed.
Lemma spec_app a evs a' evs' a'' : spec_run a evs a' -> spec_run a' evs' a'' -> spec_run a (evs ++ evs') a''.
Proof.
  intros H. revert evs' a''. induction H as [a a' E R|a ev a' evs a1 S H IH]; intros evs' a'' H'; cbn [app].
  - assert (G : forall x y evs z, (forall j, reg y j = reg x j) -> running y = running x -> spec_run y evs z -> spec_run x evs z); [|eapply G; eauto].
    clear. intros x y evs z E R H. inversion H as [? ? E1 R1|? ev y1 evs1 ? S1 H1]; subst.
    + constructor; [intros j; now rewrite E1, E|now rewrite R1, R].
    + eapply spec_cons; [|exact H1]. clear - E R S1. unfold spec_step, updated in *. destruct ev.
      * destruct S1 as (A & B & C). rewrite <- E, <- R. repeat split; auto. intros j. rewrite <- E. apply B.
      * destruct S1 as (c & p & A & B & C). exists c, p. rewrite <- E, <- R. repeat split; auto. intros j. rewrite <- E. apply B.
      * destruct S1 as (c & p & A & N & B & C). exists c, p. rewrite <- E, <- R. repeat split; auto. intros j. rewrite <- E. apply B.
      * destruct S1 as (c & p & A & N & B & C). exists c, p. rewrite <- E, <- R. repeat split; auto. intros j. rewrite <- E. apply B.
      * destruct S1 as (A & B & i & d & C & D & F & G). rewrite <- R. split; [exact A|]. split; [exact B|]. exists i, d. rewrite <- E. split; [exact C|]. split; [exact D|]. split; [intros j c' d'; rewrite <- E; apply F|]. intros j. rewrite <- E. apply G.
      * destruct S1 as (A & B & C). rewrite <- R. repeat split; auto. intros j. rewrite <- E. apply C.
      * destruct S1 as (A & B & C & D). rewrite <- R. repeat split; auto; intros j; rewrite <- E; auto.
  - eapply spec_cons; [exact S|]. now apply IH.
Qed.
Lemma runs_ok s acts s' evs : runs s acts s' evs -> Inv s -> Inv s' /\ spec_run (abs_of s) evs (abs_of s').
Proof.
  induction 1 as [s|s a s1 evs acts s2 evs' A E H IH]; intros HI; [split; [exact HI|now apply same_abs]|]. pose proof (act_ok s a HI A) as K. rewrite E in K. destruct K as (H1 & K). destruct (IH H1) as (H2 & K2). split; [exact H2|]. eapply spec_app; eauto.
Qed.
