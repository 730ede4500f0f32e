(** The limit and options of the limiting reader, and histories. *)
From Verif Require Import Base.Bytes Model.BufferSizer.
From Verif Require Import Model.BufferedReader Spec.BufferedReaderSpec Proof.ReaderLemmas Proof.ReaderSteps Proof.ReaderSeeks Proof.ReaderRun Proof.ReaderProof.
From Verif Require Import Model.LimitingReader Spec.LimitingReaderSpec Proof.LimitingLemmas Proof.LimitingSteps Proof.LimitingSeeks Proof.LimitingRun.
Import BufferedWriter(f_pos, kMaxFdPosition).

Section S.
  Variables (content : list Z) (shift : Z) (random independent owning : bool).
  Notation inv := (inv content shift). Notation size := (size content shift). Notation reliable := (reliable content shift).
  Notation ending := (ending content shift). Notation enough := (enough content shift). Notation has := (has content shift).
  Notation linv := (linv content shift random independent owning). Notation moved := (moved content shift random independent owning). Notation moves := (moves content shift random independent owning).
  Notation llive := (llive content shift).
  Local Notation get_lpos_ok := (get_lpos_ok content shift random independent owning).
  Local Notation d_inv := (d_inv content shift random independent owning). Local Notation d_ok := (d_ok content shift random independent owning).
  Local Notation d_rel := (d_rel content shift random independent owning).
  Ltac scbn := cbn [with_pos a_pos a_ok a_limit a_exact a_longer a_behind a_scopes].

  (** The state with another limit *)
  Definition with_limit (p : Z) (s : state) : state :=
    {| a_pos := Z.min (a_pos s) p; a_ok := a_ok s; a_limit := p; a_exact := a_exact s; a_longer := a_longer s; a_behind := a_behind s || (p <? a_pos s); a_scopes := a_scopes s |}.
  (** What remains of the state: everything but the limit, the options and whether it has failed *)
  Definition same_src (l l' : limiter) : Prop := reliable (l_src l) -> reliable (l_src l').
  Lemma raise_limit s l p : linv s l -> l_limit_pos l <= p <= kMaxPosition -> (a_behind s = true -> p <= a_limit s) -> linv (with_limit p s) (set_max p l).
  Proof.
    intros V P B. destruct (linv_bounds _ _ _ _ _ _ _ V) as (LB1 & LB2 & LB3 & LB4 & LB5 & LB6 & LB7).
    assert (PE : Z.min (a_pos s) p = a_pos s) by (clear - LB4 LB5 P; lia). assert (BE : (p <? a_pos s) = false) by (clear - LB4 LB5 P; lia). unfold with_limit. rewrite PE, BE, orb_false_r.
    constructor; scbn; try apply V; try reflexivity.
    - pose proof (v_lp _ _ _ _ _ _ _ V) as X. lcbn. clear - X P. lia.
    - clear - P. lia.
    - destruct (v_al _ _ _ _ _ _ _ V) as [X|(X & Y & Z1)]; [left; exact X|right]. split; [exact X|]. split; [exact Y|]. intros O. destruct (Z1 O) as (U1 & U2 & U3). split; [exact U1|]. lcbn.
      specialize (B U1). change (src_pos (set_max p l)) with (src_pos l). clear - B U2 U3 P. lia.
  Qed.
  Lemma lower_limit s l p : linv s l -> a_pos s <= p < l_limit_pos l -> linv (with_limit p s) (set_buffer (l_start l) (l_cur l) (l_limit l - (l_limit_pos l - p)) p (set_max p l)).
  Proof.
    intros V P. destruct (linv_bounds _ _ _ _ _ _ _ V) as (LB1 & LB2 & LB3 & LB4 & LB5 & LB6 & LB7).
    pose proof (v_lp _ _ _ _ _ _ _ V) as VL. pose proof (v_ptr _ _ _ _ _ _ _ V) as PT. pose proof (v_pos _ _ _ _ _ _ _ V) as VP. pose proof (LimitingLemmas.v_max _ _ _ _ _ _ _ V) as VM. unfold lpos, lavailable in *.
    assert (PE : Z.min (a_pos s) p = a_pos s) by (clear - P; lia). assert (BE : (p <? a_pos s) = false) by (clear - P; lia). unfold with_limit. rewrite PE, BE, orb_false_r.
    constructor; scbn; try apply V; try reflexivity; lcbn.
    - unfold lpos. lcbn. clear - VP. lia.
    - clear - PT LB4 P. lia.
    - clear - VL P. lia.
    - clear - VL P VM. lia.
    - destruct (v_al _ _ _ _ _ _ _ V) as [X|(X & Y & _)]; [left; clear - X; unfold aligned in *; lcbn; lia|]. clear - Y LB4 P. lia.
    - destruct (v_file _ _ _ _ _ _ _ V) as (F1 & F2 & F3). split; [clear - F1 P; lia|]. split; [clear - F2 P; lia|exact F3].
  Qed.
  Lemma cut_limit s l p : linv s l -> 0 <= p < a_pos s -> linv (with_limit p s) (set_buffer (l_cur l) (l_cur l) (l_cur l) p (set_max p l)).
  Proof.
    intros V P. destruct (linv_bounds _ _ _ _ _ _ _ V) as (LB1 & LB2 & LB3 & LB4 & LB5 & LB6 & LB7).
    pose proof (v_lp _ _ _ _ _ _ _ V) as VL. pose proof (v_ptr _ _ _ _ _ _ _ V) as PT. pose proof (v_pos _ _ _ _ _ _ _ V) as VP. pose proof (LimitingLemmas.v_max _ _ _ _ _ _ _ V) as VM. unfold lpos, lavailable in *.
    assert (PE : Z.min (a_pos s) p = p) by (clear - P; lia). assert (BE : (p <? a_pos s) = true) by (clear - P; lia). unfold with_limit. rewrite PE, BE, orb_true_r.
    constructor; scbn; try apply V; try reflexivity; lcbn.
    - unfold lpos. lcbn. clear. lia.
    - clear - PT. lia.
    - clear - P. lia.
    - clear - VM P LB2. lia.
    - right. split; [reflexivity|]. split; [reflexivity|]. intros O. split; [reflexivity|]. split; [reflexivity|]. change (p < src_pos l).
      destruct (v_al _ _ _ _ _ _ _ V) as [X|(X & Y & Z1)]; [clear - X VP P; unfold aligned, src_pos in *; lia|]. destruct (Z1 O) as (U1 & U2 & U3). clear - U2 U3 P LB2. lia.
    - split; [clear - P LB3; lia|]. split; [clear - P LB7; lia|discriminate].
  Qed.
  Lemma set_max_pos_ok s l p : linv s l -> 0 <= p <= kMaxPosition -> (a_behind s = true -> p <= a_limit s) -> lwp (set_max_pos p) l (fun _ l' => linv (with_limit p s) l' /\ l_src l' = l_src l).
  Proof.
    intros V P B. unfold set_max_pos. lm. lg. lcbn. destruct (p <? l_limit_pos l) eqn:E.
    - unfold MakeBufferSlow. lb. unfold get_lpos. lg. la; [pose proof (v_lp _ _ _ _ _ _ _ V) as X; lcbn; clear - X; lia|]. apply lwp_ret. lg. lcbn.
      change (l_limit_pos l - (l_limit l - l_cur l)) with (lpos l). rewrite (v_pos _ _ _ _ _ _ _ V). destruct (p <? a_pos s) eqn:E2.
      + apply lwp_modify. split; [|reflexivity]. apply (cut_limit s l p V). clear - P E2. lia.
      + destruct (linv_bounds _ _ _ _ _ _ _ V) as (LB1 & LB2 & LB3 & LB4 & LB5 & LB6 & LB7). unfold lavailable in LB4. la; [clear - E E2 LB4; lia|]. apply lwp_modify. split; [|reflexivity]. apply (lower_limit s l p V). clear - E E2. lia.
    - apply lwp_ret. split; [|reflexivity]. apply raise_limit; auto. clear - E P. lia.
  Qed.
  Lemma same_linv s s' l : linv s l -> s = s' -> linv s' l.
  Proof. intros V ->. exact V. Qed.
  Lemma state_eq p k m e f b sc p' k' m' e' f' b' sc' : p = p' -> k = k' -> m = m' -> e = e' -> f = f' -> b = b' -> sc = sc' ->
    {| a_pos := p; a_ok := k; a_limit := m; a_exact := e; a_longer := f; a_behind := b; a_scopes := sc |} = {| a_pos := p'; a_ok := k'; a_limit := m'; a_exact := e'; a_longer := f'; a_behind := b'; a_scopes := sc' |}.
  Proof. congruence. Qed.
  Lemma set_max_length_ok s l n : linv s l -> 0 <= n < 2 ^ 64 -> (a_behind s = true -> a_pos s + n <= a_limit s) ->
    lwp (set_max_length n) l (fun _ l' => linv {| a_pos := a_pos s; a_ok := a_ok s && negb (a_exact s && (kMaxPosition <? a_pos s + n)); a_limit := Z.min (a_pos s + n) kMaxPosition; a_exact := a_exact s; a_longer := a_longer s;
      a_behind := a_behind s; a_scopes := a_scopes s |} l' /\ same_src l l').
  Proof.
    intros V N B. destruct (linv_bounds _ _ _ _ _ _ _ V) as (LB1 & LB2 & LB3 & LB4 & LB5 & LB6 & LB7). pose proof kmax as KM. pose proof (LimitingLemmas.v_max _ _ _ _ _ _ _ V) as VM. unfold kMaxPosition in *.
    unfold set_max_length. lb. apply get_lpos_ok with s; [exact V|]. lg.
    destruct (2 ^ 64 <=? a_pos s + n) eqn:OV.
    - assert (U : u64 (a_pos s + n) = a_pos s + n - 2 ^ 64) by (unfold u64; rewrite <- (Z.mod_add _ (-1)) by lia; apply Z.mod_small; clear - OV N LB2 VM LB7 KM; lia). rewrite U.
      replace (a_pos s + n - 2 ^ 64 <? n) with true by (clear - LB7 KM; lia). lm.
      assert (V1 : linv (with_limit kMaxPosition s) (set_max kMaxPosition l)). { apply raise_limit; [exact V| |intros X; specialize (B X); clear - B OV VM; lia]. clear - LB6 V KM. pose proof (proj1 (proj2 (v_file _ _ _ _ _ _ _ V))). unfold kMaxPosition. lia. }
      assert (E1 : Z.min (a_pos s) kMaxPosition = a_pos s) by (clear - LB7 KM; unfold kMaxPosition; lia). assert (E2 : (kMaxPosition <? a_pos s) = false) by (clear - LB7 KM; unfold kMaxPosition; lia).
      assert (E3 : Z.min (a_pos s + n) kMaxPosition = kMaxPosition) by (clear - OV; unfold kMaxPosition; lia). unfold kMaxPosition in E3. rewrite E3.
      replace (2 ^ 64 - 1 <? a_pos s + n) with true by (clear - OV; lia). rewrite andb_true_r, (v_ex _ _ _ _ _ _ _ V). unfold with_limit in V1. rewrite E1, E2, orb_false_r in V1. destruct (a_exact s) eqn:EX; cbn [negb].
      + lb. eapply lwp_conseq; [exact (Fail_ok _ _ _ _ _ _ _ V1)|]. cbn beta. intros b l' (A1 & A2 & A3 & _). apply lwp_ret. split; [|exact (d_rel _ _ _ _ _ A3)]. pose proof (d_inv _ _ _ _ _ A3) as V2. rewrite A2 in V2. rewrite andb_false_r. exact V2.
      + apply lwp_ret. rewrite andb_true_r. split; [exact V1|exact (fun x => x)].
    - assert (U : u64 (a_pos s + n) = a_pos s + n) by (unfold u64; apply Z.mod_small; clear - OV N LB1; lia). rewrite U. replace (a_pos s + n <? n) with false by (clear - LB1; lia).
      replace (2 ^ 64 - 1 <? a_pos s + n) with false by (clear - OV; lia). rewrite andb_false_r. cbn [negb]. rewrite andb_true_r. replace (Z.min (a_pos s + n) (2 ^ 64 - 1)) with (a_pos s + n) by (clear - OV; lia).
      assert (WE : with_limit (a_pos s + n) s = {| a_pos := a_pos s; a_ok := a_ok s; a_limit := a_pos s + n; a_exact := a_exact s; a_longer := a_longer s; a_behind := a_behind s; a_scopes := a_scopes s |}).
      { apply state_eq; auto; [clear - N; lia|]. replace (a_pos s + n <? a_pos s) with false by (clear - N; lia). apply orb_false_r. }
      rewrite <- WE. lm. destruct (a_pos s + n <? l_limit_pos l) eqn:E.
      + la; [clear - E LB4 N; unfold lavailable in LB4; lia|]. apply lwp_modify. split; [|exact (fun x => x)]. apply (lower_limit s l _ V). clear - E N. lia.
      + apply lwp_ret. split; [|exact (fun x => x)]. apply raise_limit; auto. unfold kMaxPosition. clear - E OV. lia.
  Qed.
  Lemma set_options_ok s l e f sc : linv s l -> linv {| a_pos := a_pos s; a_ok := a_ok s; a_limit := a_limit s; a_exact := e; a_longer := f; a_behind := a_behind s; a_scopes := sc |} (set_options e f (map scope_of sc) l).
  Proof. intros V. constructor; scbn; try apply V; reflexivity. Qed.
  Lemma clear_limit_ok s l : linv s l -> a_behind s = false -> linv {| a_pos := a_pos s; a_ok := a_ok s; a_limit := kMaxPosition; a_exact := a_exact s; a_longer := a_longer s; a_behind := a_behind s; a_scopes := a_scopes s |} (set_max kMaxPosition l).
  Proof.
    intros V B. destruct (linv_bounds _ _ _ _ _ _ _ V) as (LB1 & LB2 & LB3 & LB4 & LB5 & LB6 & LB7). pose proof kmax as KM. pose proof (proj1 (proj2 (v_file _ _ _ _ _ _ _ V))) as F.
    eapply same_linv; [apply (raise_limit s l kMaxPosition V); [unfold kMaxPosition; clear - F KM; lia|congruence]|]. apply state_eq; auto; [clear - LB7 KM; unfold kMaxPosition; lia|].
    replace (kMaxPosition <? a_pos s) with false by (clear - LB7 KM; unfold kMaxPosition; lia). apply orb_false_r.
  Qed.
  Lemma ScopedLimiter_ok s l o e f : linv s l -> limit_option_ok o ->
    let wanted := match o with NoLimit => kMaxPosition | MaxPos p => p | MaxLength n => a_pos s + n end in
    let limit' := Z.min (a_limit s) wanted in
    lwp (ScopedLimiter o e f) l (fun _ l' => linv {| a_pos := Z.min (a_pos s) limit'; a_ok := a_ok s && negb (e && (a_limit s <? wanted)); a_limit := limit'; a_exact := true; a_longer := a_longer s;
      a_behind := a_behind s || (limit' <? a_pos s); a_scopes := (a_limit s, a_exact s, f) :: a_scopes s |} l' /\ same_src l l').
  Proof.
    intros V OO wanted limit'. destruct (linv_bounds _ _ _ _ _ _ _ V) as (LB1 & LB2 & LB3 & LB4 & LB5 & LB6 & LB7). pose proof (LimitingLemmas.v_max _ _ _ _ _ _ _ V) as VM.
    unfold ScopedLimiter. lg. lb. rewrite (v_limit _ _ _ _ _ _ _ V), (v_ex _ _ _ _ _ _ _ V).
    (** the end: the scope is remembered *)
    assert (FIN : forall l1 p k b, linv {| a_pos := p; a_ok := k; a_limit := limit'; a_exact := a_exact s; a_longer := a_longer s; a_behind := b; a_scopes := a_scopes s |} l1 -> same_src l l1 ->
      p = Z.min (a_pos s) limit' -> k = a_ok s && negb (e && (a_limit s <? wanted)) -> b = (a_behind s || (limit' <? a_pos s)) ->
      lwp (modify (fun l1 => set_options true (l_fail_if_longer l1) ({| s_old_max_pos := a_limit s; s_old_exact := a_exact s; s_fail_if_longer := f |} :: l_scopes l1) l1)) l1
        (fun _ l' => linv {| a_pos := Z.min (a_pos s) limit'; a_ok := a_ok s && negb (e && (a_limit s <? wanted)); a_limit := limit'; a_exact := true; a_longer := a_longer s;
          a_behind := a_behind s || (limit' <? a_pos s); a_scopes := (a_limit s, a_exact s, f) :: a_scopes s |} l' /\ same_src l l')).
    { intros l1 p k b V1 SS -> -> ->. apply lwp_modify. split; [|exact SS]. pose proof (set_options_ok _ _ true (a_longer s) ((a_limit s, a_exact s, f) :: a_scopes s) V1) as V2. cbn [a_pos a_ok a_limit a_behind] in V2.
      pose proof (v_longer _ _ _ _ _ _ _ V1) as X1. pose proof (v_scopes _ _ _ _ _ _ _ V1) as X2. cbn [a_longer a_scopes] in X1, X2. rewrite X1, X2. exact V2. }
    (** the limit is not changed *)
    assert (KEEP : limit' = a_limit s -> lwp (if e && (a_limit s <? wanted) then Fail;; ret tt else ret tt) l (fun _ l1 => linv {| a_pos := Z.min (a_pos s) limit'; a_ok := a_ok s && negb (e && (a_limit s <? wanted)); a_limit := limit';
        a_exact := a_exact s; a_longer := a_longer s; a_behind := a_behind s || (limit' <? a_pos s); a_scopes := a_scopes s |} l1 /\ same_src l l1)).
    { intros ->. replace (Z.min (a_pos s) (a_limit s)) with (a_pos s) by (clear - LB2; lia). replace (a_limit s <? a_pos s) with false by (clear - LB2; lia). rewrite orb_false_r. destruct (e && (a_limit s <? wanted)) eqn:E; cbn [negb].
      - lb. eapply lwp_conseq; [exact (Fail_ok _ _ _ _ _ _ _ V)|]. cbn beta. intros b l' (A1 & A2 & A3 & _). apply lwp_ret. split; [|exact (d_rel _ _ _ _ _ A3)]. pose proof (d_inv _ _ _ _ _ A3) as V2. rewrite A2 in V2. rewrite andb_false_r. exact V2.
      - apply lwp_ret. rewrite andb_true_r. split; [|exact (fun x => x)]. destruct s. exact V. }
    assert (NEXT : forall m, lwp m l (fun _ l1 => linv {| a_pos := Z.min (a_pos s) limit'; a_ok := a_ok s && negb (e && (a_limit s <? wanted)); a_limit := limit';
        a_exact := a_exact s; a_longer := a_longer s; a_behind := a_behind s || (limit' <? a_pos s); a_scopes := a_scopes s |} l1 /\ same_src l l1) ->
      lwp m l (fun (_ : unit) l1 => lwp (modify (fun l1 => set_options true (l_fail_if_longer l1) ({| s_old_max_pos := a_limit s; s_old_exact := a_exact s; s_fail_if_longer := f |} :: l_scopes l1) l1)) l1
        (fun _ l' => linv {| a_pos := Z.min (a_pos s) limit'; a_ok := a_ok s && negb (e && (a_limit s <? wanted)); a_limit := limit'; a_exact := true; a_longer := a_longer s;
          a_behind := a_behind s || (limit' <? a_pos s); a_scopes := (a_limit s, a_exact s, f) :: a_scopes s |} l' /\ same_src l l'))).
    { intros m W. apply (lwp_conseq _ _ _ _ W). intros [] l1 [V1 SS]. exact (FIN l1 _ _ _ V1 SS eq_refl eq_refl eq_refl). }
    destruct o as [|p|n]; cbn [limit_option_ok] in OO.
    - apply NEXT. rewrite andb_comm. apply KEEP. unfold limit', wanted. clear - VM. lia.
    - destruct (a_limit s <? p) eqn:E.
      + apply NEXT. unfold wanted in KEEP. rewrite E, andb_true_r in KEEP. replace (a_limit s <? wanted) with true by (symmetry; exact E). rewrite andb_true_r. apply KEEP. unfold limit', wanted. clear - E. lia.
      + apply NEXT. eapply lwp_conseq; [apply (set_max_pos_ok s l p V); [unfold kMaxPosition; clear - OO; lia|intros _; clear - E; lia]|]. cbn beta. intros [] l1 [V1 SS]. split; [|unfold same_src; rewrite SS; exact (fun x => x)].
        assert (LE : limit' = p) by (unfold limit', wanted; clear - E; lia). rewrite LE. eapply same_linv; [exact V1|]. unfold with_limit. apply state_eq; auto. unfold wanted. rewrite E, andb_false_r. cbn [negb]. rewrite andb_true_r. reflexivity.
    - lb. apply get_lpos_ok with s; [exact V|]. la; [clear - LB2; lia|]. destruct (a_limit s - a_pos s <? n) eqn:E.
      + apply NEXT. assert (E2 : (a_limit s <? wanted) = true) by (unfold wanted; clear - E; lia). rewrite E2, andb_true_r in *. apply KEEP. unfold limit'. clear - E2. lia.
      + apply NEXT. eapply lwp_conseq; [apply (set_max_length_ok s l n V OO); intros _; clear - E; lia|]. cbn beta. intros [] l1 [V1 SS]. split; [|exact SS].
        eapply same_linv; [exact V1|]. unfold limit', wanted. apply state_eq; auto; try (clear - E OO VM LB2; lia).
  Qed.
  Lemma EndScopedLimiter_ok s l old_limit old_exact longer scopes : linv s l -> a_scopes s = (old_limit, old_exact, longer) :: scopes -> a_limit s <= old_limit <= kMaxPosition -> (a_behind s = true -> old_limit = a_limit s) ->
    let s1 b := {| a_pos := a_pos s; a_ok := b; a_limit := old_limit; a_exact := old_exact; a_longer := a_longer s; a_behind := a_behind s; a_scopes := scopes |} in
    lwp EndScopedLimiter l (fun _ l' => linv (s1 (lok l')) l' /\ same_src l l' /\ (lok l' = true -> lok l = true) /\
      (lok l' = true -> longer = true -> a_pos s = a_limit s -> a_behind s = false -> Z.min old_limit size <= a_pos s /\ enough (s1 (lok l'))) /\
      (reliable (l_src l) -> lok l = true -> (longer = true -> a_pos s = a_limit s -> Z.min old_limit size <= a_pos s /\ (old_exact = true -> old_limit <= size) /\ a_behind s = false) -> lok l' = true)).
  Proof.
    intros V SC OL B s1. destruct (linv_bounds _ _ _ _ _ _ _ V) as (LB1 & LB2 & LB3 & LB4 & LB5 & LB6 & LB7). unfold EndScopedLimiter. lg. rewrite (v_scopes _ _ _ _ _ _ _ V), SC. cbn [map scope_of].
    rewrite (v_limit _ _ _ _ _ _ _ V). cbn [s_old_max_pos s_old_exact s_fail_if_longer]. la; [clear - OL; lia|]. lm. lm. rewrite (v_longer _ _ _ _ _ _ _ V).
    set (l1 := set_options _ _ _ _).
    assert (V1 : linv (s1 (a_ok s)) l1).
    { unfold l1. pose proof (v_lp _ _ _ _ _ _ _ V) as VL. pose proof (raise_limit s l old_limit V ltac:(clear - VL OL; lia) ltac:(intros X; specialize (B X); clear - B; lia)) as V0.
      pose proof (set_options_ok _ _ old_exact (a_longer s) scopes V0) as V2. eapply same_linv; [exact V2|]. unfold s1, with_limit. cbn [a_pos a_ok a_limit a_behind]. apply state_eq; auto; [clear - OL LB2; lia|].
      replace (old_limit <? a_pos s) with false by (clear - OL LB2; lia). apply orb_false_r. }
    assert (OK1 : lok l1 = a_ok s) by exact (v_ok _ _ _ _ _ _ _ V1). assert (OKL : lok l = a_ok s) by exact (v_ok _ _ _ _ _ _ _ V).
    assert (SAME : (longer = true -> a_pos s = a_limit s -> False) -> linv (s1 (lok l1)) l1 /\ same_src l l1 /\ (lok l1 = true -> lok l = true) /\
      (lok l1 = true -> longer = true -> a_pos s = a_limit s -> a_behind s = false -> Z.min old_limit size <= a_pos s /\ enough (s1 (lok l1))) /\
      (reliable (l_src l) -> lok l = true -> (longer = true -> a_pos s = a_limit s -> Z.min old_limit size <= a_pos s /\ (old_exact = true -> old_limit <= size) /\ a_behind s = false) -> lok l1 = true)).
    { intros NL. rewrite OK1, OKL. split; [exact V1|]. split; [exact (fun x => x)|]. split; [auto|]. split; [intros _ X1 X2; destruct (NL X1 X2)|auto]. }
    destruct longer; [|apply lwp_ret; apply SAME; discriminate].
    lb. eapply get_lpos_ok; [exact V1|]. cbn [s1 a_pos]. destruct (a_pos s =? a_limit s) eqn:E; [|apply lwp_ret; apply SAME; intros _ X; clear - E X; lia].
    assert (PL : a_pos s = a_limit s) by (clear - E; lia). clear SAME.
    lb. eapply lwp_conseq; [apply Pull_ok; [exact V1|lia|lia]|]. cbn beta. intros b l2 (A1 & A2 & A3). pose proof (d_inv _ _ _ _ _ A1) as V2. destruct (linv_bounds _ _ _ _ _ _ _ V2) as (LC1 & LC2 & LC3 & LC4 & LC5 & LC6 & LC7).
    cbn [with_pos s1 a_pos a_limit a_exact a_behind a_longer a_scopes] in *. unfold LimitingReaderSpec.ending in LC6. cbn [with_pos a_limit s1] in LC6.
    destruct b.
    - lb. eapply lwp_conseq; [exact (Fail_ok _ _ _ _ _ _ _ V2)|]. cbn beta. intros b l3 (B1 & B2 & B3 & _). apply lwp_ret. pose proof (moves_trans _ _ _ _ _ _ _ _ _ _ _ _ _ A1 B3) as M.
      split; [exact (d_inv _ _ _ _ _ M)|]. split; [exact (d_rel _ _ _ _ _ M)|]. rewrite B2. split; [discriminate|]. split; [discriminate|]. intros _ _ G. destruct (G eq_refl PL) as (G1 & _). clear - G1 LC6 LC4 A3. exfalso. lia.
    - apply lwp_ret. split; [exact V2|]. split; [exact (d_rel _ _ _ _ _ A1)|]. split; [rewrite OKL, <- OK1; exact (d_ok _ _ _ _ _ A1)|]. destruct A3 as [A3 A4]. assert (AV : lavailable l2 = 0) by (clear - A3 LC5; lia). rewrite AV, Z.add_0_r in A4. split.
      + intros O _ _ _. destruct (A4 O) as [U1 U2]. unfold LimitingReaderSpec.ending in U1. cbn [a_limit s1] in U1. split; [clear - U1; lia|exact U2].
      + intros R O G. destruct (G eq_refl PL) as (G1 & G2 & _). apply A2; [exact R|congruence|]. unfold LimitingReaderSpec.has. cbn [s1 a_exact a_limit a_pos]. intros EX. specialize (G2 EX). clear - G2. lia.
  Qed.
  (** A newly created limiting reader *)
  Lemma new_limiter_ok r o e f : inv r -> r_random r = random -> r_independent r = independent -> r_open r = true -> limit_option_ok o ->
    exists l, new_limiter r o e f owning = Some l /\ linv (initial (pos r) (ok r) o e f) l /\ same_src {| l_src := r; l_failed := false; l_open := true; l_limit_pos := 0; l_start := 0; l_cur := 0; l_limit := 0; l_max_pos := 0; l_exact := e; l_fail_if_longer := f; l_owning := owning; l_scopes := [] |} l.
  Proof.
    intros I1 R1 R2 OP OO. destruct (pos_bounds _ _ _ I1) as (PB1 & PB2 & PB3 & PB4 & PB5 & PB6). pose proof (i_cur _ _ _ I1) as CU. pose proof (v_lim _ _ _ (i_raw _ _ _ I1)) as VL. pose proof kmax as KM.
    unfold new_limiter. set (l0 := {| l_src := r; l_failed := false; l_open := true; l_limit_pos := 0; l_start := 0; l_cur := 0; l_limit := 0; l_max_pos := kMaxPosition; l_exact := e; l_fail_if_longer := f; l_owning := owning; l_scopes := [] |}).
    match goal with |- context [option_map snd (?m l0)] => assert (W : lwp m l0 (fun _ l => linv (initial (pos r) (ok r) o e f) l /\ (reliable r -> reliable (l_src l)))) end.
    2:{ apply lwp_some in W. destruct W as ([] & l & E & H1 & H2). exists l. rewrite E. split; [reflexivity|]. split; [exact H1|exact H2]. }
    lg. lm. lb. set (l1 := set_buffer 0 (r_cur r) (zlen (r_buf r)) (r_limit_pos r) l0).
    assert (W1 : lwp (if ok r then ret tt else modify (set_lstate true true)) l1 (fun _ l => linv (mkstate (pos r) (ok r) kMaxPosition e f false []) l /\ l_src l = r)).
    { assert (V : forall l, l = set_lstate (negb (ok r)) true l1 -> linv (mkstate (pos r) (ok r) kMaxPosition e f false []) l).
      { intros l ->. constructor; cbn [mkstate a_pos a_ok a_limit a_exact a_longer a_behind a_scopes]; unfold l1, l0; lcbn; auto.
        - unfold lok. cbn. apply negb_involutive.
        - clear - CU. lia.
        - clear - VL KM. unfold kMaxPosition. lia.
        - clear. unfold kMaxPosition. lia.
        - unfold lok. cbn. rewrite negb_involutive. auto.
        - left. unfold aligned. lcbn. clear. lia. }
      destruct (ok r) eqn:OK; [apply lwp_ret|apply lwp_modify]; (split; [apply V; reflexivity|reflexivity]). }
    apply (lwp_conseq _ _ _ _ W1). intros [] l [V SR]. clear W1. destruct o as [|p|n]; cbn [limit_option_ok] in OO.
    - apply lwp_ret. split; [|rewrite SR; exact (fun x => x)]. eapply same_linv; [exact V|]. unfold initial, mkstate. rewrite Z.min_id, Z.ltb_irrefl, andb_false_r. cbn [negb]. rewrite andb_true_r.
      apply state_eq; auto; [clear - PB1 PB4 PB6 KM; unfold kMaxPosition; lia|]. clear - PB1 PB4 PB6 KM. unfold kMaxPosition. lia.
    - eapply lwp_conseq; [apply (set_max_pos_ok _ l p V); [unfold kMaxPosition; clear - OO; lia|discriminate]|]. cbn beta. intros [] l2 [V2 SS]. split; [|rewrite SS, SR; exact (fun x => x)]. eapply same_linv; [exact V2|].
      unfold initial, mkstate, with_limit. cbn [a_pos a_ok a_limit a_exact a_longer a_behind a_scopes]. replace (Z.min p kMaxPosition) with p by (clear - OO; unfold kMaxPosition; lia). replace (kMaxPosition <? p) with false by (clear - OO; unfold kMaxPosition; lia).
      rewrite andb_false_r. cbn [negb]. rewrite andb_true_r. reflexivity.
    - eapply lwp_conseq; [apply (set_max_length_ok _ l n V OO); discriminate|]. cbn beta. intros [] l2 [V2 SS]. split; [|intros X; apply SS; rewrite SR; exact X]. eapply same_linv; [exact V2|].
      unfold initial, mkstate. cbn [a_pos a_ok a_limit a_exact a_longer a_behind a_scopes]. apply state_eq; auto; clear - PB1 PB2 PB4 PB6 KM OO; unfold kMaxPosition in *; lia.
  Qed.
End S.
