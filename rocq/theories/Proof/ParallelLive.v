(** The parallel writer: the queue is bounded, threads never block each other forever, every schedule ends. *)
From Coq Require Import Permutation.
From Verif Require Import Base.Bytes Model.Endian Model.Block Model.Chunk Model.ChunkWriter Model.SimpleChunk Model.RecordWriter Model.ParallelWriter Proof.CodecLemmas Proof.BlockProof Proof.ParallelProof.

Definition in_range (z : Z) : Prop := 0 <= z < 2 ^ 64.
(** PosAfterPadding always has a result. *)
Definition padding_total (p : Z) : Prop := forall pos, in_range pos -> exists q, PosAfterPadding pos p = Some q /\ in_range q.
Lemma ChunkEnd_range a b c : in_range (ChunkEnd a b c).
Proof. unfold ChunkEnd, in_range, AddWithOverhead, RoundUpToPossibleChunkBoundary. match goal with |- context [Z.max (u64 ?x) (u64 ?y)] => pose proof (u64_range x); pose proof (u64_range y) end. lia. Qed.

(** ** What the user thread may do, whatever the answers of ok() and of flushing are. *)
Inductive phase := Open | Closing | Closed | Verified.
Record wx := MkX { x_failed : bool; x_phase : phase; x_flushes : nat; x_begins : nat; x_annotations : nat }.
Definition x_fail x := MkX true (x_phase x) (x_flushes x) (x_begins x) (x_annotations x).
Definition x_go p x := MkX (x_failed x) p (x_flushes x) (x_begins x) (x_annotations x).
Section WP.
  Variable encode : job -> option chunk.
  Definition job_ok (j : job) : Prop := match j with JobMetadata _ => encode j <> None | JobChunk _ => True end.
  Fixpoint wp {A} (p : prog A) (Q : A -> wx -> Prop) (x : wx) : Prop :=
    match p with
    | Ret a => Q a x
    | Crash => False
    | AskOk k =>
        match x_phase x with
        | Open => (x_failed x = false -> wp (k true) Q x) /\ wp (k false) Q (x_fail x)
        | Closed => wp (k true) Q (x_go Verified x) /\ wp (k false) Q (x_fail x)
        | _ => False
        end
    | FailNow k => x_phase x = Open /\ wp k Q (x_fail x)
    | SendChunk c k => x_phase x = Open /\ wp k Q x
    | SendJob j k => x_phase x = Open /\ job_ok j /\ wp k Q x
    | SendPadding q k => x_phase x = Open /\ padding_total q /\ wp k Q x
    | SendFlush k => x_phase x = Open /\ wp (k (x_flushes x)) Q (MkX (x_failed x) (x_phase x) (S (x_flushes x)) (x_begins x) (x_annotations x))
    | AwaitFlush n k => x_phase x = Open /\ (n < x_flushes x)%nat /\ wp (k true) Q x /\ wp (k false) Q (x_fail x)
    | SendAnnotate k => x_phase x = Open /\ wp (k (x_annotations x)) Q (MkX (x_failed x) (x_phase x) (x_flushes x) (x_begins x) (S (x_annotations x)))
    | AwaitAnnotate n k => x_phase x = Open /\ (n < x_annotations x)%nat /\ wp k Q x
    | SendDone k => x_phase x = Open /\ wp k Q (x_go Closing x)
    | AwaitDone k => x_phase x = Closing /\ wp k Q (x_go Closed x)
    | TakeBegin k => x_phase x = Open /\ wp (k (x_begins x)) Q (MkX (x_failed x) (x_phase x) (x_flushes x) (S (x_begins x)) (x_annotations x))
    | GetBegin n k => x_phase x = Open /\ (n < x_begins x)%nat /\ forall z, wp (k z) Q x
    end.
  Lemma wp_mono {A} (p : prog A) : forall (Q Q' : A -> wx -> Prop) x, (forall a x, Q a x -> Q' a x) -> wp p Q x -> wp p Q' x.
  Proof.
    induction p; intros Q Q' x M W; cbn [wp] in *; try tauto; try (intuition eauto; fail).
    destruct (x_phase x); try contradiction; destruct W as [W1 W2]; split; eauto.
  Qed.
  Lemma wp_bind {A B} (p : prog A) (f : A -> prog B) : forall Q x, wp p (fun a x => wp (f a) Q x) x -> wp (bind p f) Q x.
  Proof.
    induction p; intros Q x W; cbn [wp bind] in *; try tauto; try (intuition eauto; fail).
    destruct (x_phase x); try contradiction; destruct W as [W1 W2]; split; eauto.
  Qed.
End WP.

Section Live.
  Variable hash : list Z -> Z.
  Variable encode : job -> option chunk.
  Variable parallelism : Z.
  Hypothesis parallel : 0 < parallelism.
  Context {A : Type}.
  Variable Q : A -> wx -> Prop.
  Variable R : A * dstate.
  Notation state := (state A).
  Notation step := (@step hash encode parallelism A).
  Notation inv := (inv hash encode R).

  Definition wp_user (u : user A) (x : wx) : Prop :=
    match u with Running p => wp encode p Q x | Scheduling _ j p => x_phase x = Open /\ job_ok encode j /\ wp encode p Q x end.
  Definition live_task (t : nat * task) : Prop :=
    match snd t with Encode j => job_ok encode j | SetHeader _ | SetChunk _ => True | _ => False end.
  Definition action_ok (n : nat) (a : action) : Prop := match a with AHeader id => (id < n)%nat | APadding p => padding_total p end.
  Definition request_ok (n : nat) (r : request) : Prop := match r with RChunk id => (id < n)%nat | RPadding p => padding_total p | _ => True end.
  Definition busy (s : state) : list nat := match s_user s with Scheduling id _ _ => [id] | Running _ => [] end ++ map fst (s_tasks s).
  Definition finished (s : state) : Prop := s_done s = true /\ s_thread s = WExited /\ s_queue s = [RDone].
  Definition phase_ok (s : state) (p : phase) : Prop :=
    match p with
    | Open => ~ In RDone (s_queue s) /\ s_done s = false /\ s_thread s <> WExited /\ zlen (s_queue s) <= parallelism
    | Closing => finished s \/ s_done s = false /\ s_thread s <> WExited /\ exists q, s_queue s = q ++ [RDone] /\ ~ In RDone q /\ zlen q <= parallelism
    | Closed => finished s
    | Verified => finished s /\ s_ok s = true
    end.

  Record live (s : state) (x : wx) : Prop := {
    lv_wp : wp_user (s_user s) x;
    lv_nf : x_flushes x = length (s_flushes s);
    lv_nb : x_begins x = length (s_futures s);
    lv_na : x_annotations x = length (s_annotations s);
    lv_failed : x_failed x = true -> s_ok s = false;
    lv_fronts : fronts s;
    lv_tasks : Forall live_task (s_tasks s);
    lv_nodup : NoDup (busy s);
    lv_busy : Forall (fun i => (i < length (s_promises s))%nat) (busy s);
    lv_cover : forall i p, nth_error (s_promises s) i = Some p -> (p_chunk p <> None /\ p_header p <> None) \/ In i (busy s);
    lv_queue : Forall (request_ok (length (s_promises s))) (s_queue s);
    lv_futures : Forall (fun f : future_begin => in_range (fst f) /\ Forall (action_ok (length (s_promises s))) (snd f)) (s_futures s);
    lv_before : in_range (s_before s) /\ in_range (s_pos s);
    lv_flush : forall n, (n < length (s_flushes s))%nat -> (exists b, nth_error (s_flushes s) n = Some (Some b)) \/ In (RFlush n) (pending s);
    lv_ann : forall n, (n < length (s_annotations s))%nat -> nth n (s_annotations s) false = true \/ In (RAnnotate n) (pending s);
    lv_false : forall n, nth_error (s_flushes s) n = Some (Some false) -> s_ok s = false;
    lv_phase : phase_ok s (x_phase x);
    lv_handled : s_thread s = WHandled -> hd_error (s_queue s) <> Some RDone }.

  Ltac fields := cbn [s_user s_thread s_tasks s_queue s_before s_ok s_dest s_pos s_images s_promises s_flushes s_annotations s_done s_futures
     set_user set_thread set_tasks set_queue set_before set_failed put_dest add_image set_promises set_flushes set_annotations set_done add_future enqueue] in *.

  (** *** Progress *)
  Lemma resolve_all (s : state) : (forall i p, nth_error (s_promises s) i = Some p -> p_header p <> None) ->
    forall l pos, in_range pos -> Forall (action_ok (length (s_promises s))) l -> exists z, resolve (s_promises s) pos l = Some z.
  Proof.
    intros H. induction l as [|[id|p] l IH]; intros pos IR F; cbn [resolve]; [eauto| |]; inversion F as [|? ? F1 F2]; subst; cbn [action_ok] in F1.
    - destruct (nth_error (s_promises s) id) as [[[h|] c]|] eqn:N.
      + apply IH; [apply ChunkEnd_range|exact F2].
      + exfalso. exact (H _ _ N eq_refl).
      + apply nth_error_None in N. lia.
    - destruct (F1 pos IR) as (q & -> & RQ). apply IH; assumption.
  Qed.
  Lemma request_eq_dec (a b : request) : {a = b} + {a <> b}.
  Proof. repeat decide equality. Qed.

  Definition is_done (s : state) : Prop := exists a, s_user s = Running (Ret a).
  Lemma progress (s : state) x : live s x -> inv s -> is_done s \/ exists t s', (forall f, t <> TurnWriter (Some f)) /\ step t s = Some s'.
  Proof.
    intros L I. destruct (s_tasks s) as [|[id t] ts] eqn:TS.
    2:{ right. exists (TurnTask 0). cbn [ParallelWriter.step]. unfold task_step. rewrite TS. cbn [nth_error].
        pose proof (lv_tasks _ _ L) as LT. rewrite TS in LT. inversion LT as [|? ? LT1 _]; subst. unfold live_task in LT1. cbn [snd] in LT1.
        destruct t; try contradiction.
        - destruct (match j with JobMetadata _ => false | JobChunk _ => negb (s_ok s) end); [|destruct (encode j)]; (eexists; split; [discriminate|reflexivity]).
        - eexists; split; [discriminate|reflexivity].
        - eexists; split; [discriminate|reflexivity]. }
    destruct (s_user s) as [p|id j p] eqn:U.
    2:{ right. exists TurnUser. cbn [ParallelWriter.step]. unfold user_step. rewrite U. eexists. split; [discriminate|reflexivity]. }
    assert (ALL : forall i p, nth_error (s_promises s) i = Some p -> p_chunk p <> None /\ p_header p <> None).
    { intros i p0 N. destruct (lv_cover _ _ L i p0 N) as [C|C]; [exact C|]. unfold busy in C. rewrite U, TS in C. contradiction. }
    assert (WR : forall s', writer_step hash None s = Some s' -> is_done s \/ exists t s', (forall f, t <> TurnWriter (Some f)) /\ step t s = Some s').
    { intros s' E. right. exists (TurnWriter None), s'. split; [discriminate|exact E]. }
    unfold writer_step in WR. pose proof (lv_fronts _ _ L) as FR. unfold fronts in FR. pose proof (lv_wp _ _ L) as W. rewrite U in W. cbn [wp_user] in W.
    assert (US : (exists s', user_step parallelism s = Some s') -> is_done s \/ exists t s', (forall f, t <> TurnWriter (Some f)) /\ step t s = Some s').
    { intros [s' E]. right. exists TurnUser, s'. split; [discriminate|exact E]. }
    unfold user_step in US. rewrite U in US.
    destruct (s_thread s) eqn:T.
    - destruct (s_queue s) as [|r q] eqn:QU; [|eapply WR; reflexivity].
      assert (CAP : forall s1 : state, s_queue s1 = [] -> HasCapacity parallelism s1 = true).
      { intros s1 E. unfold HasCapacity. rewrite E. change (zlen (@nil request)) with 0. apply Z.ltb_lt. exact parallel. }
      assert (PE : pending s = []) by (unfold pending; rewrite T; exact QU).
      destruct p; cbn [wp] in W; try contradiction; try (apply US; cbv iota; unfold send; rewrite CAP by (fields; exact QU); eexists; reflexivity); try (apply US; eexists; reflexivity).
      + left. exists a. exact U.
      + destruct W as (_ & LT & _). rewrite (lv_nf _ _ L) in LT. destruct (lv_flush _ _ L n LT) as [[b N]|C]; [|rewrite PE in C; contradiction]. apply US. rewrite N. eexists. reflexivity.
      + destruct W as (_ & LT & _). rewrite (lv_na _ _ L) in LT. destruct (lv_ann _ _ L n LT) as [N|C]; [|rewrite PE in C; contradiction]. apply US. rewrite N. eexists. reflexivity.
      + destruct W as (PH & _). pose proof (lv_phase _ _ L) as P. rewrite PH in P. cbn [phase_ok] in P. destruct P as [(D & _)|(D & _ & q & E & _)]; [apply US; rewrite D; eexists; reflexivity|].
        rewrite QU in E. destruct q; discriminate E.
      + destruct W as (_ & LT & _). rewrite (lv_nb _ _ L) in LT. apply US. destruct (nth_error (s_futures s) n) as [[pos l]|] eqn:N; [|apply nth_error_None in N; lia].
        pose proof (proj1 (Forall_forall _ _) (lv_futures _ _ L) _ (nth_error_In _ _ N)) as [IR AO]. cbn [fst snd] in *.
        destruct (resolve_all s ltac:(intros i p0 N0; apply (ALL i p0 N0)) l pos IR AO) as [z ->]. eexists. reflexivity.
    - destruct (s_queue s) as [|r q] eqn:QU; [congruence|].
      assert (H : exists s1, handle hash None r s = Some s1); [|destruct H as [s1 H]; rewrite H in WR; eapply WR; reflexivity].
      pose proof (lv_queue _ _ L) as LQ. rewrite QU in LQ. inversion LQ as [|? ? RO _]; subst. unfold handle. destruct r; cbn [request_ok] in RO.
      + eauto.
      + eauto.
      + destruct (nth_error (s_promises s) id) as [[h c]|] eqn:N; [|apply nth_error_None in N; lia]. destruct (ALL _ _ N) as [C _]. cbn [p_chunk] in C. destruct c as [c|]; [|congruence].
        destruct (s_ok s) eqn:OK; [|eauto]. destruct I as [(G & w & bs & I)|I]; [|destruct I; congruence]. pose proof (oi_perf _ _ _ _ _ _ (oi_sh _ _ _ _ _ _ _ I)) as PF.
        unfold pending in PF. rewrite T, QU in PF. cbn [performs perform] in PF. destruct (nth_error G id) as [c0|] eqn:NG; [|discriminate PF].
        destruct (promise_at _ _ _ _ _ (oi_prom _ _ _ _ _ _ (oi_sh _ _ _ _ _ _ _ I)) N NG) as [_ [X|X]]; cbn [p_chunk] in X; [congruence|]. injection X as <-.
        unfold write_dest, put in *. destruct (WriteChunk hash c (s_pos s)) as [[out p']|]; [eauto|discriminate PF].
      + destruct (s_ok s) eqn:OK; [|eauto]. destruct I as [(G & w & bs & I)|I]; [|destruct I; congruence]. pose proof (oi_perf _ _ _ _ _ _ (oi_sh _ _ _ _ _ _ _ I)) as PF.
        unfold pending in PF. rewrite T, QU in PF. cbn [performs perform] in PF. unfold write_dest, pad in *. destruct (WritePadding hash padding (s_pos s)) as [[out p']|]; [eauto|discriminate PF].
      + destruct (s_ok s); eauto.
    - eapply WR. reflexivity.
    - assert (FI : finished s /\ (x_phase x = Closing \/ x_phase x = Closed \/ x_phase x = Verified)).
      { pose proof (lv_phase _ _ L) as P. destruct (x_phase x); cbn [phase_ok] in P.
        - destruct P as (_ & _ & P & _). congruence.
        - destruct P as [P|(_ & P & _)]; [auto|congruence].
        - auto.
        - destruct P. auto. }
      destruct FI as [(D & _ & _) PH]. destruct p; cbn [wp] in W; try contradiction; try (apply US; eexists; reflexivity).
      all: try (destruct W as [W _]; destruct PH as [PH|[PH|PH]]; congruence).
      + left. exists a. exact U.
      + apply US. rewrite D. eexists. reflexivity.
  Qed.

  (** *** The user thread *)
  Lemma live_user (s : state) x p x' : live s x -> (match s_user s with Running _ => True | _ => False end) -> wp encode p Q x' ->
    x_flushes x' = x_flushes x -> x_begins x' = x_begins x -> x_annotations x' = x_annotations x -> (x_failed x' = true -> s_ok s = false) -> phase_ok s (x_phase x') ->
    live (set_user (Running p) s) x'.
  Proof.
    intros L U W E1 E2 E3 F P. destruct L as [L1 L2 L3 L4 L5 L6 L7 L8 L9 L10 L11 L12 L13 L14 L15 L16 L17 L18]. unfold busy in *. destruct (s_user s); [|contradiction].
    constructor; unfold busy; fields; try assumption; try congruence.
  Qed.
  Lemma live_enqueue (s : state) x r : live s x -> x_phase x = Open -> zlen (s_queue s) < parallelism -> request_ok (length (s_promises s)) r -> r <> RDone -> live (enqueue r s) x.
  Proof.
    intros L PH C RO ND. destruct L as [L1 L2 L3 L4 L5 L6 L7 L8 L9 L10 L11 L12 L13 L14 L15 L16 L17 L18].
    constructor; try assumption.
    - unfold fronts in *. fields. destruct (s_thread s); try assumption; destruct (s_queue s); (congruence || discriminate).
    - fields. apply Forall_app. split; [assumption|]. constructor; [exact RO|constructor].
    - intros n N. fields. rewrite pending_send by exact L6. destruct (L14 n N) as [H|H]; [left; exact H|right; apply in_or_app; left; exact H].
    - intros n N. fields. rewrite pending_send by exact L6. destruct (L15 n N) as [H|H]; [left; exact H|right; apply in_or_app; left; exact H].
    - rewrite PH in *. cbn [phase_ok] in *. fields. destruct L17 as (P1 & P2 & P3 & P4). split; [|split; [assumption|split; [assumption|]]].
      + intros H. apply in_app_or in H as [H|[H|H]]; [contradiction|congruence|contradiction].
      + rewrite zlen_app. change (zlen [r]) with 1. lia.
    - intros T. fields. unfold fronts in L6. rewrite T in L6. destruct (s_queue s); [congruence|exact (L18 T)].
  Qed.
  Lemma live_promise (s : state) x p u : live s x -> (match s_user s with Running _ => True | _ => False end) -> wp_user u x ->
    match u with Running _ => p_chunk p <> None /\ p_header p <> None | Scheduling id _ _ => id = length (s_promises s) end ->
    live (set_user u (set_promises (s_promises s ++ [p]) s)) x.
  Proof.
    intros L U W P. destruct L as [L1 L2 L3 L4 L5 L6 L7 L8 L9 L10 L11 L12 L13 L14 L15 L16 L17 L18]. unfold busy in *. destruct (s_user s); [|contradiction]. cbn [app] in *.
    assert (LL : length (s_promises s ++ [p]) = S (length (s_promises s))) by (rewrite app_length; cbn; lia).
    constructor; unfold busy; fields; try assumption.
    - destruct u as [p1|id j p1]; [exact L8|]. cbn [app]. subst id. constructor; [|exact L8]. intros H. pose proof (proj1 (Forall_forall _ _) L9 _ H) as H1. cbv beta in H1. lia.
    - rewrite LL. assert (F9 : Forall (fun i => (i < S (length (s_promises s)))%nat) (map fst (s_tasks s))) by (eapply Forall_impl; [|exact L9]; cbv beta; intros; lia).
      destruct u; [exact F9|]. subst id. constructor; [lia|exact F9].
    - intros i q N. apply nth_snoc_inv in N as [N|[-> ->]].
      + destruct (L10 i q N) as [H|H]; [left; exact H|right]. apply in_or_app. right. exact H.
      + destruct u; [left; exact P|right]. subst id. left. reflexivity.
    - rewrite LL. eapply Forall_impl; [|exact L11]. intros [| |id| |]; cbn [request_ok]; auto.
    - rewrite LL. eapply Forall_impl; [|exact L12]. intros [z l] [IR AO]. split; [exact IR|]. eapply Forall_impl; [|exact AO]. intros [id|q]; cbn [action_ok]; auto.
  Qed.
  Lemma actions_ok n q : Forall (request_ok n) q -> Forall (action_ok n) (actions q).
  Proof.
    induction 1 as [|r q H F IH]; [constructor|]. unfold actions. cbn [flat_map]. apply Forall_app. split; [|exact IH]. destruct r; constructor; try exact H; constructor.
  Qed.

  Lemma live_user_step (s s' : state) x : live s x -> user_step parallelism s = Some s' -> exists x', live s' x'.
  Proof.
    intros L E. pose proof (lv_wp _ _ L) as W. unfold user_step in E. destruct (s_user s) as [p|id j p] eqn:U.
    - cbn [wp_user] in W.
      assert (RU : match s_user s with Running _ => True | Scheduling _ _ _ => False end) by (rewrite U; exact Logic.I).
      pose proof (lv_failed _ _ L) as LF. pose proof (lv_phase _ _ L) as LP.
      assert (CAP : forall (s1 : state) r s2, send parallelism r s1 = Some s2 -> s2 = enqueue r s1 /\ zlen (s_queue s1) < parallelism).
      { intros s1 r s2 H. unfold send, HasCapacity in H. destruct (Z.ltb_spec (zlen (s_queue s1)) parallelism); [|discriminate H]. injection H as <-. auto. }
      destruct p; cbn [wp] in W; try contradiction; try discriminate E.
      + injection E as <-. destruct (x_phase x) eqn:PH; try contradiction.
        * destruct W as [W1 W2]. destruct (s_ok s) eqn:OK.
          -- assert (XF : x_failed x = false) by (destruct (x_failed x); [specialize (LF eq_refl); congruence|reflexivity]).
             exists x. apply live_user with (x := x); auto; rewrite ?PH; try assumption. congruence.
          -- exists (x_fail x). apply live_user with (x := x); auto. cbn [x_phase x_fail]. rewrite PH. exact LP.
        * destruct W as [W1 W2]. destruct (s_ok s) eqn:OK.
          -- exists (x_go Verified x). apply live_user with (x := x); auto; cbn [x_phase x_go x_failed]; [rewrite OK; exact LF|]. split; [exact LP|exact OK].
          -- exists (x_fail x). apply live_user with (x := x); auto. cbn [x_phase x_fail]. rewrite PH. exact LP.
      + injection E as <-. destruct W as [PH W]. exists (x_fail x).
        destruct L as [L1 L2 L3 L4 L5 L6 L7 L8 L9 L10 L11 L12 L13 L14 L15 L16 L17 L18]. unfold busy in *. rewrite U in *.
        constructor; unfold busy; fields; try assumption; try reflexivity.
        cbn [x_phase x_fail]. rewrite PH in *. exact L17.
      + destruct W as [PH W]. apply CAP in E as [-> C]. exists x. fields. apply live_enqueue; try assumption; try discriminate.
        * apply live_promise; try assumption. split; discriminate.
        * cbn [request_ok]. fields. rewrite app_length. cbn. lia.
      + destruct W as (PH & JO & W). apply CAP in E as [-> C]. exists x. fields. apply live_enqueue; try assumption; try discriminate.
        * apply live_promise; try assumption; [|reflexivity]. split; [assumption|split; assumption].
        * cbn [request_ok]. fields. rewrite app_length. cbn. lia.
      + destruct W as (PH & PT & W). apply CAP in E as [-> C]. exists x. apply live_enqueue; try assumption; try discriminate. apply live_user with (x := x); auto.
      + destruct W as (PH & W). apply CAP in E as [-> C].
        assert (L2 : live (enqueue (RFlush (length (s_flushes s))) s) x) by (apply live_enqueue; try assumption; try discriminate; exact Logic.I).
        pose proof (lv_fronts _ _ L) as FR. exists (MkX (x_failed x) (x_phase x) (S (x_flushes x)) (x_begins x) (x_annotations x)).
        change (enqueue ?r (set_user ?u (set_flushes ?f s))) with (set_user u (set_flushes f (enqueue r s))).
        rewrite (lv_nf _ _ L) in W. clear L. destruct L2 as [L1 L2 L3 L4 L5 L6 L7 L8 L9 L10 L11 L12 L13 L14 L15 L16 L17 L18]. unfold busy in *. fields. rewrite U in *.
        constructor; unfold busy; fields; try assumption; cbn [x_flushes x_begins x_annotations x_failed x_phase].
        * rewrite L2. exact W.
        * rewrite app_length. cbn. lia.
        * intros n N. rewrite app_length in N. cbn in N. change (pending _) with (pending (enqueue (RFlush (length (s_flushes s))) s)).
          destruct (Nat.eq_dec n (length (s_flushes s))) as [->|D].
          -- right. rewrite pending_send by exact FR. apply in_or_app. right. left. reflexivity.
          -- destruct (L14 n ltac:(lia)) as [[b H]|H]; [left; exists b; apply nth_error_app_some, H|right; exact H].
        * intros n N. apply nth_snoc_inv in N as [N|[_ N]]; [exact (L16 n N)|discriminate N].
      + destruct W as (PH & LT & W1 & W2). destruct (nth_error (s_flushes s) n) as [[b|]|] eqn:N; try discriminate E. injection E as <-. destruct b.
        * exists x. apply live_user with (x := x); auto.
        * exists (x_fail x). apply live_user with (x := x); auto. intros _. exact (lv_false _ _ L _ N).
      + destruct W as (PH & W). apply CAP in E as [-> C].
        assert (L2 : live (enqueue (RAnnotate (length (s_annotations s))) s) x) by (apply live_enqueue; try assumption; try discriminate; exact Logic.I).
        pose proof (lv_fronts _ _ L) as FR. exists (MkX (x_failed x) (x_phase x) (x_flushes x) (x_begins x) (S (x_annotations x))).
        change (enqueue ?r (set_user ?u (set_annotations ?f s))) with (set_user u (set_annotations f (enqueue r s))).
        rewrite (lv_na _ _ L) in W. clear L. destruct L2 as [L1 L2 L3 L4 L5 L6 L7 L8 L9 L10 L11 L12 L13 L14 L15 L16 L17 L18]. unfold busy in *. fields. rewrite U in *.
        constructor; unfold busy; fields; try assumption; cbn [x_flushes x_begins x_annotations x_failed x_phase].
        * rewrite L4. exact W.
        * rewrite app_length. cbn. lia.
        * intros n N. rewrite app_length in N. cbn in N. change (pending _) with (pending (enqueue (RAnnotate (length (s_annotations s))) s)).
          destruct (Nat.eq_dec n (length (s_annotations s))) as [->|D].
          -- right. rewrite pending_send by exact FR. apply in_or_app. right. left. reflexivity.
          -- destruct (L15 n ltac:(lia)) as [H|H]; [left; rewrite app_nth1 by lia; exact H|right; exact H].
      + destruct W as (PH & LT & W). destruct (nth n (s_annotations s) false); [|discriminate E]. injection E as <-. exists x. apply live_user with (x := x); auto.
      + injection E as <-. destruct W as (PH & W). exists (x_go Closing x). rewrite PH in LP. cbn [phase_ok] in LP. destruct LP as (P1 & P2 & P3 & P4).
        pose proof (lv_fronts _ _ L) as FR. destruct L as [L1 L2 L3 L4 L5 L6 L7 L8 L9 L10 L11 L12 L13 L14 L15 L16 L17 L18]. unfold busy in *. rewrite U in *.
        constructor; unfold busy; fields; try assumption.
        * unfold fronts in *. fields. destruct (s_thread s); try assumption; destruct (s_queue s); (congruence || discriminate).
        * apply Forall_app. split; [assumption|]. constructor; [exact Logic.I|constructor].
        * intros n N. change (pending _) with (pending (enqueue RDone s)). rewrite pending_send by exact FR. destruct (L14 n N) as [H|H]; [left; exact H|right; apply in_or_app; left; exact H].
        * intros n N. change (pending _) with (pending (enqueue RDone s)). rewrite pending_send by exact FR. destruct (L15 n N) as [H|H]; [left; exact H|right; apply in_or_app; left; exact H].
        * cbn [x_phase x_go phase_ok]. fields. right. split; [assumption|]. split; [assumption|]. exists (s_queue s). auto.
        * intros T. unfold fronts in L6. rewrite T in L6. destruct (s_queue s); [congruence|exact (L18 T)].
      + destruct W as (PH & W). destruct (s_done s) eqn:D; [|discriminate E]. injection E as <-. exists (x_go Closed x). apply live_user with (x := x); auto.
        rewrite PH in LP. cbn [phase_ok x_phase x_go] in *. destruct LP as [P|(P & _)]; [exact P|congruence].
      + injection E as <-. destruct W as (PH & W). eexists (MkX _ _ _ _ _). rewrite (lv_nb _ _ L) in W.
        pose proof (actions_ok _ _ (lv_queue _ _ L)) as AO. destruct L as [L1 L2 L3 L4 L5 L6 L7 L8 L9 L10 L11 L12 L13 L14 L15 L16 L17 L18]. unfold busy in *. rewrite U in *.
        constructor; unfold busy; fields; try assumption; cbn [x_flushes x_begins x_annotations x_failed x_phase].
        * exact W.
        * exact L2.
        * rewrite app_length. cbn. lia.
        * exact L4.
        * exact L5.
        * apply Forall_app. split; [assumption|]. constructor; [|constructor]. split; [apply L13|exact AO].
        * exact L17.
      + destruct W as (PH & LT & W). destruct (nth_error (s_futures s) n) as [[pos l]|]; [|discriminate E]. destruct (resolve (s_promises s) pos l) as [z|]; [|discriminate E]. injection E as <-.
        exists x. apply live_user with (x := x); auto.
    - injection E as <-. destruct W as (PH & JO & W). exists x. destruct L as [L1 L2 L3 L4 L5 L6 L7 L8 L9 L10 L11 L12 L13 L14 L15 L16 L17 L18]. unfold busy in *. rewrite U in *. cbn [app] in *.
      constructor; unfold busy; fields; try assumption; cbn [app].
      + apply Forall_app. split; [assumption|]. constructor; [exact JO|constructor].
      + rewrite map_app. cbn [map fst]. apply (Permutation_NoDup (l := id :: map fst (s_tasks s))); [|exact L8]. apply Permutation_cons_append.
      + rewrite map_app. cbn [map fst]. inversion L9; subst. apply Forall_app. split; [assumption|]. constructor; [assumption|constructor].
      + intros i q N. rewrite map_app. cbn [map fst]. destruct (L10 i q N) as [H|H]; [left; exact H|right]. apply in_or_app. destruct H as [H|H]; [right; left; exact H|left; exact H].
  Qed.

  (** *** Tasks *)
  Lemma map_fst_set (ts : list (nat * task)) id t t' : forall n, nth_error ts n = Some (id, t) -> map fst (set_nth n (id, t') ts) = map fst ts.
  Proof. induction ts as [|[i u] ts IH]; intros [|n] E; cbn in *; try discriminate E; [congruence|]. f_equal. auto. Qed.
  Lemma map_remove {X Y} (g : X -> Y) (l : list X) : forall n, map g (remove_nth n l) = remove_nth n (map g l).
  Proof. induction l as [|a l IH]; intros [|n]; cbn; try reflexivity. f_equal. auto. Qed.
  Lemma remove_perm {X} (l : list X) a : forall n, nth_error l n = Some a -> Permutation l (a :: remove_nth n l).
  Proof.
    induction l as [|b l IH]; intros [|n] E; cbn in *; try discriminate E; [injection E as ->; reflexivity|].
    rewrite (IH n E) at 1. apply perm_swap.
  Qed.
  Lemma live_set_task (s : state) x n id t t' : live s x -> nth_error (s_tasks s) n = Some (id, t) -> live_task (id, t') ->
    live (set_tasks (set_nth n (id, t') (s_tasks s)) s) x.
  Proof.
    intros [L1 L2 L3 L4 L5 L6 L7 L8 L9 L10 L11 L12 L13 L14 L15 L16 L17 L18] N T. unfold busy in *. pose proof (map_fst_set _ _ _ t' _ N) as M.
    constructor; unfold busy; fields; rewrite ?M; try assumption. apply Forall_set_nth; assumption.
  Qed.
  Lemma live_set_promise (s : state) x n id t p : live s x -> nth_error (s_tasks s) n = Some (id, t) -> live (set_promises (set_nth id p (s_promises s)) s) x.
  Proof.
    intros [L1 L2 L3 L4 L5 L6 L7 L8 L9 L10 L11 L12 L13 L14 L15 L16 L17 L18] N. constructor; unfold busy in *; fields; rewrite ?length_set_nth; try assumption.
    intros i q E. destruct (Nat.eq_dec id i) as [->|D].
    - right. apply in_or_app. right. apply nth_error_In with (n := n). rewrite nth_error_map, N. reflexivity.
    - rewrite nth_set_nth_other in E by exact D. exact (L10 i q E).
  Qed.
  Lemma live_remove_task (s : state) x n id t : live s x -> nth_error (s_tasks s) n = Some (id, t) ->
    (forall p, nth_error (s_promises s) id = Some p -> p_chunk p <> None /\ p_header p <> None) -> live (set_tasks (remove_nth n (s_tasks s)) s) x.
  Proof.
    intros [L1 L2 L3 L4 L5 L6 L7 L8 L9 L10 L11 L12 L13 L14 L15 L16 L17 L18] N P.
    assert (PM : Permutation (busy s) (id :: busy (set_tasks (remove_nth n (s_tasks s)) s))).
    { unfold busy. fields. rewrite map_remove. rewrite Permutation_middle. apply Permutation_app_head. apply remove_perm. rewrite nth_error_map, N. reflexivity. }
    constructor; try assumption.
    - fields. apply Forall_remove_nth, L7.
    - pose proof (Permutation_NoDup PM L8) as H. inversion H; assumption.
    - fields. pose proof (Permutation_Forall PM L9) as H. inversion H; assumption.
    - intros i q E. destruct (L10 i q E) as [H|H]; [left; exact H|]. apply (Permutation_in _ PM) in H as [<-|H]; [left; apply P, E|right; exact H].
  Qed.
  Lemma live_task_step (s s' : state) x n : live s x -> inv s -> task_step encode parallelism n s = Some s' -> live s' x.
  Proof.
    intros L I E. unfold task_step in E. destruct (nth_error (s_tasks s) n) as [[id t]|] eqn:N; [|discriminate E].
    pose proof (proj1 (Forall_forall _ _) (lv_tasks _ _ L) _ (nth_error_In _ _ N)) as LT. unfold live_task in LT. cbn [snd] in LT.
    destruct t; try contradiction.
    - destruct (match j with JobMetadata _ => false | JobChunk _ => negb (s_ok s) end) eqn:SK.
      + injection E as <-. eapply live_set_task; eauto. exact Logic.I.
      + destruct (encode j) as [c|] eqn:EJ; injection E as <-; [eapply live_set_task; eauto; exact Logic.I|]. exfalso.
        destruct j as [m|d]; [exact (LT EJ)|]. apply Bool.negb_false_iff in SK.
        destruct I as [(G & w & bs & I)|I]; [|destruct I; congruence].
        pose proof (proj1 (Forall_forall _ _) (oi_tasks _ _ _ _ _ _ (oi_sh _ _ _ _ _ _ _ I)) _ (nth_error_In _ _ N)) as (c & C & _). congruence.
    - injection E as <-. apply (live_set_promise (set_tasks (set_nth n (id, SetChunk c) (s_tasks s)) s) x n id (SetChunk c)).
      + eapply live_set_task; eauto.
      + fields. apply nth_set_nth_same. apply nth_error_Some. congruence.
    - injection E as <-. apply (live_remove_task (set_promises (set_nth id (MkPromise (Some (c_header c)) (Some c)) (s_promises s)) s) x n id (SetChunk c)).
      + eapply live_set_promise; eauto.
      + exact N.
      + fields. intros p E. rewrite nth_set_nth_same in E; [injection E as <-; split; discriminate|].
        pose proof (proj1 (Forall_forall _ _) (lv_busy _ _ L) id) as B. apply B. unfold busy. apply in_or_app. right. apply nth_error_In with (n := n). rewrite nth_error_map, N. reflexivity.
  Qed.

  (** *** The chunk writer thread *)
  Lemma in_cons_other {X} (a b : X) l : In a (b :: l) -> b <> a -> In a l.
  Proof. intros [H|H] D; [congruence|exact H]. Qed.
  (** After handling [r], at the front of the queue. *)
  Lemma live_dest (s : state) x d p : live s x -> in_range p -> live (put_dest d p s) x.
  Proof. intros [L1 L2 L3 L4 L5 L6 L7 L8 L9 L10 L11 L12 L13 L14 L15 L16 L17 L18] P. constructor; try assumption. split; [apply L13|exact P]. Qed.
  Lemma live_failed (s : state) x : live s x -> x_phase x <> Verified -> live (set_failed s) x.
  Proof.
    intros [L1 L2 L3 L4 L5 L6 L7 L8 L9 L10 L11 L12 L13 L14 L15 L16 L17 L18] P. constructor; try assumption; fields; auto.
    destruct (x_phase x); try assumption. congruence.
  Qed.
  Lemma live_handled (s : state) x r q : live s x -> s_thread s = WHandle -> s_queue s = r :: q -> r <> RDone ->
    (forall n, r = RFlush n -> (n < length (s_flushes s))%nat -> exists b, nth_error (s_flushes s) n = Some (Some b)) ->
    (forall n, r = RAnnotate n -> (n < length (s_annotations s))%nat -> nth n (s_annotations s) false = true) -> live (set_thread WHandled s) x.
  Proof.
    intros [L1 L2 L3 L4 L5 L6 L7 L8 L9 L10 L11 L12 L13 L14 L15 L16 L17 L18] T QU ND F AN. constructor; try assumption.
    - unfold fronts. fields. congruence.
    - intros n H. fields. destruct (L14 n H) as [H1|H1]; [left; exact H1|]. unfold pending in *. fields. rewrite T, QU in *. cbn [tl]. destruct H1 as [H1|H1]; [left; exact (F n H1 H)|right; exact H1].
    - intros n H. fields. destruct (L15 n H) as [H1|H1]; [left; exact H1|]. unfold pending in *. fields. rewrite T, QU in *. cbn [tl]. destruct H1 as [H1|H1]; [left; exact (AN n H1 H)|right; exact H1].
    - destruct (x_phase x); cbn [phase_ok] in *; unfold finished in *; fields.
      + intuition congruence.
      + destruct L17 as [(_ & X & _)|(A1 & A2 & A3)]; [congruence|]. right. repeat split; try assumption. congruence.
      + destruct L17 as (_ & X & _). congruence.
      + destruct L17 as [(_ & X & _) _]. congruence.
    - intros _. fields. rewrite QU. cbn [hd_error]. congruence.
  Qed.
  Lemma live_set_flush (s : state) x n b : live s x -> (b = false -> s_ok s = false) -> live (set_flushes (set_nth n (Some b) (s_flushes s)) s) x.
  Proof.
    intros [L1 L2 L3 L4 L5 L6 L7 L8 L9 L10 L11 L12 L13 L14 L15 L16 L17 L18] B. constructor; try assumption; fields; rewrite ?length_set_nth; try assumption.
    - intros m M. destruct (Nat.eq_dec n m) as [->|D].
      + left. exists b. apply nth_set_nth_same, M.
      + rewrite nth_set_nth_other by exact D. exact (L14 m M).
    - intros m M. destruct (Nat.eq_dec n m) as [->|D].
      + assert (LT : (m < length (s_flushes s))%nat) by (rewrite <- (length_set_nth _ m (Some b)); apply nth_error_Some; congruence).
        rewrite nth_set_nth_same in M by exact LT. injection M as ->. auto.
      + rewrite nth_set_nth_other in M by exact D. exact (L16 m M).
  Qed.
  Lemma live_image (s : state) x : live s x -> live (add_image s) x.
  Proof. intros [L1 L2 L3 L4 L5 L6 L7 L8 L9 L10 L11 L12 L13 L14 L15 L16 L17 L18]. constructor; assumption. Qed.
  Lemma phase_running (s : state) x : live s x -> s_thread s <> WExited -> x_phase x = Open \/ x_phase x = Closing.
  Proof.
    intros L T. pose proof (lv_phase _ _ L) as P. destruct (x_phase x); auto; cbn [phase_ok] in P; unfold finished in P; [destruct P as (_ & P & _)|destruct P as [(_ & P & _) _]]; congruence.
  Qed.
  Lemma live_writer_step (s s' : state) x f : live s x -> inv s -> writer_step hash f s = Some s' -> live s' x.
  Proof.
    intros L I E. unfold writer_step in E. destruct (s_thread s) eqn:T.
    - destruct (s_queue s) as [|r q] eqn:QU; [discriminate E|]. injection E as <-. destruct L as [L1 L2 L3 L4 L5 L6 L7 L8 L9 L10 L11 L12 L13 L14 L15 L16 L17 L18].
      constructor; try assumption.
      + unfold fronts. fields. congruence.
      + unfold pending in *. fields. rewrite T in *. exact L14.
      + unfold pending in *. fields. rewrite T in *. exact L15.
      + destruct (x_phase x); cbn [phase_ok] in *; unfold finished in *; fields.
        * intuition congruence.
        * destruct L17 as [(_ & X & _)|(A1 & A2 & A3)]; [congruence|]. right. repeat split; try assumption. congruence.
        * destruct L17 as (_ & X & _). congruence.
        * destruct L17 as [(_ & X & _) _]. congruence.
      + discriminate.
    - destruct (s_queue s) as [|r q] eqn:QU; [discriminate E|].
      destruct (handle hash f r s) as [s1|] eqn:H; [|discriminate E]. injection E as <-.
      assert (PV : x_phase x <> Verified) by (destruct (phase_running s x L ltac:(congruence)); congruence).
      assert (WD : forall o s2, (forall out p, o = Some (out, p) -> in_range p) -> write_dest f o s = Some s2 -> live s2 x /\ s_thread s2 = WHandle /\ s_queue s2 = r :: q).
      { intros o s2 OR W. unfold write_dest in W. destruct o as [[out p]|]; [|discriminate W]. destruct f as [f|]; injection W as <-.
        - split; [|auto]. apply live_failed; [|exact PV]. apply live_dest; [exact L|]. apply u64_range.
        - split; [|auto]. apply live_dest; [exact L|]. exact (OR _ _ eq_refl). }
      destruct r; cbn [handle] in H.
      + injection H as <-. pose proof (phase_running s x L ltac:(congruence)) as PH. destruct L as [L1 L2 L3 L4 L5 L6 L7 L8 L9 L10 L11 L12 L13 L14 L15 L16 L17 L18].
        assert (QE : q = [] /\ x_phase x = Closing).
        { destruct PH as [PH|PH]; rewrite PH in L17; cbn [phase_ok] in L17.
          - destruct L17 as (X & _). rewrite QU in X. exfalso. apply X. left. reflexivity.
          - destruct L17 as [(_ & X & _)|(_ & _ & q0 & E1 & E2 & _)]; [congruence|]. rewrite QU in E1. destruct q0 as [|r0 q0]; [injection E1 as ->; auto|].
            cbn [app] in E1. injection E1 as <- _. exfalso. apply E2. left. reflexivity. }
        destruct QE as [-> PC].
        constructor; try assumption.
        * unfold fronts. fields. congruence.
        * intros n N. destruct (L14 n N) as [H1|H1]; [left; exact H1|]. unfold pending in H1. rewrite T, QU in H1. destruct H1 as [H1|[]]. discriminate H1.
        * intros n N. destruct (L15 n N) as [H1|H1]; [left; exact H1|]. unfold pending in H1. rewrite T, QU in H1. destruct H1 as [H1|[]]. discriminate H1.
        * rewrite PC. cbn [phase_ok]. left. split; [reflexivity|]. split; [reflexivity|exact QU].
        * discriminate.
      + injection H as <-. assert (L2 : live (set_annotations (set_nth n true (s_annotations s)) s) x).
        { destruct L as [L1 L2 L3 L4 L5 L6 L7 L8 L9 L10 L11 L12 L13 L14 L15 L16 L17 L18]. constructor; try assumption; fields; rewrite ?length_set_nth; try assumption.
          intros m M. destruct (L15 m M) as [H1|H1]; [left|right; exact H1]. destruct (Nat.eq_dec n m) as [->|D].
          - erewrite nth_error_nth; [reflexivity|]. apply nth_set_nth_same, M.
          - destruct (nth_error (s_annotations s) m) as [b|] eqn:N; [|apply nth_error_None in N; lia]. erewrite nth_error_nth in H1 by exact N. subst b.
            erewrite nth_error_nth; [reflexivity|]. rewrite nth_set_nth_other by exact D. exact N. }
        eapply live_handled; [exact L2|exact T|exact QU|discriminate|discriminate|]. intros m M AL. injection M as <-. fields. rewrite length_set_nth in AL.
        erewrite nth_error_nth; [reflexivity|]. apply nth_set_nth_same, AL.
      + assert (L2 : live s1 x /\ s_thread s1 = WHandle /\ s_queue s1 = RChunk id :: q).
        { destruct (nth_error (s_promises s) id) as [[h [c|]]|] eqn:N; try discriminate H. destruct (s_ok s) eqn:OK.
          - eapply WD; [|exact H]. intros out p0 W. destruct I as [(G & w & bs & I)|I]; [|destruct I; congruence]. pose proof (oi_perf _ _ _ _ _ _ (oi_sh _ _ _ _ _ _ _ I)) as PF.
            unfold pending in PF. rewrite T, QU in PF. cbn [performs perform] in PF. destruct (nth_error G id) as [c0|] eqn:NG; [|discriminate PF].
            destruct (promise_at _ _ _ _ _ (oi_prom _ _ _ _ _ _ (oi_sh _ _ _ _ _ _ _ I)) N NG) as [_ [X|X]]; cbn [p_chunk] in X; [congruence|]. injection X as <-.
            unfold put in PF. rewrite W in PF. destruct (Z.eqb_spec p0 (ChunkEnd (ch_data_size (c_header c)) (ch_num_records (c_header c)) (s_pos s))) as [->|]; [|discriminate PF]. apply ChunkEnd_range.
          - injection H as <-. auto. }
        destruct L2 as (L2 & T2 & Q2). eapply live_handled; eauto; discriminate.
      + assert (L2 : live s1 x /\ s_thread s1 = WHandle /\ s_queue s1 = RPadding padding :: q).
        { destruct (s_ok s) eqn:OK.
          - eapply WD; [|exact H]. intros out p0 W. destruct I as [(G & w & bs & I)|I]; [|destruct I; congruence]. pose proof (oi_perf _ _ _ _ _ _ (oi_sh _ _ _ _ _ _ _ I)) as PF.
            unfold pending in PF. rewrite T, QU in PF. cbn [performs perform] in PF. unfold pad in PF. rewrite W in PF.
            pose proof (lv_queue _ _ L) as LQ. rewrite QU in LQ. inversion LQ as [|? ? RO _]; subst. cbn [request_ok] in RO. destruct (RO (s_pos s) (proj2 (lv_before _ _ L))) as (z & EZ & RZ).
            rewrite EZ in PF. destruct (Z.eqb_spec z p0) as [<-|]; [|discriminate PF]. exact RZ.
          - injection H as <-. auto. }
        destruct L2 as (L2 & T2 & Q2). eapply live_handled; eauto; discriminate.
      + pose proof (fun b => live_set_flush s x n b L) as LS.
        assert (GO : forall s2 b, live s2 x -> s_thread s2 = WHandle -> s_queue s2 = RFlush n :: q -> s_flushes s2 = set_nth n (Some b) (s_flushes s) -> live (set_thread WHandled s2) x).
        { intros s2 b L2 T2 Q2 F2. eapply live_handled; eauto; try discriminate. intros m M AL. injection M as <-. exists b. rewrite F2 in *. rewrite length_set_nth in AL. apply nth_set_nth_same, AL. }
        destruct (s_ok s) eqn:OK; [destruct f as [f|]|]; injection H as <-.
        * apply GO with (b := false); auto. apply (live_set_flush (set_failed s)); auto. apply live_failed; assumption.
        * apply GO with (b := true); auto. apply live_image. apply LS. discriminate.
        * apply GO with (b := false); auto. 
    - injection E as <-. pose proof (phase_running s x L ltac:(congruence)) as PH. destruct L as [L1 L2 L3 L4 L5 L6 L7 L8 L9 L10 L11 L12 L13 L14 L15 L16 L17 L18].
      unfold fronts, pending in *. rewrite T in *. destruct (s_queue s) as [|r q] eqn:QU; [congruence|].
      constructor; unfold fronts, pending, busy in *; fields; rewrite ?QU; cbn [tl] in *; try assumption; try exact Logic.I.
      + inversion L11; assumption.
      + split; apply L13.
      + destruct PH as [PH|PH]; rewrite PH in *; cbn [phase_ok] in *; fields.
        * rewrite QU in *. destruct L17 as (P1 & P2 & P3 & P4). rewrite zlen_cons in P4. split; [intros X; apply P1; right; exact X|]. split; [assumption|]. split; [discriminate|lia].
        * destruct L17 as [(_ & X & _)|(P2 & P3 & q0 & P4 & P5 & P6)]; [congruence|]. right. split; [assumption|]. split; [discriminate|]. rewrite QU in *. cbn [tl].
          destruct q0 as [|r0 q0]; [injection P4; intros E1 E2; exfalso; rewrite E2 in L18; exact (L18 eq_refl eq_refl)|]. cbn [app] in P4. injection P4 as -> ->. exists q0. split; [reflexivity|].
          rewrite zlen_cons in P6. split; [intros X; apply P5; right; exact X|lia].
      + discriminate.
    - discriminate E.
  Qed.

  Lemma live_step (s s' : state) x t : live s x -> inv s -> step t s = Some s' -> exists x', live s' x'.
  Proof.
    intros L I E. destruct t; cbn [ParallelWriter.step] in E.
    - exact (live_user_step _ _ _ L E).
    - exists x. exact (live_task_step _ _ _ _ L I E).
    - exists x. exact (live_writer_step _ _ _ _ L I E).
  Qed.
  Lemma inv_run (ts : list turn) : forall (s s' : state) x, live s x -> inv s -> run hash encode parallelism ts s = Some s' -> (exists x', live s' x') /\ inv s'.
  Proof.
    induction ts as [|t ts IH]; intros s s' x L I E; cbn [run] in E; [injection E as <-; eauto|].
    destruct (step t s) as [s1|] eqn:S1; [|discriminate E]. destruct (live_step _ _ _ _ L I S1) as [x1 L1].
    exact (IH _ _ _ L1 (inv_step _ _ _ _ _ _ _ I (lv_fronts _ _ L) S1) E).
  Qed.
End Live.

(** ** Every schedule ends *)
Section Ends.
  Variable hash : list Z -> Z.
  Variable encode : job -> option chunk.
  Variable parallelism : Z.
  Context {A : Type}.
  Notation state := (state A).
  Notation step := (@step hash encode parallelism A).

  Definition task_work (t : nat * task) : nat := match snd t with Encode _ => 8 | WantAnnotate => 7 | WaitAnnotate _ => 3 | SetHeader _ => 2 | SetChunk _ => 1 end.
  Definition sum (l : list nat) : nat := fold_right Nat.add 0%nat l.
  (** Steps which the tasks and the chunk writer thread can still make. *)
  Definition work (s : state) : nat :=
    (sum (map task_work (s_tasks s)) + 3 * length (s_queue s) + match s_thread s with WWait => 2 | WHandle => 1 | WHandled => match s_queue s with [] => 3 | _ => 0 end | WExited => 0 end)%nat.
  Lemma sum_set ts t' t : forall n, nth_error ts n = Some t -> (sum (map task_work (set_nth n t' ts)) + task_work t = sum (map task_work ts) + task_work t')%nat.
  Proof. induction ts as [|u ts IH]; intros [|n] E; cbn in *; try discriminate E; [injection E as ->; lia|]. specialize (IH n E). unfold sum in *. lia. Qed.
  Lemma sum_remove ts t : forall n, nth_error ts n = Some t -> (sum (map task_work (remove_nth n ts)) + task_work t = sum (map task_work ts))%nat.
  Proof. induction ts as [|u ts IH]; intros [|n] E; cbn in *; try discriminate E; [injection E as ->; lia|]. specialize (IH n E). unfold sum in *. lia. Qed.

  Lemma others_work (s s' : state) t : step t s = Some s' -> (exists u, t = TurnUser /\ u = s_user s) \/ s_user s' = s_user s /\ (work s' < work s)%nat.
  Proof.
    intros E. destruct t; [left; eauto|right|right]; cbn [ParallelWriter.step] in E.
    - unfold task_step in E. destruct (nth_error (s_tasks s) n) as [[id t]|] eqn:N; [|discriminate E].
      pose proof (fun t' => sum_set _ (id, t') _ _ N) as SS. pose proof (sum_remove _ _ _ N) as SR. unfold task_work at 2 in SS. unfold task_work at 2 in SR. cbn [snd] in SS, SR.
      destruct t.
      + destruct (match j with JobMetadata _ => _ | JobChunk _ => _ end); [|destruct (encode j)]; injection E as <-; (split; [reflexivity|]); unfold work; cbn [s_tasks s_queue s_thread set_tasks].
        * specialize (SS (SetHeader no_chunk)). cbn [task_work snd] in SS. lia.
        * specialize (SS (SetHeader c)). cbn [task_work snd] in SS. lia.
        * specialize (SS WantAnnotate). cbn [task_work snd] in SS. lia.
      + unfold send in E. destruct (HasCapacity parallelism _); [|discriminate E]. injection E as <-. split; [reflexivity|]. unfold work. cbn [s_tasks s_queue s_thread set_tasks enqueue set_queue set_annotations].
        rewrite app_length. specialize (SS (WaitAnnotate (length (s_annotations s)))). cbn [task_work snd] in SS. destruct (s_queue s), (s_thread s); cbn [length app]; lia.
      + destruct (nth n0 (s_annotations s) false); [|discriminate E]. injection E as <-. split; [reflexivity|]. unfold work; cbn [s_tasks s_queue s_thread set_tasks set_failed].
        specialize (SS (SetHeader no_chunk)). cbn [task_work snd] in SS. lia.
      + injection E as <-. split; [reflexivity|]. unfold work; cbn [s_tasks s_queue s_thread set_tasks set_promises]. specialize (SS (SetChunk c)). cbn [task_work snd] in SS. lia.
      + injection E as <-. split; [reflexivity|]. unfold work; cbn [s_tasks s_queue s_thread set_tasks set_promises]. lia.
    - unfold writer_step in E. unfold work. destruct (s_thread s) eqn:T.
      + destruct (s_queue s) eqn:QU; [discriminate E|]. injection E as <-. split; [reflexivity|]. cbn [s_tasks s_queue s_thread set_thread]. rewrite QU. lia.
      + destruct (s_queue s) as [|r q] eqn:QU; [discriminate E|]. destruct (handle hash f r s) as [s1|] eqn:H; [|discriminate E]. injection E as <-.
        assert (X : s_user s1 = s_user s /\ s_tasks s1 = s_tasks s /\ s_queue s1 = s_queue s).
        { assert (WD : forall o s2, write_dest f o s = Some s2 -> s_user s2 = s_user s /\ s_tasks s2 = s_tasks s /\ s_queue s2 = s_queue s).
          { intros o s2 W. unfold write_dest in W. destruct o as [[out p]|]; [|discriminate W]. destruct f; injection W as <-; auto. }
          destruct r; cbn [handle] in H.
          - injection H as <-. auto.
          - injection H as <-. auto.
          - destruct (nth_error (s_promises s) id) as [[h [c|]]|]; try discriminate H. destruct (s_ok s); [eauto|injection H as <-; auto].
          - destruct (s_ok s); [eauto|injection H as <-; auto].
          - destruct (s_ok s); [destruct f|]; injection H as <-; auto. }
        destruct X as (X1 & X2 & X3). cbn [s_tasks s_queue s_thread s_user set_thread]. rewrite X1, X2, X3, QU. split; [reflexivity|]. destruct r; lia.
      + injection E as <-. split; [reflexivity|]. cbn [s_tasks s_queue s_thread s_user set_thread set_queue set_before]. destruct (s_queue s) as [|r q]; cbn [length tl]; lia.
      + discriminate E.
  Qed.
  (** A never-ending schedule. *)
  Definition ends (s : state) : Prop := forall f : nat -> turn, exists n, run hash encode parallelism (map f (seq 0 n)) s = None.
  Lemma ends_step (s : state) : (forall t s', step t s = Some s' -> ends s') -> ends s.
  Proof.
    intros H f. destruct (step (f 0%nat) s) as [s'|] eqn:E.
    - destruct (H _ _ E (fun n => f (S n))) as [n N]. exists (S n). cbn [seq map run]. rewrite E. rewrite <- seq_shift, map_map. exact N.
    - exists 1%nat. cbn [seq map run]. rewrite E. reflexivity.
  Qed.
  (** [u] makes finitely many steps. *)
  Definition user_ends (u : user A) : Prop := forall s : state, s_user s = u -> ends s.
  Lemma ends_user (u : user A) : (forall (s s' : state), s_user s = u -> user_step parallelism s = Some s' -> ends s') -> user_ends u.
  Proof.
    intros H s U. remember (work s) as n eqn:W. revert s U W. induction n as [n IH] using lt_wf_ind. intros s U W. apply ends_step. intros t s' E.
    destruct (others_work _ _ _ E) as [(_ & -> & _)|[U' LT]]; [exact (H _ _ U E)|]. subst n. eapply IH; [exact LT|congruence|reflexivity].
  Qed.
  Lemma prog_ends (p : prog A) : user_ends (Running p).
  Proof.
    assert (SE : forall (r : request) (s s' : state) u, send parallelism r s = Some s' -> s_user s = u -> s_user s' = u).
    { intros r s s' u E U. unfold send in E. destruct (HasCapacity parallelism s); [|discriminate E]. injection E as <-. exact U. }
    induction p; apply ends_user; intros s s' U E; unfold user_step in E; rewrite U in E; try discriminate E.
    - injection E as <-. eapply H. reflexivity.
    - injection E as <-. eapply IHp. reflexivity.
    - eapply IHp. eapply SE; [exact E|reflexivity].
    - assert (X : user_ends (Scheduling (length (s_promises s)) j p)).
      { apply ends_user. intros s1 s2 U1 E1. unfold user_step in E1. rewrite U1 in E1. injection E1 as <-. eapply IHp. reflexivity. }
      eapply X. eapply SE; [exact E|reflexivity].
    - eapply IHp. eapply SE; [exact E|reflexivity].
    - eapply H. eapply SE; [exact E|reflexivity].
    - destruct (nth_error (s_flushes s) n) as [[b|]|]; try discriminate E. injection E as <-. eapply H. reflexivity.
    - eapply H. eapply SE; [exact E|reflexivity].
    - destruct (nth n (s_annotations s) false); [|discriminate E]. injection E as <-. eapply IHp. reflexivity.
    - injection E as <-. eapply IHp. reflexivity.
    - destruct (s_done s); [|discriminate E]. injection E as <-. eapply IHp. reflexivity.
    - injection E as <-. eapply H. reflexivity.
    - destruct (nth_error (s_futures s) n) as [[pos l]|]; [|discriminate E]. destruct (resolve (s_promises s) pos l); [|discriminate E]. injection E as <-. eapply H. reflexivity.
  Qed.
  Lemma all_end (s : state) : ends s.
  Proof.
    destruct (s_user s) as [p|id j p] eqn:U; [exact (prog_ends p s U)|].
    assert (X : user_ends (Scheduling id j p)); [|exact (X s U)].
    apply ends_user. intros s1 s2 U1 E1. unfold user_step in E1. rewrite U1 in E1. injection E1 as <-. eapply (prog_ends p); reflexivity.
  Qed.
End Ends.
