(** Sessions with a parallel writer: every schedule. *)
From Verif Require Import Base.Bytes Model.Varint Model.Endian Model.Block Model.Chunk Model.ChunkWriter Model.ChunkReader Model.SimpleChunk Model.ChunkDecoder
  Model.RecordWriter Model.ParallelWriter Spec.BlockSpec Spec.FileSpec Spec.ChunkLink Spec.RecordsSpec Spec.CursorSpec Spec.SessionSpec Spec.ParallelSpec
  Proof.CodecLemmas Proof.BlockProof Proof.ChunkWriterProof Proof.FileProof Proof.ChunkPropsLemmas Proof.SimpleChunkProof Proof.DecoderProof Proof.RecordReaderProof
  Proof.RecordWriterProof Proof.SeqReadProof Proof.SessionProof Proof.ParallelProof Proof.ParallelLive Proof.ParallelSim Proof.ParallelCalls.

Lemma run_app {A} hash encode parallelism ts : forall ts' (s : state A),
  run hash encode parallelism (ts ++ ts') s = match run hash encode parallelism ts s with Some s => run hash encode parallelism ts' s | None => None end.
Proof. induction ts as [|t ts IH]; intros ts' s; cbn [run app]; [reflexivity|]. destruct (step hash encode parallelism t s); [apply IH|reflexivity]. Qed.

Lemma handle_ok {A} hash r (s s' : state A) : s_ok s = true -> handle hash None r s = Some s' -> s_ok s' = true.
Proof.
  intros O E. destruct r as [|n|id|p|n]; cbn [handle] in E; rewrite ?O in E.
  - injection E as <-. exact O.
  - injection E as <-. exact O.
  - destruct (nth_error (s_promises s) id) as [[h [c|]]|]; try discriminate E. unfold write_dest in E. destruct (WriteChunk hash c (s_pos s)) as [[out pos]|]; [|discriminate E]. injection E as <-. exact O.
  - unfold write_dest in E. destruct (WritePadding hash p (s_pos s)) as [[out pos]|]; [|discriminate E]. injection E as <-. exact O.
  - injection E as <-. exact O.
Qed.
Lemma writer_step_ok {A} hash (s s' : state A) : s_ok s = true -> writer_step hash None s = Some s' -> s_ok s' = true.
Proof.
  intros O E. unfold writer_step in E. destruct (s_thread s), (s_queue s) as [|r q] eqn:Q; try discriminate E; try (injection E as <-; exact O).
  destruct (handle hash None r s) as [s1|] eqn:H; [|discriminate E]. injection E as <-. exact (handle_ok _ _ _ _ O H).
Qed.
Lemma step_dest {A} hash encode parallelism t (s s' : state A) : step hash encode parallelism t s = Some s' -> exists out, s_dest s' = s_dest s ++ out.
Proof.
  assert (Z : forall s1 : state A, s_dest s1 = s_dest s -> exists out, s_dest s1 = s_dest s ++ out) by (intros s1 ->; exists []; rewrite app_nil_r; reflexivity).
  destruct t as [|n|f]; cbn [step]; intros E.
  - unfold user_step, send in E. repeat match type of E with context [match ?x with _ => _ end] => destruct x; try discriminate E end; injection E as <-; apply Z; reflexivity.
  - unfold task_step, send in E. repeat match type of E with context [match ?x with _ => _ end] => destruct x; try discriminate E end; injection E as <-; apply Z; reflexivity.
  - unfold writer_step in E. destruct (s_thread s), (s_queue s) as [|r q] eqn:Q; try discriminate E; try (injection E as <-; apply Z; reflexivity).
    destruct (handle hash f r s) as [s1|] eqn:H; [|discriminate E]. injection E as <-. cbn [set_thread s_dest]. clear Q q.
    assert (W : forall r1, write_dest f r1 s = Some s1 -> exists out, s_dest s1 = s_dest s ++ out).
    { intros r1 W. unfold write_dest in W. destruct r1 as [[out pos]|]; [|discriminate W]. destruct f; injection W as <-; eexists; reflexivity. }
    destruct r as [|n|id|p|n]; cbn [handle] in H.
    + injection H as <-. apply Z. reflexivity.
    + injection H as <-. apply Z. reflexivity.
    + destruct (nth_error (s_promises s) id) as [[h [c|]]|]; try discriminate H. destruct (s_ok s); [exact (W _ H)|]. injection H as <-. apply Z. reflexivity.
    + destruct (s_ok s); [exact (W _ H)|]. injection H as <-. apply Z. reflexivity.
    + destruct (s_ok s); [destruct f|]; injection H as <-; apply Z; reflexivity.
Qed.

Section NoFault.
  Variable hash : list Z -> Z.
  Variable encode : job -> option chunk.
  Variable parallelism : Z.
  Hypothesis parallel : 0 < parallelism.
  Context {A : Type}.
  Variable Q : A -> wx -> Prop.
  Variable R : A * dstate.
  Notation state := (state A).
  Notation step := (@step hash encode parallelism A).
  Notation run := (@run hash encode parallelism A).
  Notation inv := (inv hash encode R).
  Notation live := (live encode parallelism Q).

  Lemma inv_ok (s : state) : inv s -> s_ok s = true -> exists G w bs, ok_inv hash encode R s G w bs.
  Proof. intros [I|I] O; [exact I|]. pose proof (fi_ok _ _ I). congruence. Qed.
  Lemma step_no_fault (s s' : state) t : inv s -> fronts s -> s_ok s = true -> is_fault t = false -> step t s = Some s' -> s_ok s' = true.
  Proof.
    intros I FR O NF E. destruct (inv_ok s I O) as (G & w & bs & J). destruct t as [|n|[f|]]; cbn [ParallelWriter.step is_fault] in *; try discriminate NF.
    - destruct (user_ok _ _ _ _ _ _ _ _ _ J FR E) as (G' & w' & bs' & J'). exact (oi_ok _ _ _ _ _ _ (oi_sh _ _ _ _ _ _ _ J')).
    - pose proof (task_ok_step _ _ _ _ _ _ _ _ _ _ J E) as J'. exact (oi_ok _ _ _ _ _ _ (oi_sh _ _ _ _ _ _ _ J')).
    - exact (writer_step_ok _ _ _ O E).
  Qed.
  Lemma run_no_fault ts : forall (s s' : state) x, live s x -> inv s -> s_ok s = true -> Forall (fun t => is_fault t = false) ts -> run ts s = Some s' -> s_ok s' = true.
  Proof.
    induction ts as [|t ts IH]; intros s s' x L I O NF E; cbn [ParallelWriter.run] in E; [injection E as <-; exact O|].
    destruct (step t s) as [s1|] eqn:S1; [|discriminate E]. inversion NF as [|? ? NF1 NF2]; subst. destruct (live_step _ _ _ _ _ _ _ _ _ L I S1) as [x1 L1].
    exact (IH _ _ _ L1 (inv_step _ _ _ _ _ _ _ I (lv_fronts _ _ _ _ _ L) S1) (step_no_fault _ _ _ I (lv_fronts _ _ _ _ _ L) O NF1 S1) NF2 E).
  Qed.

  (** ** Some schedule completes *)
  Definition candidates (s : state) : list turn := TurnUser :: TurnWriter None :: map TurnTask (seq 0 (length (s_tasks s))).
  Definition pick (s : state) : turn := match find (fun t => match step t s with Some _ => true | None => false end) (candidates s) with Some t => t | None => TurnUser end.
  Lemma pick_ok (s : state) t s' : is_fault t = false -> step t s = Some s' -> exists s2, step (pick s) s = Some s2 /\ is_fault (pick s) = false.
  Proof.
    intros NF E. assert (C : In t (candidates s)).
    { unfold candidates. destruct t as [|n|[f|]]; [left; reflexivity| |discriminate NF|right; left; reflexivity]. right; right. apply in_map, in_seq.
      cbn [ParallelWriter.step] in E. unfold task_step in E. destruct (nth_error (s_tasks s) n) eqn:N; [|discriminate E]. split; [lia|]. apply nth_error_Some. congruence. }
    unfold pick. destruct (find _ (candidates s)) as [t'|] eqn:F.
    - apply find_some in F as [F1 F2]. destruct (step t' s) as [s2|]; [|discriminate F2]. exists s2. split; [reflexivity|].
      unfold candidates in F1. cbn [In] in F1. destruct F1 as [<-|[<-|F1]]; [reflexivity|reflexivity|]. apply in_map_iff in F1 as (k & <- & _). reflexivity.
    - exfalso. pose proof (find_none _ _ F t C) as H. cbv beta in H. rewrite E in H. discriminate H.
  Qed.
  Fixpoint after (n : nat) (s : state) : state := match n with O => s | S n => let s := after n s in match step (pick s) s with Some s' => s' | None => s end end.
  Lemma completes (s : state) x : live s x -> inv s -> exists ts s', run ts s = Some s' /\ Forall (fun t => is_fault t = false) ts /\ is_done s'.
  Proof.
    intros L I. destruct (all_end hash encode parallelism s (fun n => pick (after n s))) as [n E].
    assert (G : forall n, (exists ts s', run ts s = Some s' /\ Forall (fun t => is_fault t = false) ts /\ is_done s') \/
      run (map (fun n => pick (after n s)) (seq 0 n)) s = Some (after n s) /\ Forall (fun t => is_fault t = false) (map (fun n => pick (after n s)) (seq 0 n))).
    { clear n E. induction n as [|n [IH|[IH1 IH2]]]; [right; split; [reflexivity|constructor]|left; exact IH|].
      destruct (inv_run _ _ _ _ _ _ _ _ _ L I IH1) as [[x1 L1] I1].
      destruct (progress _ _ _ parallel _ _ _ _ L1 I1) as [D|(t & s2 & NF & E)]; [left; eauto|right].
      assert (NF2 : is_fault t = false) by (destruct t as [|k|[f|]]; try reflexivity; exfalso; exact (NF f eq_refl)).
      destruct (pick_ok _ _ _ NF2 E) as (s3 & E3 & F3).
      rewrite seq_S, map_app, run_app. cbn [map Nat.add]. rewrite IH1. cbn [ParallelWriter.run after]. rewrite E3. split; [reflexivity|]. apply Forall_app. split; [exact IH2|constructor; [exact F3|constructor]]. }
    destruct (G n) as [H|[H _]]; [exact H|congruence].
  Qed.
End NoFault.

Section Sessions.
  Variable hash : list Z -> Z.
  Hypothesis hash_range : forall l, 0 <= hash l < 2 ^ 64.
  Variable compress : Z -> list Z -> list Z.
  Variable decompress : Z -> list Z -> option (list Z).
  Variable transpose_encode : options -> list (list Z) -> list Z.
  Variable transpose_decode : list Z -> Z -> Z -> option (list Z * list Z).
  Hypothesis CODECS : codecs compress decompress transpose_encode transpose_decode.
  Variable parallelism : Z.
  Hypothesis parallel : 0 < parallelism.
  Variable ss : list (options * list call).
  Variable o : options.
  Variable cs : list ucall.
  Hypothesis SS : Forall session_ok ss.
  Hypothesis O : options_ok o.
  Hypothesis CB : Forall (ucall_ok o) cs.
  Hypothesis SZ : sessions_size (ss ++ [(o, plain cs)]) <= 2 ^ 62.
  Variable rs0 : list (list observation * bool).
  Variable dest : list Z.
  Hypothesis DEST : Sessions hash compress transpose_encode ss [] = Some (rs0, dest).

  Notation encode := (encode_job hash compress transpose_encode o).
  Notation s0 := (Parallel hash o cs dest).
  Notation run := (parallel_run hash compress transpose_encode o parallelism).
  Definition QQ : list seen * bool -> wx -> Prop := fun y x => snd y = true -> x_phase x = Verified.
  Notation live := (live encode parallelism QQ).

  Lemma plain_bytes : Forall (write_ok o) (plain cs).
  Proof. clear - CB. induction CB as [|c cs' H F IH]; [constructor|]. unfold plain. cbn [flat_map]. apply Forall_app. split; [|exact (IH F)]. destruct c; try apply Forall_nil; (apply Forall_cons; [|apply Forall_nil]); cbn [write_ok]; try exact H; exact Logic.I. Qed.
  Lemma Sessions_app ss1 : forall ss2 d, Sessions hash compress transpose_encode (ss1 ++ ss2) d =
    match Sessions hash compress transpose_encode ss1 d with
    | None => None
    | Some (rs, d) => match Sessions hash compress transpose_encode ss2 d with None => None | Some (rs2, d) => Some (rs ++ rs2, d) end
    end.
  Proof.
    induction ss1 as [|[o1 c1] ss1 IH]; intros ss2 d; cbn [Sessions app].
    - destruct (Sessions _ _ _ ss2 d) as [[? ?]|]; reflexivity.
    - destruct (Session _ _ _ o1 c1 d) as [[[os b] d1]|]; [|reflexivity]. rewrite IH. destruct (Sessions _ _ _ ss1 d1) as [[rs1 d2]|]; [|reflexivity].
      destruct (Sessions _ _ _ ss2 d2) as [[rs2 d3]|]; reflexivity.
  Qed.
  Lemma sessions_size_app a b : sessions_size (a ++ b) = sessions_size a + sessions_size b.
  Proof. induction a as [|x a IH]; [reflexivity|]. change (session_size x + sessions_size (a ++ b) = session_size x + sessions_size a + sessions_size b). lia. Qed.
  Lemma bounds : sessions_size ss + session_size (o, plain cs) <= 2 ^ 62 /\ o_initial_padding o <= 2 ^ 62 /\ o_final_padding o <= 2 ^ 62.
  Proof.
    rewrite sessions_size_app in SZ. change (sessions_size [(o, plain cs)]) with (session_size (o, plain cs) + 0) in SZ.
    pose proof (sessions_size_nonneg hash hash_range ss SS). pose proof (calls_size_nonneg hash hash_range o (plain cs) O).
    pose proof (padding_nonneg _ (oo_initial o O)). pose proof (padding_nonneg _ (oo_final o O)).
    assert (0 <= match o_metadata o with Some m => zlen m | None => 0 end) by (destruct (o_metadata o); [apply zlen_nonneg|lia]).
    unfold session_size, opening_size in *. cbn [fst snd] in *. lia.
  Qed.

  Lemma serial_run : exists sn im file d', serial_session hash compress transpose_encode o cs dest = Some (sn, im, true, file) /\
    (exists rs, Sessions hash compress transpose_encode (ss ++ [(o, plain cs)]) [] = Some (rs, file)) /\
    fst (fst (d_world d')) = file /\ snd (d_world d') = im /\ (exists out, file = dest ++ out) /\
    inv hash encode ((sn, true), d') s0 /\ live s0 (MkX false Open 0 0 0) /\ s_ok s0 = true.
  Proof.
    pose proof bounds as (B1 & B2 & B3).
    destruct (sessions_run hash hash_range compress decompress transpose_encode transpose_decode CODECS ss [] [] 0 (file_nil_ok hash decompress transpose_decode) ltac:(cbn; lia) SS)
      as (rs & out & new & ps & E & F & L & _).
    { pose proof (calls_size_nonneg hash hash_range o (plain cs) O). pose proof (padding_nonneg _ (oo_initial o O)). pose proof (padding_nonneg _ (oo_final o O)).
      assert (0 <= match o_metadata o with Some m => zlen m | None => 0 end) by (destruct (o_metadata o); [apply zlen_nonneg|lia]).
      unfold session_size, opening_size in *. cbn [fst snd] in *. lia. }
    rewrite DEST in E. injection E as <- E. cbn [app] in *. subst out.
    destruct (sim_session hash hash_range compress decompress transpose_encode transpose_decode CODECS o cs dest new _ F L O CB ltac:(lia)) as (sn & im & out & os & d' & S1 & S2 & S3 & S4 & S5 & S6).
    exists sn, im, (dest ++ out), d'. split; [exact S1|]. split; [|split; [exact S5|split; [exact S6|split; [exists out; reflexivity|]]]].
    - exists (rs0 ++ [(os, true)]). rewrite Sessions_app, DEST. cbn [Sessions]. rewrite S2. reflexivity.
    - unfold Parallel, initial. rewrite S3. cbn [snd fst]. rewrite app_nil_r. pose proof (zlen_nonneg dest) as D0.
      assert (IR : in_range (zlen dest)).
      { unfold in_range. pose proof (padding_nonneg _ (oo_initial o O)). pose proof (padding_nonneg _ (oo_final o O)). pose proof (calls_size_nonneg hash hash_range o (plain cs) O).
        assert (0 <= match o_metadata o with Some m => zlen m | None => 0 end) by (destruct (o_metadata o); [apply zlen_nonneg|lia]).
        unfold session_size, opening_size in *. cbn [fst snd] in *. lia. }
      split; [|split; [|reflexivity]].
      + left. exists [], (dest, zlen dest, []), []. constructor; [|exact S4|exact Logic.I]. constructor; cbn; try reflexivity; try (intros [|n]; discriminate); constructor.
      + constructor; cbn [s_user s_thread s_tasks s_queue s_before s_ok s_dest s_pos s_images s_promises s_flushes s_annotations s_done s_futures x_flushes x_begins x_annotations x_failed x_phase];
          try reflexivity; try (constructor; fail); try discriminate; try (intros [|n]; discriminate); try (intros n H; cbn in H; lia); try (split; exact IR).
        * apply wp_session; [intros m; discriminate| |]; apply padding_total_ok; try assumption; [exact (oo_initial o O)|exact (oo_final o O)].
        * cbn. split; [auto|]. split; [reflexivity|]. split; [discriminate|]. change (zlen (@nil request)) with 0. lia.
  Qed.

  Lemma parallel_main : exists sn im file, serial_session hash compress transpose_encode o cs dest = Some (sn, im, true, file) /\
    (exists rs, Sessions hash compress transpose_encode (ss ++ [(o, plain cs)]) [] = Some (rs, file)) /\
    forall ts s, run ts s0 = Some s ->
      prefix dest (s_dest s) /\ prefix (s_dest s) file /\ prefix (s_images s) im /\
      (forall n, nth_error (s_flushes s) n = Some (Some true) -> (n < length (s_images s))%nat) /\
      (zlen (s_queue s) <= parallelism \/ exists q, s_queue s = q ++ [RDone] /\ zlen q <= parallelism) /\
      (forall y b, s_user s = Running (Ret (y, b)) -> b = s_ok s \/ b = false) /\
      (forall y, s_user s = Running (Ret (y, true)) -> y = sn /\ s_dest s = file /\ s_images s = im) /\
      (Forall (fun t => is_fault t = false) ts -> s_ok s = true) /\
      (forall y b, s_ok s = true -> s_user s = Running (Ret (y, b)) -> b = true) /\
      (is_done s \/ exists t s', is_fault t = false /\ parallel_step hash compress transpose_encode o parallelism t s = Some s') /\
      (exists ts' s', run ts' s = Some s' /\ Forall (fun t => is_fault t = false) ts' /\ is_done s' /\ (s_ok s = true -> s_user s' = Running (Ret (sn, true)))).
  Proof.
    destruct serial_run as (sn & im & file & d' & S1 & S2 & S3 & S4 & (out0 & S5) & I0 & L0 & O0). exists sn, im, file. split; [exact S1|]. split; [exact S2|].
    intros ts s E. unfold parallel_run in *. destruct (inv_run _ _ _ _ _ _ _ _ _ L0 I0 E) as [[x L] I].
    assert (OKI : forall s, inv hash encode ((sn, true), d') s -> s_ok s = true -> forall a, s_user s = Running (Ret a) -> a = (sn, true) /\ exists G w bs, ok_inv hash encode ((sn, true), d') s G w bs).
    { intros s1 I1 K a U. destruct (inv_ok _ _ _ _ I1 K) as (G & w & bs & J). split; [|eauto]. pose proof (oi_direct _ _ _ _ _ _ _ J) as D. rewrite U in D. cbn [direct_user direct] in D. injection D as -> _. reflexivity. }
    assert (VER : forall y, s_user s = Running (Ret (y, true)) -> s_ok s = true /\ finished s).
    { intros y U. pose proof (lv_wp _ _ _ _ _ L) as W. rewrite U in W. cbn [wp_user wp] in W. unfold QQ in W. specialize (W eq_refl). pose proof (lv_phase _ _ _ _ _ L) as P. rewrite W in P. destruct P as [P1 P2]. auto. }
    assert (GR : grows (s_dest s, s_pos s, s_images s) (d_world d')).
    { destruct I as [(G & w & bs & J)|J]; [exact (sh_grows _ _ _ _ _ _ _ J)|]. split; [exact (fi_dest _ _ J)|exact (fi_images _ _ J)]. }
    assert (DP : prefix dest (s_dest s)).
    { clear - E L0. assert (D0 : prefix dest (s_dest s0)). { unfold Parallel, initial. destruct (InitializeWriter (zlen dest)) as [out pos]. exists out. reflexivity. }
      revert E. generalize s0 D0. clear. induction ts as [|t ts IH]; intros s1 D E; cbn [ParallelWriter.run] in E; [injection E as <-; exact D|].
      destruct (step _ _ _ t s1) as [s2|] eqn:S2; [|discriminate E]. apply (IH s2); [|exact E]. clear E IH.
      destruct D as [a D]. destruct (step_dest _ _ _ _ _ _ S2) as [b G]. exists (a ++ b). rewrite G, D, app_assoc. reflexivity. }
    split; [exact DP|]. destruct GR as [[o1 G1] [i1 G2]]. cbn [fst snd] in G1, G2. rewrite S3 in G1. rewrite S4 in G2.
    split; [exists o1; exact G1|]. split; [exists i1; exact G2|]. split; [|split; [|split; [|split; [|split; [|split; [|split]]]]]].
    - destruct I as [(G & w & bs & J)|J]; [|exact (fi_flush _ _ J)]. intros n N. exact (proj2 (oi_flush _ _ _ _ _ _ (oi_sh _ _ _ _ _ _ _ J) n true N)).
    - pose proof (lv_phase _ _ _ _ _ L) as P. destruct (x_phase x); cbn [phase_ok] in P.
      + left. tauto.
      + destruct P as [(_ & _ & P)|(_ & _ & q & P)]; right; [exists []; rewrite P; split; [reflexivity|change (zlen (@nil request)) with 0; lia]|exists q; tauto].
      + destruct P as (_ & _ & P). right. exists []. rewrite P. split; [reflexivity|change (zlen (@nil request)) with 0; lia].
      + destruct P as [(_ & _ & P) _]. right. exists []. rewrite P. split; [reflexivity|change (zlen (@nil request)) with 0; lia].
    - intros y b U. destruct b; [|auto]. left. symmetry. exact (proj1 (VER y U)).
    - intros y U. destruct (VER y U) as [K F]. destruct (OKI s I K _ U) as (EY & G & w & bs & J). injection EY as ->. split; [reflexivity|].
      pose proof (oi_direct _ _ _ _ _ _ _ J) as D. rewrite U in D. cbn [direct_user direct] in D. injection D as <-. cbn [d_world] in *.
      pose proof (oi_perf _ _ _ _ _ _ (oi_sh _ _ _ _ _ _ _ J)) as P. destruct F as (_ & F2 & F3). unfold pending in P. rewrite F2, F3 in P. cbn [tl performs] in P. injection P as <-. cbn [fst snd] in *. auto.
    - intros NF. exact (run_no_fault _ _ _ _ _ ts s0 s _ L0 I0 O0 NF E).
    - intros y b K U. destruct (OKI s I K _ U) as (EY & _). congruence.
    - destruct (progress _ _ _ parallel _ _ _ _ L I) as [D|(t & s' & NF & ES)]; [left; exact D|right]. exists t, s'. split; [|exact ES].
      destruct t as [|k|[f|]]; try reflexivity. exfalso; exact (NF f eq_refl).
    - destruct (completes _ _ _ parallel _ _ s x L I) as (ts' & s' & E' & NF & D). exists ts', s'. split; [exact E'|]. split; [exact NF|]. split; [exact D|].
      intros K. destruct (inv_run _ _ _ _ _ _ _ _ _ L I E') as [[x' L'] I']. pose proof (run_no_fault _ _ _ _ _ ts' s s' _ L I K NF E') as K'.
      destruct D as [a U]. destruct (OKI s' I' K' _ U) as (-> & _). exact U.
  Qed.
End Sessions.

(** What the destination held at a flush stays there. *)
Lemma step_images {A} hash encode parallelism t (s s' : state A) : step hash encode parallelism t s = Some s' -> s_images s' = s_images s \/ s_images s' = s_images s ++ [s_dest s].
Proof.
  destruct t as [|n|f]; cbn [step]; intros E.
  - unfold user_step, send in E. repeat match type of E with context [match ?x with _ => _ end] => destruct x; try discriminate E end; injection E as <-; left; reflexivity.
  - unfold task_step, send in E. repeat match type of E with context [match ?x with _ => _ end] => destruct x; try discriminate E end; injection E as <-; left; reflexivity.
  - unfold writer_step in E. destruct (s_thread s), (s_queue s) as [|r q] eqn:Q; try discriminate E; try (injection E as <-; left; reflexivity).
    destruct (handle hash f r s) as [s1|] eqn:H; [|discriminate E]. injection E as <-. cbn [set_thread s_images]. clear Q q.
    assert (W : forall r1, write_dest f r1 s = Some s1 -> s_images s1 = s_images s).
    { intros r1 W. unfold write_dest in W. destruct r1 as [[out pos]|]; [|discriminate W]. destruct f; injection W as <-; reflexivity. }
    destruct r as [|n|id|p|n]; cbn [handle] in H.
    + injection H as <-. left. reflexivity.
    + injection H as <-. left. reflexivity.
    + destruct (nth_error (s_promises s) id) as [[h [c|]]|]; try discriminate H. destruct (s_ok s); [left; exact (W _ H)|]. injection H as <-. left. reflexivity.
    + destruct (s_ok s); [left; exact (W _ H)|]. injection H as <-. left. reflexivity.
    + destruct (s_ok s); [destruct f|]; injection H as <-; [left; reflexivity|right; reflexivity|left; reflexivity].
Qed.
Lemma prefix_more {X} (a b c : list X) : prefix a b -> prefix a (b ++ c).
Proof. intros [d ->]. exists (d ++ c). symmetry. apply app_assoc. Qed.
Lemma run_images {A} hash encode parallelism ts : forall s s' : state A, run hash encode parallelism ts s = Some s' ->
  Forall (fun i => prefix i (s_dest s)) (s_images s) -> Forall (fun i => prefix i (s_dest s')) (s_images s').
Proof.
  induction ts as [|t ts IH]; intros s s' E F; cbn [run] in E; [injection E as <-; exact F|]. destruct (step hash encode parallelism t s) as [s1|] eqn:S1; [|discriminate E].
  apply (IH s1 s' E). destruct (step_dest _ _ _ _ _ _ S1) as [out D]. rewrite D.
  assert (F2 : Forall (fun i => prefix i (s_dest s ++ out)) (s_images s)) by (eapply Forall_impl; [|exact F]; intros i; apply prefix_more).
  destruct (step_images _ _ _ _ _ _ S1) as [->| ->]; [exact F2|]. apply Forall_app. split; [exact F2|]. constructor; [exists out; reflexivity|constructor].
Qed.
