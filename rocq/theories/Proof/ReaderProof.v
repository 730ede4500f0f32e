(** Opening of the buffered reader, and histories of calls. *)
From Verif Require Import Base.Bytes Model.BufferSizer Proof.BufferSizerProof.
From Verif Require Import Model.BufferedReader Spec.BufferedReaderSpec Proof.ReaderLemmas Proof.ReaderSteps Proof.ReaderSeeks Proof.ReaderRun.
Import BufferedWriter(fd, f_content, f_pos, f_append, f_calls, Build_fd, next_call, kMaxFdPosition, sys_seek, sys_size, sys_tell, sys_other).

Section S.
  Variables (content : list Z) (shift : Z).
  Notation raw := (raw content shift). Notation inv := (inv content shift). Notation frame := (frame content shift). Notation live := (live content shift).
  Notation size := (size content shift). Notation consumes := (consumes content shift). Notation reliable := (reliable content shift). Notation hollow := (hollow content shift).

  Definition state_of (x : result) (r : reader) : observation := {| o_result := x; o_pos := pos r; o_ok := ok r; o_fd_pos := f_pos (r_fd r) |}.
  Record step (c : call) (r : reader) (x : result) (r' : reader) : Prop := {
    s_inv : inv r'; s_rand : r_random r' = r_random r; s_ind : r_independent r' = r_independent r; s_rel : reliable r -> reliable r';
    s_allowed : allowed content shift (r_random r) (r_independent r) c (pos r) (ok r) (state_of x r');
    s_live : reliable r -> ok r = true -> ~ may_fail content shift (r_random r) c (pos r) -> not_failed c (state_of x r');
    s_fdpos : r_independent r = true -> f_pos (r_fd r') = f_pos (r_fd r) }.
  Lemma step_of c r x r' : inv r' -> frame r r' -> allowed content shift (r_random r) (r_independent r) c (pos r) (ok r) (state_of x r') ->
    (~ may_fail content shift (r_random r) c (pos r) -> live r r') -> step c r x r'.
  Proof. intros I1 [F1 F2 F3 F4 F5 F6 F7 F8 F9] A L. constructor; auto. intros RL O N. specialize (L N RL O). destruct c; try exact L. destruct A as (_ & _ & A). cbn [state_of o_result o_ok] in A. destruct x; try contradiction. destruct A. congruence. Qed.
  Lemma in_file r : inv r -> 0 <= pos r + shift <= zlen content.
  Proof. intros I1. destruct (pos_bounds _ _ _ I1) as (PB1 & PB2 & PB3 & PB4 & PB5 & PB6). unfold BufferedReaderSpec.size in *. lia. Qed.
  Lemma step_consumes c r x d r' : consumes d r r' -> allowed content shift (r_random r) (r_independent r) c (pos r) (ok r) (state_of x r') -> step c r x r'.
  Proof. intros [C1 C2 C3 C4] A. apply step_of; auto. Qed.
  Lemma read_step c n r m : inv r -> wp m r (read_post content shift n r) -> c = CRead n \/ c = CReadView n \/ c = CReadChain n ->
    wp (rd <- m; ret (RBytes (fst rd) (snd rd))) r (step c r).
  Proof.
    intros I1 H E. bnd. apply (wp_conseq _ _ _ _ H). intros [b d] r' [H1 H2]. cbn [fst snd] in *. apply wp_ret. apply (step_consumes _ _ _ d _ H1).
    split; [exact (fr_ok _ _ _ _ (c_frame _ _ _ _ _ H1))|]. split; [exact (in_file _ (c_inv _ _ _ _ _ H1))|]. destruct E as [-> | [-> | ->]]; exact (conj (c_reads _ _ _ _ _ H1) H2).
  Qed.
  Lemma some_step c n r m : inv r -> wp m r (some_post content shift n r) -> c = CReadSome n \/ c = CReadSomeView n \/ c = CReadSomeChain n ->
    wp (rd <- m; ret (RBytes (fst rd) (snd rd))) r (step c r).
  Proof.
    intros I1 H E. bnd. apply (wp_conseq _ _ _ _ H). intros [b d] r' [H1 H2]. cbn [fst snd] in *. apply wp_ret. apply (step_consumes _ _ _ d _ H1).
    split; [exact (fr_ok _ _ _ _ (c_frame _ _ _ _ _ H1))|]. split; [exact (in_file _ (c_inv _ _ _ _ _ H1))|]. destruct E as [-> | [-> | ->]]; exact (conj (c_reads _ _ _ _ _ H1) H2).
  Qed.
  Lemma exec_ok c r : inv r -> call_ok c -> wp (exec c) r (step c r).
  Proof.
    intros I1 K. destruct (pos_bounds _ _ _ I1) as (PB1 & PB2 & PB3 & PB4 & PB5 & PB6). destruct c; cbn [exec call_ok] in *.
    - bnd. eapply wp_conseq; [apply Pull_ok; [exact I1|lia|lia]|]. cbn beta. intros b r' (A1 & A2 & A3). apply wp_ret. apply (step_consumes _ _ _ [] _ A1).
      destruct (pos_bounds _ _ _ (c_inv _ _ _ _ _ A1)) as (PC1 & PC2 & PC3 & PC4 & PC5 & PC6). destruct (c_reads _ _ _ _ _ A1) as [_ PP]. change (zlen (@nil Z)) with 0 in PP. rewrite Z.add_0_r in PP.
      split; [exact (fr_ok _ _ _ _ (c_frame _ _ _ _ _ A1))|]. split; [exact (in_file _ (c_inv _ _ _ _ _ A1))|]. cbn [state_of o_result o_pos o_ok]. split; [exact PP|]. destruct b; [lia|]. intros OK. specialize (A3 eq_refl OK). lia.
    - apply read_step with length; [exact I1|apply Read_ok; [exact I1|lia]|auto].
    - apply read_step with length; [exact I1|apply ReadView_ok; [exact I1|lia]|auto].
    - bnd. eapply wp_conseq; [exact (ReadByte_ok _ _ _ I1)|]. intros [b d] r' [H1 H2]. cbn [fst snd] in *. apply wp_ret. apply (step_consumes _ _ _ d _ H1).
      split; [exact (fr_ok _ _ _ _ (c_frame _ _ _ _ _ H1))|]. split; [exact (in_file _ (c_inv _ _ _ _ _ H1))|]. cbn [state_of o_result o_pos o_ok fst snd]. split; [exact (c_reads _ _ _ _ _ H1)|]. destruct b; [exact H2|]. pose proof (zlen_nonneg d). split; [lia|apply H2].
    - apply read_step with length; [exact I1|apply ReadChain_ok; [exact I1|lia]|auto].
    - apply some_step with max_length; [exact I1|apply ReadSome_ok; [exact I1|lia]|auto].
    - apply some_step with max_length; [exact I1|apply ReadSomeView_ok; [exact I1|lia]|auto].
    - apply some_step with max_length; [exact I1|apply ReadSomeChain_ok; [exact I1|lia]|auto].
    - bnd. eapply wp_conseq; [apply ReadHint_ok; [exact I1|lia|lia]|]. cbn beta. intros _ r' A1. apply wp_ret. apply (step_consumes _ _ _ [] _ A1).
      destruct (c_reads _ _ _ _ _ A1) as [_ PP]. change (zlen (@nil Z)) with 0 in PP. rewrite Z.add_0_r in PP. split; [exact (fr_ok _ _ _ _ (c_frame _ _ _ _ _ A1))|]. split; [exact (in_file _ (c_inv _ _ _ _ _ A1))|exact PP].
    - bnd. eapply wp_conseq; [exact (SetReadAllHint_ok _ _ _ _ I1)|]. cbn beta. intros _ r' (A1 & A2 & A3 & A4). apply wp_ret. apply step_of; [exact A1|exact A2| |intros _ _ O; congruence].
      split; [exact (fr_ok _ _ _ _ A2)|]. split; [exact (in_file _ A1)|exact A4].
    - bnd. eapply wp_conseq; [exact (Sync_ok _ _ _ I1)|]. cbn beta. intros b r' (A1 & A2 & A3 & A4 & A5 & A6). apply wp_ret. apply step_of; [exact A1|exact A2| |intros _; exact A3].
      split; [exact (fr_ok _ _ _ _ A2)|]. split; [exact (in_file _ A1)|]. cbn [state_of o_result o_pos o_ok o_fd_pos]. auto.
    - bnd. eapply wp_conseq; [exact (Seek_ok _ _ new_pos _ I1 ltac:(lia))|]. intros b r' (A1 & A2 & A3 & A4). apply wp_ret. apply step_of; [exact A1|exact A2| |].
      + split; [exact (fr_ok _ _ _ _ A2)|]. split; [exact (in_file _ A1)|]. cbn [state_of o_result o_pos o_ok o_fd_pos]. destruct b; [exact A4|exact (proj1 A4)].
      + cbn [may_fail]. intros N. apply A3. destruct (r_random r); [left; reflexivity|right; lia].
    - bnd. eapply wp_conseq; [exact (Skip_ok _ _ length _ I1 ltac:(lia))|]. intros [b n] r' (A1 & A2 & A3 & A4). cbn [fst snd] in *. apply wp_ret. apply step_of; [exact A1|exact A2| |intros _; exact A3].
      split; [exact (fr_ok _ _ _ _ A2)|]. split; [exact (in_file _ A1)|]. exact A4.
    - bnd. eapply wp_conseq; [exact (Size_ok _ _ _ I1)|]. intros s r' (A1 & A2 & A3 & A4 & A5). apply wp_ret. apply step_of; [exact A1|exact A2| |].
      + split; [exact (fr_ok _ _ _ _ A2)|]. split; [exact (in_file _ A1)|]. exact (conj A4 A5).
      + cbn [may_fail]. intros N. apply A3. destruct (r_random r); [reflexivity|congruence].
    - bnd. eapply wp_conseq; [exact (VerifyEnd_ok _ _ _ I1)|]. intros s r' (A1 & A2 & A3 & A4 & A5). apply wp_ret. apply step_of; [exact A1|exact A2| |].
      + split; [exact (fr_ok _ _ _ _ A2)|]. split; [exact (in_file _ A1)|]. exact (conj A4 A5).
      + cbn [may_fail]. intros N. apply A3. lia.
    - bnd. eapply wp_conseq; [exact (Close_ok _ _ _ I1)|]. intros b r' (A1 & AL & _ & A2 & A3 & A4 & AF & A5 & A6). apply wp_ret. constructor; auto; [|intros RL O _; cbn [not_failed state_of o_result]; rewrite (AL RL O); reflexivity].
      split; [cbn [state_of o_ok]; congruence|]. split; [exact (in_file _ A1)|]. exact (conj A5 A6).
  Qed.
  Lemma run_ok : forall calls r (rel : Prop), inv r -> Forall call_ok calls -> (rel -> reliable r) ->
    wp (run calls) r (fun os r' => inv r' /\ history content shift (r_random r) (r_independent r) rel calls (pos r) (ok r) os /\
      (r_independent r = true -> Forall (fun o => o_fd_pos o = f_pos (r_fd r)) os)).
  Proof.
    induction calls as [|c calls IH]; intros r rel I1 K RL; cbn [run].
    - apply wp_ret. split; [exact I1|]. split; [exact Logic.I|constructor].
    - bnd. eapply wp_conseq; [apply (exec_ok c r I1 (Forall_inv K))|]. intros x r1 [S1 S2 S3 S4 S5 S6 S7]. bnd. unfold observe. bnd. apply get_pos_ok with (content := content) (shift := shift); [exact S1|]. gt. apply wp_ret.
      bnd. eapply wp_conseq; [apply (IH r1 rel S1 (Forall_inv_tail K)); intros X; exact (S4 (RL X))|]. cbn beta. intros os r2 (H1 & H2 & H3). apply wp_ret. split; [exact H1|]. split; [|intros IN; constructor; [exact (S7 IN)|]; rewrite <- (S7 IN); apply H3; congruence]. cbn [history].
      split; [exact S5|]. split; [intros X O N; exact (S6 (RL X) O N)|]. rewrite <- S2, <- S3. exact H2.
  Qed.
End S.

(** ** Opening *)
Definition fresh (f : fd) (options : BufferOptions) (growing owning : bool) (spaces : list bool) : reader :=
  {| r_fd := f; r_failed := false; r_open := true; r_limit_pos := 0; r_buf := []; r_cur := 0; r_sizer := new_read_sizer options;
     r_spaces := spaces; r_independent := false; r_growing := growing; r_random := false; r_owning := owning |}.
(** What is known about a new reader: [p] is its position if nothing fails, [rnd] is whether there is random access then *)
Record opened (f : fd) (ip : option Z) (p : Z) (rnd : bool) (good : Prop) (r : reader) : Prop := {
  op_inv : inv (f_content f) (file_pos f ip - pos r) r; op_calls : calls_succeed f -> Forall (fun n => 0 < n) (f_calls (r_fd r));
  op_good : good -> calls_succeed f -> ok r = true /\ pos r = p /\ r_random r = rnd; op_open : r_open r = true }.
Section Open.
  Variables (f : fd) (options : BufferOptions) (growing owning : bool) (spaces : list bool).
  Hypothesis OV : options_valid options.
  Notation content := (f_content f).
  Definition mk (g : fd) (p : Z) (failed ind rnd : bool) : reader :=
    {| r_fd := g; r_failed := failed; r_open := true; r_limit_pos := p; r_buf := []; r_cur := 0; r_sizer := new_read_sizer options;
      r_spaces := spaces; r_independent := ind; r_growing := growing; r_random := rnd; r_owning := owning |}.
  Lemma mk_hollow ip sh g p failed ind rnd : fd_ok f ip -> f_content g = content ->
    0 <= p <= kMaxFdPosition -> p + sh = file_pos f ip -> (failed = false -> ind = false -> f_pos g = p + sh) -> (ind = true -> sh = 0) -> (rnd = true -> sh = 0) ->
    hollow content sh (mk g p failed ind rnd).
  Proof.
    intros (F1 & F2 & F3) C P E FP IN RN. constructor; try reflexivity. unfold mk. constructor; rcbn; auto.
    - lia.
    - intros O. apply FP. destruct failed; [discriminate|reflexivity].
    - split; [exact OV|]. cbn. lia.
  Qed.
  Lemma mk_opened ip g p failed ind rnd p' rnd' (good : Prop) : fd_ok f ip -> f_content g = content -> (calls_succeed f -> Forall (fun n => 0 < n) (f_calls g)) ->
    0 <= p <= kMaxFdPosition -> (failed = false -> ind = false -> f_pos g = file_pos f ip) -> (ind = true -> p = file_pos f ip) -> (rnd = true -> p = file_pos f ip) ->
    (good -> calls_succeed f -> failed = false /\ p = p' /\ rnd = rnd') -> opened f ip p' rnd' good (mk g p failed ind rnd).
  Proof.
    intros FO C CS P FP IN RN G. assert (H : hollow content (file_pos f ip - p) (mk g p failed ind rnd)) by (apply (mk_hollow ip); auto; try lia; intros X Y; rewrite (FP X Y); lia).
    assert (PP : pos (mk g p failed ind rnd) = p) by (rewrite (hollow_pos _ _ _ H); reflexivity).
    constructor; [rewrite PP; apply hollow_inv; [exact H|cbn; lia]|exact CS| |reflexivity]. intros G1 G2. rewrite PP. destruct (G G1 G2) as (-> & -> & ->). auto.
  Qed.
  Lemma begin_opened ip p rnd (good : Prop) r : hollow content (file_pos f ip - r_limit_pos r) r -> (calls_succeed f -> Forall (fun n => 0 < n) (f_calls (r_fd r))) -> r_open r = true ->
    (good -> calls_succeed f -> ok r = true /\ r_limit_pos r = p /\ r_random r = rnd) ->
    wp BeginRun r (fun _ r' => opened f ip p rnd good r').
  Proof.
    intros H C OP G. eapply begin_run_ok; [exact H|]. intros r' I1 F O B P FD. constructor.
    - rewrite P. exact I1.
    - rewrite FD. exact C.
    - rewrite O, P, (fr_rand _ _ _ _ F). exact G.
    - rewrite (fr_open _ _ _ _ F). exact OP.
  Qed.
  (** A file with random access *)
  Lemma regular_ok r : hollow content 0 r -> r_limit_pos r = f_pos f -> (calls_succeed f -> Forall (fun n => 0 < n) (f_calls (r_fd r))) -> r_open r = true -> (calls_succeed f -> ok r = true) ->
    wp (modify (set_random true);; r <- get; (if r_growing r then ret tt else set_exact_size (zlen content));; BeginRun) r (fun _ r' => opened f None (f_pos f) true True r').
  Proof.
    intros [R B C] L CS OP O. md. gt. bnd. apply set_exact_ok with (content := content) (shift := 0); [|unfold BufferedReaderSpec.size; lia|].
    - destruct R. constructor; auto.
    - intros r' A1 A2 A3 A4 A5 A6 A7 A8. rcbn_in A4. rcbn_in A5. rcbn_in A6. rcbn_in A8. apply begin_opened.
      + cbn [file_pos]. rewrite A6, L, Z.sub_diag. constructor; congruence || assumption.
      + rewrite A8. exact CS.
      + rewrite (fr_open _ _ _ _ A2). exact OP.
      + intros _ X. split; [rewrite A3; exact (O X)|]. split; [congruence|]. rewrite (fr_rand _ _ _ _ A2). reflexivity.
  Qed.
  Lemma InitializePos_ok ap ip : fd_ok f ip -> option_ok ap ->
    wp (InitializePos ap ip) (mk f 0 false false false)
      (fun _ r => opened f ip (match ap with Some p => p | None => file_pos f ip end) (match ap with Some _ => false | None => true end)
        ((ap = None \/ ip = None) /\ match ap with Some p => p <= kMaxFdPosition | None => True end) r).
  Proof.
    intros FO AO. pose proof kmax as KM. pose proof FO as (F1 & F2 & F3). unfold InitializePos. destruct ap as [a|], ip as [i|]; cbn [option_ok] in AO.
    - bnd. apply Fail_plain; [cbn; lia|]. apply wp_ret. change (set_state true (r_open (mk f 0 false false false)) (mk f 0 false false false)) with (mk f 0 true false false).
      apply mk_opened; auto; try lia; try discriminate. intros [[X|X] _]; discriminate.
    - destruct (kMaxFdPosition <? a) eqn:E.
      + bnd. apply Fail_plain; [cbn; lia|]. apply wp_ret. change (set_state true (r_open (mk f 0 false false false)) (mk f 0 false false false)) with (mk f 0 true false false).
        apply mk_opened; auto; try lia; try discriminate.
      + md. change (set_limit_pos a (mk f 0 false false false)) with (mk f a false false false). apply begin_opened; auto.
        apply (mk_hollow None); auto; cbn [mk r_limit_pos]; try lia; try discriminate. intros _ _. cbn [file_pos]. lia.
    - md. destruct (kMaxFdPosition <? i) eqn:E; [cbn [file_pos] in F3; lia|]. md. md. apply begin_opened; auto.
      cbn [file_pos set_random set_limit_pos r_limit_pos]. rewrite Z.sub_diag. change (hollow content 0 (mk f i false true true)). apply (mk_hollow (Some i)); auto; cbn [file_pos] in *; try lia; discriminate.
    - cbn [file_pos] in F3. bnd. apply wp_syscall. intros t g1 E1. destruct (sys_tell_spec _ _ _ E1) as (A1 & A2 & A3 & A4). change (r_fd (mk f 0 false false false)) with f in *.
      change (set_fd g1 (mk f 0 false false false)) with (mk g1 0 false false false). destruct t as [t|].
      2:{ apply wp_ret. apply mk_opened; auto; try lia; try discriminate; try (intros X; exact (proj1 (A3 X))). intros _ X. destruct (A3 X). congruence. }
      destruct A4 as [A4|A4]; [discriminate|]. injection A4 as ->. md. change (set_limit_pos (f_pos f) (mk g1 0 false false false)) with (mk g1 (f_pos f) false false false).
      bnd. apply wp_syscall. intros z g2 E2. change (r_fd (mk g1 (f_pos f) false false false)) with g1 in E2. change (set_fd g2 (mk g1 (f_pos f) false false false)) with (mk g2 (f_pos f) false false false).
      unfold sys_seek_end in E2. rewrite A1 in E2. destruct (sys_seek (zlen content) g1) as [b g3] eqn:E3. injection E2 as <- ->. destruct (sys_seek_spec _ _ _ _ E3) as (B1 & B2 & B3 & B4).
      assert (C2 : f_content g2 = content) by congruence. assert (CS2 : calls_succeed f -> Forall (fun n => 0 < n) (f_calls g2)) by (intros X; exact (proj1 (B2 (proj1 (A3 X))))).
      destruct b.
      2:{ apply wp_ret. apply mk_opened; auto; try lia; try discriminate; cbn [file_pos]; try (intros; rewrite B4; auto). intros _ X. destruct (B2 (proj1 (A3 X))). discriminate. }
      gt. cbn [mk r_limit_pos]. change {| r_fd := g2; r_failed := false; r_open := true; r_limit_pos := f_pos f; r_buf := []; r_cur := 0; r_sizer := new_read_sizer options; r_spaces := spaces;
        r_independent := false; r_growing := growing; r_random := false; r_owning := owning |} with (mk g2 (f_pos f) false false false).
      match goal with |- wp (if _ then _ else ?x) _ _ => set (k := x) end.
      assert (K : forall g, f_content g = content -> f_pos g = f_pos f -> (calls_succeed f -> Forall (fun n => 0 < n) (f_calls g)) -> wp k (mk g (f_pos f) false false false)
        (fun _ r => opened f None (f_pos f) true ((None = @None Z \/ None = @None Z) /\ True) r)).
      { intros g G1 G2 G3. assert (HO : hollow content 0 (mk g (f_pos f) false false false)) by (apply (mk_hollow None); auto; cbn [file_pos]; try lia; discriminate).
        assert (REG : forall r, hollow content 0 r -> r_limit_pos r = f_pos f -> (calls_succeed f -> Forall (fun n => 0 < n) (f_calls (r_fd r))) -> r_open r = true -> (calls_succeed f -> ok r = true) ->
          wp (modify (set_random true);; r <- get; (if r_growing r then ret tt else set_exact_size (zlen content));; BeginRun) r
            (fun _ r' => opened f None (f_pos f) true ((None = @None Z \/ None = @None Z) /\ True) r')).
        { intros r H1 H2 H3 H4 H5. eapply wp_conseq; [exact (regular_ok r H1 H2 H3 H4 H5)|]. cbn beta. intros _ r' [Q1 Q2 Q3 Q4]. constructor; auto. }
        unfold k. gt. cbn [mk r_limit_pos]. destruct ((zlen content =? 0) && (f_pos f =? 0)) eqn:ZE; [|apply REG; auto].
        pose proof (hollow_inv _ _ _ HO ltac:(cbn; lia)) as I1. bnd. eapply wp_conseq; [apply PullSlow_ok; [exact I1|cbn; lia|lia]|]. cbn beta. intros b r1 (P1 & P2 & P3 & P4 & P5 & P6). gt.
        pose proof (c_inv _ _ _ _ _ P1) as I2. destruct (pos_bounds _ _ _ I2) as (V1 & V2 & V3 & V4 & V5 & V6). unfold BufferedReaderSpec.size in *. destruct b; [lia|].
        assert (CR : calls_succeed f -> reliable content 0 r1). { intros X. apply (fr_rel _ _ _ _ (c_frame _ _ _ _ _ P1)). split; [exact (G3 X)|unfold BufferedReaderSpec.size; lia]. }
        assert (CO : calls_succeed f -> ok r1 = true). { intros X. apply (c_live _ _ _ _ _ P1); [|reflexivity]. split; [exact (G3 X)|unfold BufferedReaderSpec.size; lia]. }
        assert (OP : r_open r1 = true) by exact (fr_open _ _ _ _ (c_frame _ _ _ _ _ P1)).
        destruct (ok r1) eqn:O1; cbn [negb].
        - apply REG; auto; [|lia|intros X; exact (proj1 (CR X))]. pose proof (i_off _ _ _ I2). pose proof (i_cur _ _ _ I2). pose proof (zlen_nonneg (r_buf r1)).
          constructor; [apply I2|apply zlen_0_nil; lia|lia].
        - apply wp_ret. constructor; auto; [|intros X; exact (proj1 (CR X))|intros _ X; specialize (CO X); discriminate]. cbn [file_pos]. replace (f_pos f - pos r1) with 0 by lia. exact I2. }
      clearbody k.
      destruct (f_pos f =? zlen content) eqn:FE; cbn [negb].
      + apply K; auto. rewrite B3 by reflexivity. lia.
      + bnd. apply wp_syscall. intros b g4 E4. change (r_fd (mk g2 (f_pos f) false false false)) with g2 in E4. destruct (sys_seek_spec _ _ _ _ E4) as (D1 & D2 & D3 & D4).
        change (set_fd g4 (mk g2 (f_pos f) false false false)) with (mk g4 (f_pos f) false false false). destruct b; cbn [negb].
        * apply K; auto; [congruence|]. intros X. exact (proj1 (D2 (CS2 X))).
        * bnd. apply Fail_plain; [cbn; lia|]. apply wp_ret. change (set_state true (r_open (mk g4 (f_pos f) false false false)) (mk g4 (f_pos f) false false false)) with (mk g4 (f_pos f) true false false).
          apply mk_opened; auto; try lia; try discriminate; try congruence.
  Qed.
End Open.

Lemma new_reader_ok f options ap ip growing owning spaces : options_valid options -> fd_ok f ip -> option_ok ap ->
  exists r, new_reader f options ap ip growing owning spaces = Some r /\
    opened f ip (match ap with Some p => p | None => file_pos f ip end) (match ap with Some _ => false | None => true end)
      ((ap = None \/ ip = None) /\ match ap with Some p => p <= kMaxFdPosition | None => True end) r.
Proof.
  intros OV FO AO. pose proof (InitializePos_ok f options growing owning spaces OV ap ip FO AO) as H. apply wp_some in H. destruct H as (u & r & E & H).
  exists r. split; [|exact H]. unfold new_reader. unfold mk in E. rewrite E. reflexivity.
Qed.
Lemma reader_ok f options ap ip growing owning spaces calls : options_valid options -> fd_ok f ip -> option_ok ap -> Forall call_ok calls ->
  exists r os r', new_reader f options ap ip growing owning spaces = Some r /\ run calls r = Some (os, r') /\ f_content (r_fd r') = f_content f /\
    let shift := file_pos f ip - pos r in
    history (f_content f) shift (r_random r) (r_independent r) (calls_succeed f /\ size (f_content f) shift < kMaxFdPosition) calls (pos r) (ok r) os /\
    (r_independent r = true -> Forall (fun o => o_fd_pos o = f_pos (r_fd r)) os).
Proof.
  intros OV FO AO K. destruct (new_reader_ok f options ap ip growing owning spaces OV FO AO) as (r & E & [O1 O2 O3 O4]).
  pose proof (run_ok _ _ calls r (calls_succeed f /\ size (f_content f) (file_pos f ip - pos r) < kMaxFdPosition) O1 K) as H.
  assert (RL : calls_succeed f /\ size (f_content f) (file_pos f ip - pos r) < kMaxFdPosition -> reliable (f_content f) (file_pos f ip - pos r) r) by (intros [X Y]; split; auto).
  specialize (H RL). apply wp_some in H. destruct H as (os & r' & E' & H1 & H2 & H3). exists r, os, r'. split; [exact E|]. split; [exact E'|]. split; [apply H1|]. cbv zeta. auto.
Qed.

(** ** What follows from histories *)
Lemma allowed_read content shift rnd ind c p k o : is_read c = true -> allowed content shift rnd ind c p k o -> reads content shift (data_of o) p (o_pos o).
Proof.
  unfold data_of. assert (NIL : forall q, q = p -> reads content shift [] p q) by (intros q ->; split; [reflexivity|change (zlen (@nil Z)) with 0; lia]).
  destruct c; cbn [is_read]; try discriminate; intros _ (_ & _ & H); destruct (o_result o); try contradiction; try (apply H); apply NIL; (exact H || exact (proj1 H)).
Qed.
Lemma history_stream content shift rnd ind rel : forall calls p k os, 0 <= p + shift -> forallb is_read calls = true -> history content shift rnd ind rel calls p k os ->
  concat (map data_of os) = piece content shift p (zlen (concat (map data_of os))).
Proof.
  induction calls as [|c calls IH]; intros p k [|o os] P A H; cbn [history] in H; try contradiction; [reflexivity|].
  cbn [forallb] in A. apply andb_prop in A. destruct A as [A1 A2]. destruct H as (H1 & _ & H2). pose proof (allowed_read _ _ _ _ _ _ _ _ A1 H1) as [R1 R2].
  pose proof (zlen_nonneg (data_of o)). specialize (IH (o_pos o) (o_ok o) os ltac:(lia) A2 H2). cbn [map concat]. rewrite zlen_app. rewrite IH at 1. rewrite R1 at 1. unfold piece. rewrite R2.
  replace (p + zlen (data_of o) + shift) with (p + shift + zlen (data_of o)) by lia. apply zslice_app; try lia; apply zlen_nonneg.
Qed.
(** Calls whose result is determined by the file *)
Definition determined (c : call) : bool := match c with CReadSome _ | CReadSomeView _ | CReadSomeChain _ => false | _ => true end.
Lemma reads_fits content shift d p p' : 0 <= p + shift -> reads content shift d p p' -> 0 < zlen d -> p + zlen d <= size content shift.
Proof.
  intros P [R1 R2] D. assert (L : zlen d = zlen (piece content shift p (zlen d))) by (rewrite <- R1; reflexivity). unfold piece, zslice in *. rewrite zlen_ztake, zlen_zdrop in L. unfold size. lia.
Qed.
(** The same call, on the same position of the same file, returns the same if nothing fails *)
Lemma allowed_same content shift rnd ind rnd' ind' c p o o' : 0 <= p + shift <= zlen content -> determined c = true ->
  allowed content shift rnd ind c p true o -> allowed content shift rnd' ind' c p true o' -> o_ok o = true -> o_ok o' = true -> o_result o = o_result o' /\ o_pos o = o_pos o'.
Proof.
  intros P D (_ & B & H) (_ & B' & H') K K'. rewrite K, K' in *.
  assert (RD : forall n b d b' d', reads content shift d p (o_pos o) /\ (if b : bool then zlen d = n else zlen d < n /\ (true = true -> o_pos o = size content shift)) ->
    reads content shift d' p (o_pos o') /\ (if b' : bool then zlen d' = n else zlen d' < n /\ (true = true -> o_pos o' = size content shift)) -> RBytes b d = RBytes b' d' /\ o_pos o = o_pos o').
  { intros n b d b' d' [R1 X1] [R2 X2]. pose proof (reads_fits _ _ _ _ _ (proj1 P) R1) as F1. pose proof (reads_fits _ _ _ _ _ (proj1 P) R2) as F2. destruct R1 as [R1 Q1], R2 as [R2 Q2].
    pose proof (zlen_nonneg d). pose proof (zlen_nonneg d'). unfold size in *.
    assert (L : zlen d = zlen d'). { destruct b, b'; lia. }
    split; [|lia]. f_equal; [destruct b, b'; try reflexivity; lia|]. rewrite R1, R2, L. reflexivity. }
  destruct c; cbn [determined] in D; try discriminate; destruct (o_result o) eqn:E; try contradiction; destruct (o_result o') eqn:E'; try contradiction.
  - destruct H as [H1 H2], H' as [H1' H2']. split; [|lia]. f_equal. destruct b, b0; try reflexivity; [specialize (H2' eq_refl)|specialize (H2 eq_refl)]; lia.
  - exact (RD _ _ _ _ _ H H').
  - exact (RD _ _ _ _ _ H H').
  - apply (RD 1).
    + destruct H as [H1 H2]. split; [exact H1|]. destruct b; [exact H2|]. split; [lia|apply H2].
    + destruct H' as [H1 H2]. split; [exact H1|]. destruct b0; [exact H2|]. split; [lia|apply H2].
  - exact (RD _ _ _ _ _ H H').
  - split; [reflexivity|lia].
  - split; [reflexivity|lia].
  - destruct H as (H1 & H2 & _), H' as (H1' & H2' & _). split; [congruence|]. rewrite H2, H2'; reflexivity.
  - split.
    + f_equal. destruct b, b0; try reflexivity; [specialize (H' eq_refl)|specialize (H eq_refl)]; lia.
    + destruct b, b0; try (specialize (H' eq_refl)); try (specialize (H eq_refl)); lia.
  - destruct b, b0; try (specialize (H' eq_refl)); try (specialize (H eq_refl)); try lia; (split; [f_equal; lia|lia]).
  - destruct H as [H1 H2], H' as [H1' H2']. split; [|lia]. f_equal. destruct s, s0; try discriminate. f_equal. lia.
  - split; [reflexivity|lia].
  - destruct H. congruence.
Qed.
Lemma history_same content shift rnd ind rel rnd' ind' rel' : forall calls p os os', 0 <= p + shift <= zlen content -> forallb determined calls = true ->
  history content shift rnd ind rel calls p true os -> history content shift rnd' ind' rel' calls p true os' ->
  Forall (fun o => o_ok o = true) os -> Forall (fun o => o_ok o = true) os' -> map o_result os = map o_result os' /\ map o_pos os = map o_pos os'.
Proof.
  induction calls as [|c calls IH]; intros p [|o os] [|o' os'] P A H H' K K'; cbn [history] in H, H'; try contradiction; [split; reflexivity|].
  cbn [forallb] in A. apply andb_prop in A. destruct A as [A1 A2]. destruct H as (H1 & _ & H2). destruct H' as (H1' & _ & H2').
  pose proof (Forall_inv K) as K1. pose proof (Forall_inv K') as K1'. cbv beta in K1, K1'. rewrite K1 in H2. rewrite K1' in H2'.
  destruct (allowed_same _ _ _ _ _ _ _ _ _ _ P A1 H1 H1' K1 K1') as [E1 E2]. rewrite <- E2 in H2'.
  destruct (IH (o_pos o) os os' (proj1 (proj2 H1)) A2 H2 H2' (Forall_inv_tail K) (Forall_inv_tail K')) as [E3 E4]. cbn [map]. split; congruence.
Qed.
Lemma plain_ok content shift ind (rel : Prop) : rel -> forall calls p os, forallb is_plain calls = true -> history content shift true ind rel calls p true os -> Forall (fun o => o_ok o = true) os.
Proof.
  intros RL. induction calls as [|c calls IH]; intros p [|o os] A H; cbn [history] in H; try contradiction; [constructor|].
  cbn [forallb] in A. apply andb_prop in A. destruct A as [A1 A2]. destruct H as (H1 & H2 & H3).
  assert (K : o_ok o = true).
  { assert (N : not_failed c o) by (apply H2; [exact RL|reflexivity|]; destruct c; cbn [is_plain may_fail] in *; try discriminate; try tauto; intros [X _]; discriminate). destruct c; try exact N. discriminate A1. }
  constructor; [exact K|]. rewrite K in H3. exact (IH _ _ A2 H3).
Qed.
Lemma stream_ok f options ap ip growing owning spaces calls : options_valid options -> fd_ok f ip -> option_ok ap -> Forall call_ok calls -> forallb is_read calls = true ->
  exists r os r', new_reader f options ap ip growing owning spaces = Some r /\ run calls r = Some (os, r') /\
    concat (map data_of os) = zslice (file_pos f ip) (zlen (concat (map data_of os))) (f_content f).
Proof.
  intros OV FO AO K RD. destruct (reader_ok f options ap ip growing owning spaces calls OV FO AO K) as (r & os & r' & E1 & E2 & _ & H & _). exists r, os, r'. split; [exact E1|]. split; [exact E2|].
  apply history_stream in H; [|destruct FO as (_ & _ & X); lia|exact RD]. unfold piece in H. replace (pos r + (file_pos f ip - pos r)) with (file_pos f ip) in H by lia. exact H.
Qed.
Lemma transparent_ok f options ip growing owning spaces f' options' ip' growing' owning' spaces' calls : options_valid options -> options_valid options' -> fd_ok f ip -> fd_ok f' ip' ->
  f_content f' = f_content f -> file_pos f' ip' = file_pos f ip -> calls_succeed f -> calls_succeed f' -> zlen (f_content f) < kMaxFdPosition -> Forall call_ok calls -> forallb is_plain calls = true ->
  exists r os q r' os' q', new_reader f options None ip growing owning spaces = Some r /\ run calls r = Some (os, q) /\
    new_reader f' options' None ip' growing' owning' spaces' = Some r' /\ run calls r' = Some (os', q') /\
    map o_result os = map o_result os' /\ map o_pos os = map o_pos os' /\ Forall (fun o => o_ok o = true) os.
Proof.
  intros OV OV' FO FO' CE PE CS CS' MX K PL.
  destruct (reader_ok f options None ip growing owning spaces calls OV FO Logic.I K) as (r & os & q & E1 & E2 & _ & H & _).
  destruct (reader_ok f' options' None ip' growing' owning' spaces' calls OV' FO' Logic.I K) as (r' & os' & q' & E1' & E2' & _ & H' & _).
  destruct (new_reader_ok f options None ip growing owning spaces OV FO Logic.I) as (r1 & X1 & [_ _ G _]). rewrite E1 in X1. injection X1 as <-.
  destruct (new_reader_ok f' options' None ip' growing' owning' spaces' OV' FO' Logic.I) as (r1' & X1' & [_ _ G' _]). rewrite E1' in X1'. injection X1' as <-.
  destruct (G (conj (or_introl eq_refl) Logic.I) CS) as (O1 & P1 & R1). destruct (G' (conj (or_introl eq_refl) Logic.I) CS') as (O1' & P1' & R1').
  rewrite CE, PE in *. rewrite P1, P1', O1, O1', R1, R1', Z.sub_diag in *.
  assert (SZ : size (f_content f) 0 < kMaxFdPosition) by (unfold size; lia).
  pose proof (plain_ok _ _ _ _ (conj CS SZ) _ _ _ PL H) as KO. pose proof (plain_ok _ _ _ _ (conj CS' SZ) _ _ _ PL H') as KO'.
  assert (DT : forallb determined calls = true). { rewrite forallb_forall in PL |- *. intros c IN. specialize (PL c IN). destruct c; cbn in *; congruence. }
  assert (PB : 0 <= file_pos f ip + 0 <= zlen (f_content f)) by (destruct FO as (_ & _ & FO); lia).
  destruct (history_same _ _ _ _ _ _ _ _ _ _ _ _ PB DT H H' KO KO') as [Q1 Q2].
  exists r, os, q, r', os', q'. auto 10.
Qed.
Lemma independent_ok f options p growing owning spaces calls : options_valid options -> fd_ok f (Some p) -> Forall call_ok calls ->
  exists r os r', new_reader f options None (Some p) growing owning spaces = Some r /\ run calls r = Some (os, r') /\ Forall (fun o => o_fd_pos o = f_pos f) os.
Proof.
  intros OV FO K. destruct (reader_ok f options None (Some p) growing owning spaces calls OV FO Logic.I K) as (r & os & r' & E1 & E2 & _ & _ & H). exists r, os, r'. split; [exact E1|]. split; [exact E2|].
  assert (X : r_independent r = true /\ r_fd r = f).
  { destruct FO as (F1 & _ & F2). cbn [file_pos] in F2. unfold new_reader, InitializePos, bind, modify in E1. replace (kMaxFdPosition <? p) with false in E1 by lia.
    unfold BeginRun, get_start_pos, bind, get, assert, ret, modify in E1. rcbn_in E1. replace (zlen (@nil Z) <=? p) with true in E1 by (change (zlen (@nil Z)) with 0; lia). cbn in E1. injection E1 as <-. split; reflexivity. }
  destruct X as [X Y]. rewrite Y in H. exact (H X).
Qed.
