(** Histories of calls. *)
From Verif Require Import Base.Bytes Spec.PosixFile Model.BufferSizer Model.ByteFill Model.BufferedWriter Spec.BufferedWriterSpec
  Proof.PosixProof Proof.BufferSizerProof Proof.ByteFillProof Proof.WriterLemmas Proof.WriterSteps Proof.WriterCalls Proof.WriterDead Proof.WriterSeeks Proof.WriterMore Proof.WriterOpen.
Notation file w := (f_content (w_fd w)).
Notation kMax := kMaxFdPosition.

Lemma exec_push min rec src w b w' : push_and_put min rec src w = Some (b, w') -> exec (CPush min rec src) w = Some (RBool b, w').
Proof.
  unfold push_and_put, exec, bind. destruct (Push min rec w) as [[x w1]|]; [|discriminate]. destruct x; cbn [negb]; cbv iota; [|cbv [ret]; congruence].
  destruct (put src w1) as [[y w2]|]; [|discriminate]. cbv [ret]. congruence.
Qed.
Lemma exec_bytes c d delta w : bytes_of c = Some d -> call_ok c -> inv w -> ok w = true -> link delta w ->
  exists b w', exec c w = Some (RBool b, w') /\ b = ok w' /\ moves True delta w d w'.
Proof.
  intros B C I1 O L.
  assert (W : forall f, writes f d -> exists b w', (x <- f; ret (RBool x)) w = Some (RBool b, w') /\ b = ok w' /\ moves True delta w d w').
  { intros f F. destruct (F delta w I1 O L) as (b & w' & E & R). rewrite (bind_some _ _ _ _ _ E). exists b, w'. split; [reflexivity|exact R]. }
  destruct c; try discriminate B; cbn [bytes_of] in B; injection B as <-; cbn [call_ok] in C.
  - exact (W _ (Write_ok src)).
  - exact (W _ (WriteChar_ok c)).
  - exact (W _ (WriteExternal_ok src)).
  - exact (W _ (WriteChain_ok src)).
  - exact (W _ (WriteFill_ok n fill C)).
  - destruct C as (C1 & C2 & C3). destruct (push_and_put_ok min_length recommended_length src C1 C2 C3 delta w I1 O L) as (b & w' & E & R). exists b, w'. split; [exact (exec_push _ _ _ _ _ _ E)|exact R].
Qed.

(** A history on a writer which has failed or is closed *)
Lemma exec_dead c w : inv w -> ok w = false -> call_ok c ->
  (exists r w', exec c w = Some (r, w') /\ inv w' /\ ok w' = false /\ file w' = file w /\ (w_written w = 0 -> w_written w' = 0)) \/
  (exec c w = None /\ w_written w <> 0 /\ exists p, c = CSeek p).
Proof.
  intros I1 O C.
  assert (R : forall A (f : M A) (g : A -> result), refuses f -> exists r w', (x <- f; ret (g x)) w = Some (r, w') /\ inv w' /\ ok w' = false /\ file w' = file w /\ (w_written w = 0 -> w_written w' = 0)).
  { intros A f g F. destruct (F w I1 O) as (a & w' & E & D). rewrite (bind_some _ _ _ _ _ E). exists (g a), w'. split; [reflexivity|]. split; [exact (d_inv _ _ D)|]. split; [exact (d_ok _ _ D)|].
    split; [exact (d_file _ _ D)|]. intros X. destruct (d_written _ _ D); congruence. }
  destruct c; cbn [call_ok] in C.
  - left. exact (R _ _ RBool (refuses_Write src)).
  - left. unfold exec. assert (X : refuses (WriteChar c)). { apply (dead_push_and_put 1 0 [c]). change (zlen [c]) with 1. lia. } exact (R _ _ RBool X).
  - left. exact (R _ _ RBool (refuses_WriteExternal src)).
  - left. exact (R _ _ RBool (refuses_WriteChain src)).
  - left. exact (R _ _ RBool (refuses_WriteFill n fill C)).
  - left. destruct C as (_ & _ & C). destruct (dead_push_and_put min_length recommended_length src C w I1 O) as (a & w' & E & D). exists (RBool a), w'. split; [exact (exec_push _ _ _ _ _ _ E)|].
    split; [exact (d_inv _ _ D)|]. split; [exact (d_ok _ _ D)|]. split; [exact (d_file _ _ D)|]. intros X. destruct (d_written _ _ D); congruence.
  - left. exact (R _ _ RBool (refuses_Flush machine)).
  - destruct (refuses_Seek new_pos w I1 O) as [(a & w' & E & D)|[N W]]; [left|right; unfold exec, bind; rewrite N; split; [reflexivity|split; [exact W|eexists; reflexivity]]]. unfold exec. rewrite (bind_some _ _ _ _ _ E). exists (RBool a), w'. split; [reflexivity|]. split; [exact (d_inv _ _ D)|].
    split; [exact (d_ok _ _ D)|]. split; [exact (d_file _ _ D)|]. intros X. destruct (d_written _ _ D); congruence.
  - left. exact (R _ _ RSize refuses_Size).
  - left. exact (R _ _ RBool (refuses_Truncate new_size)).
  - left. exact (R _ _ (fun _ => RUnit) (refuses_SetWriteSizeHint hint)).
  - left. exact (R _ _ RBool refuses_SupportsRandomAccess).
  - left. exact (R _ _ RBool refuses_Fail).
  - left. unfold exec. destruct (w_open w) eqn:OP.
    + destruct (dead_Close w I1 O OP) as (w' & E & D & WR). rewrite (bind_some _ _ _ _ _ E). eexists _, _. split; [reflexivity|].
      split; [apply set_closed; [exact (d_inv _ _ D)|exact WR|exact (i_notok _ (d_inv _ _ D) (d_ok _ _ D))]|]. split; [reflexivity|]. split; [exact (d_file _ _ D)|]. intros _. exact WR.
    + assert (E : Close w = Some (negb (w_failed w), w)) by (unfold Close; rewrite bind_get, OP; reflexivity). rewrite (bind_some _ _ _ _ _ E). eexists _, w. split; [reflexivity|]. split; [exact I1|]. split; [exact O|]. split; auto.
Qed.

(** One call on a good writer *)
Record does (delta : Z) (c : call) (w : writer) (r : result) (w' : writer) : Prop := {
  x_inv : inv w'; x_link : ok w' = true -> exists delta', link delta' w';
  x_ok : ok w' = true -> (truncates c = true -> delta = 0) -> link delta w' /\
    match c with
    | CSeek p => exists b, r = RBool b /\ (b, view delta w') = seek_to p (view delta w) /\ (p = snd (view delta w) \/ delta = 0)
    | CTruncate n => exists b, r = RBool b /\ (b, view delta w') = truncate_to n (view delta w)
    | _ => step delta c r (view delta w) (view delta w')
    end;
  x_flush : ok w' = true -> match c with CFlush _ => file w' = fst (view delta w') | _ => True end;
  x_random : ok w' = true -> (w_random w <> None -> w_random w' <> None) /\ match c with CSupportsRandomAccess | CSize => w_random w' <> None | _ => True end;
  x_dead : ok w' = false -> c <> CFail -> w_written w' = 0;
  x_eof : moves_cursor c = false -> eof delta w ->
    (ok w' = true -> eof delta w') /\ (exists t, fst (view delta w) ++ match bytes_of c with Some d => d | None => [] end = file w' ++ t) /\ zlen (file w) <= zlen (file w');
  x_nofail : nofail w -> c <> CClose -> nofail w' /\ (seekable w -> seekable w');
  x_live : c <> CFail -> c <> CClose -> (match c with CSeek _ | CSize => seekable w | _ => True end) -> nofail w -> fits delta w ->
    snd (view delta w) + zlen (match bytes_of c with Some d => d | None => [] end) + Z.max 0 delta <= kMax -> (truncates c = true -> delta = 0) -> ok w' = true /\ fits delta w' }.
Lemma frame_random w w' : frame w w' -> w_random w <> None -> w_random w' <> None.
Proof. intros F N. rewrite (fr_rand _ _ F N). exact N. Qed.
(** from what is known about functions which do not move the cursor *)
Lemma does_moves P delta c d w r w' : moves P delta w d w' -> d = match bytes_of c with Some d => d | None => [] end -> truncates c = false -> moves_cursor c = false ->
  (ok w' = true -> link delta w' -> step delta c r (view delta w) (view delta w')) -> (ok w' = true -> match c with CFlush _ => file w' = fst (view delta w') | _ => True end) ->
  (ok w' = true -> match c with CSupportsRandomAccess | CSize => w_random w' <> None | _ => True end) -> (match c with CSeek _ | CSize => seekable w | _ => True end -> P) -> does delta c w r w'.
Proof.
  intros M -> T MC S1 F R PP. constructor; auto.
  - exact (m_inv _ _ _ _ _ M).
  - intros O. exists delta. apply (m_view _ _ _ _ _ M O).
  - intros O _. destruct (m_view _ _ _ _ _ M O) as [L V]. split; [exact L|]. specialize (S1 O L). destruct c; try exact S1; discriminate.
  - intros O. split; [exact (frame_random _ _ (m_frame _ _ _ _ _ M))|exact (R O)].
  - intros O _. exact (m_dead _ _ _ _ _ M O).
  - intros _ E. exact (m_eof _ _ _ _ _ M E).
  - intros N _. exact (m_nofail _ _ _ _ _ M N).
  - intros _ _ Q N FT H _. apply (m_live _ _ _ _ _ M); auto.
Qed.
Lemma exec_ok delta c w : inv w -> ok w = true -> link delta w -> call_ok c ->
  (exists r w', exec c w = Some (r, w') /\ does delta c w r w') \/ (exec c w = None /\ (exists p, c = CSeek p) /\ w_random w = None /\ ~ nofail w).
Proof.
  intros I1 O L C. destruct (bytes_of c) as [d|] eqn:B.
  { destruct (exec_bytes c d delta w B C I1 O L) as (b & w' & E & BO & M). left. exists (RBool b), w'. split; [exact E|].
    apply (does_moves True delta c d); auto; try (rewrite B; reflexivity); try (destruct c; discriminate || reflexivity).
    - intros O' L'. destruct (m_view _ _ _ _ _ M O') as [_ V]. destruct (view delta w) as [cont p] eqn:VW. cbn [fst snd] in V. rewrite O' in BO. subst b. rewrite V.
      destruct c; try discriminate B; cbn [bytes_of] in B; injection B as <-; unfold step; split; try reflexivity.
      f_equal. unfold zlen. rewrite repeat_length. cbn [call_ok] in C. lia.
    }
  destruct c; try discriminate B; unfold exec.
  - destruct (Flush_ok machine delta w I1 O L) as (b & w' & E & BO & M & FL). rewrite (bind_some _ _ _ _ _ E). left. exists (RBool b), w'. split; [reflexivity|].
    apply (does_moves True delta _ []); auto.
    + intros O' _. destruct (moves_nil_view _ _ _ _ M O') as [_ V]. rewrite V. destruct (view delta w). split; [congruence|reflexivity].
    + intros O'. destruct (moves_nil_view _ _ _ _ M O') as [_ V]. rewrite V. auto.
  - destruct (Seek_ok new_pos delta w I1 O L C) as [(b & w' & E & J & DZ)|(N & RN & NN)]; [|right; unfold bind; rewrite N; split; [reflexivity|split; [eexists; reflexivity|split; assumption]]]. rewrite (bind_some _ _ _ _ _ E). left. exists (RBool b), w'. split; [reflexivity|]. destruct J as [J1 J2 J3 J4 J5 J6 J7].
    constructor; auto; try discriminate.
    + intros O'. exists delta. apply (J3 O').
    + intros O' _. destruct (J3 O') as [L' V]. split; [exact L'|]. exists b. split; [reflexivity|]. split; [exact V|]. exact (DZ O').
    + intros _. split; [exact (frame_random _ _ J2)|exact Logic.I].
  - destruct (Size_ok delta w I1 O L) as (s & w' & E & M & OK & NO). rewrite (bind_some _ _ _ _ _ E). left. exists (RSize s), w'. split; [reflexivity|].
    apply (does_moves (seekable w) delta _ []); auto.
    + intros O' _. destruct (OK O') as (-> & FI & _). destruct (moves_nil_view _ _ _ _ M O') as [_ V]. rewrite V, FI. destruct (view delta w). split; reflexivity.
    + intros O'. destruct (OK O') as (_ & _ & R & _). congruence.
  - destruct (Truncate_ok new_size delta w I1 O L C) as (b & w' & E & J). rewrite (bind_some _ _ _ _ _ E). left. exists (RBool b), w'. split; [reflexivity|]. destruct J as [J1 J2 J3 J4 J5 J6 J7].
    constructor; auto; try discriminate.
    + intros O'. exists 0. apply (J3 O').
    + intros O' D. rewrite (D eq_refl) in *. destruct (J3 O') as [L' V]. split; [exact L'|]. exists b. split; [reflexivity|exact V].
    + intros _. split; [exact (frame_random _ _ J2)|exact Logic.I].
    + intros _ _ _ NF FT _ D. rewrite (D eq_refl) in *. apply J6; auto.
  - destruct (set_hint_ok hint w I1) as [E I2]. rewrite (bind_some _ _ _ _ _ E). left. eexists RUnit, _. split; [reflexivity|].
    assert (M : moves True delta w [] (set_sizer (ws_set_write_size_hint (w_start_pos w + w_cur w) hint (w_sizer w)) w)) by (apply moves_sizer; assumption).
    apply (does_moves True delta _ []); auto. intros O' _. destruct (moves_nil_view _ _ _ _ M O') as [_ V]. rewrite V. destruct (view delta w). split; reflexivity.
  - destruct (SupportsRandomAccess_ok delta w I1 O L) as (b & w' & E & M & SB & RT & RF & _). rewrite (bind_some _ _ _ _ _ E). left. exists (RBool b), w'. split; [reflexivity|].
    apply (does_moves True delta _ []); auto.
    + intros O' _. destruct (moves_nil_view _ _ _ _ M O') as [_ V]. rewrite V. destruct (view delta w). split; [exists b; reflexivity|reflexivity].
    + intros O'. destruct b; [destruct (RT eq_refl); congruence|rewrite (RF eq_refl); discriminate].
  - destruct (Fail_ok w I1 O) as (w' & E' & I4 & FR & O3 & FI & ST & LI & CA & RA & WR & SI). rewrite (bind_some _ _ _ _ _ E'). left. exists (RBool false), w'. split; [reflexivity|].
    constructor; auto; try congruence.
    + intros _ X. split; [congruence|]. cbn [bytes_of]. rewrite FI, app_nil_r. split; [|apply Z.le_refl]. rewrite (proj1 (view_eof delta w I1 X)). eexists. reflexivity.
    + intros N _. unfold nofail, seekable. rewrite CA, RA. auto.
  - destruct (Close_ok delta w I1 O L) as (b & w' & E & I2 & OP & FA & WR & FI & EO & LV). rewrite (bind_some _ _ _ _ _ E). left. exists (RBool b), w'. split; [reflexivity|].
    assert (O' : ok w' = false) by (unfold ok; rewrite OP; reflexivity). constructor; auto; try congruence.
    intros _ X. split; [congruence|]. cbn [bytes_of]. rewrite app_nil_r. exact (EO X).
Qed.

Definition inside (delta : Z) (v : list Z * Z) : Prop := snd v + delta <= zlen (fst v).
Definition reach (delta : Z) (v : list Z * Z) : Z := Z.max (zlen (fst v)) (snd v + Z.max 0 delta).
Definition bytes (c : call) : list Z := match bytes_of c with Some d => d | None => [] end.
Lemma write_at_len c p d : 0 <= p -> zlen (write_at c p d) = if zlen d =? 0 then zlen c else Z.max (zlen c) (p + zlen d).
Proof.
  intros P. destruct d as [|x d]; [reflexivity|]. rewrite zlen_write_at by (exact P || discriminate). rewrite zlen_cons. pose proof (zlen_nonneg d). replace (1 + zlen d =? 0) with false by lia. reflexivity.
Qed.
Lemma does_step delta c w r w' : inv w -> link delta w -> does delta c w r w' -> ok w' = true -> (truncates c = true -> delta = 0) -> (inside delta (view delta w) \/ moves_cursor c = false) -> call_ok c ->
  step delta c r (view delta w) (view delta w').
Proof.
  intros I1 L D O T IN C. destruct (x_ok _ _ _ _ _ D O T) as [_ S1]. destruct c; try exact S1.
  - generalize dependent (view delta w'). intros [c' p'] S1. destruct IN as [IN|IN]; [|discriminate]. destruct S1 as (b & -> & V & Q). unfold step. destruct (view delta w) as [cont p]. unfold seek_to, inside in *. cbn [fst snd] in *.
    destruct ((new_pos =? p) || (new_pos <=? zlen cont)) eqn:E.
    + replace ((new_pos <=? p) || (new_pos <=? zlen cont)) with true in V by lia. injection V as -> -> ->. auto.
    + replace ((new_pos <=? p) || (new_pos <=? zlen cont)) with false in V by lia. injection V as -> -> ->. auto.
  - rewrite (T eq_refl) in *. generalize dependent (view 0 w'). intros [c' p'] S1. destruct IN as [IN|IN]; [|discriminate]. destruct S1 as (b & -> & V). unfold step. destruct (view 0 w) as [cont p]. unfold truncate_to, inside in *. cbn [fst snd] in *.
    destruct (new_size <=? zlen cont) eqn:E.
    + rewrite orb_true_r in V. injection V as -> -> ->. split; [reflexivity|]. f_equal. unfold set_size. rewrite zeros_nonpos by lia. apply app_nil_r.
    + replace (new_size <? p) with false in V by lia. injection V as -> -> ->. auto.
Qed.
Lemma step_bytes delta c r v v' : step delta c r v v' -> moves_cursor c = false -> call_ok c -> v' = (write_at (fst v) (snd v + delta) (bytes c), snd v + zlen (bytes c)).
Proof.
  intros S1 M C. destruct v as [cont p]. unfold bytes.
  destruct c; try discriminate M; try contradiction; cbn [bytes_of fst snd]; destruct S1 as [_ S1]; rewrite S1; try reflexivity; try (rewrite write_at_nil; change (zlen (@nil Z)) with 0; rewrite Z.add_0_r; reflexivity).
  f_equal. unfold zlen. rewrite repeat_length. cbn [call_ok] in C. lia.
Qed.
Lemma does_inside delta c w r w' : inv w -> link delta w -> does delta c w r w' -> ok w' = true -> (truncates c = true -> delta = 0) -> call_ok c -> inside delta (view delta w) -> inside delta (view delta w').
Proof.
  intros I1 L D O T C IN. pose proof (view_pos delta w I1 L) as P. destruct (x_ok _ _ _ _ _ D O T) as [_ S1]. destruct (moves_cursor c) eqn:M.
  - destruct c; try discriminate M.
    + generalize dependent (view delta w'). intros [c' p'] S1. destruct S1 as (b & -> & V & Q). destruct (view delta w) as [cont p]. unfold seek_to, inside in *. cbn [fst snd] in *. destruct ((new_pos <=? p) || (new_pos <=? zlen cont)) eqn:E; injection V as -> -> ->; cbn [fst snd]; lia.
    + rewrite (T eq_refl) in *. generalize dependent (view 0 w'). intros [c' p'] S1. destruct S1 as (b & -> & V). destruct (view 0 w) as [cont p]. unfold truncate_to, inside in *. cbn [fst snd] in *. cbn [call_ok] in C.
      destruct ((new_size <? p) || (new_size <=? zlen cont)) eqn:E; injection V as -> -> ->; cbn [fst snd]; rewrite ?zlen_set_size by lia; lia.
  - pose proof (does_step _ _ _ _ _ I1 L D O T (or_intror M) C) as S2. rewrite (step_bytes _ _ _ _ _ S2 M C). unfold inside in *. cbn [fst snd]. rewrite write_at_len by exact P.
    destruct (zlen (bytes c) =? 0) eqn:E; lia.
Qed.
Lemma does_reach delta c w r w' : inv w -> link delta w -> does delta c w r w' -> ok w' = true -> (truncates c = true -> delta = 0) -> call_ok c -> reach delta (view delta w') <= reach delta (view delta w) + zlen (bytes c).
Proof.
  intros I1 L D O T C. pose proof (view_pos delta w I1 L) as P. pose proof (zlen_nonneg (bytes c)) as B. destruct (x_ok _ _ _ _ _ D O T) as [_ S1]. destruct (moves_cursor c) eqn:M.
  - destruct c; try discriminate M.
    + generalize dependent (view delta w'). intros [c' p'] S1. destruct S1 as (b & -> & V & Q). destruct (view delta w) as [cont p]. unfold seek_to, reach in *. cbn [fst snd] in *. destruct ((new_pos <=? p) || (new_pos <=? zlen cont)) eqn:E; injection V as -> -> ->; cbn [fst snd]; lia.
    + rewrite (T eq_refl) in *. generalize dependent (view 0 w'). intros [c' p'] S1. destruct S1 as (b & -> & V). destruct (view 0 w) as [cont p]. unfold truncate_to, reach in *. cbn [fst snd] in *. cbn [call_ok] in C.
      destruct ((new_size <? p) || (new_size <=? zlen cont)) eqn:E; injection V as -> -> ->; cbn [fst snd]; rewrite ?zlen_set_size by lia; lia.
  - pose proof (does_step _ _ _ _ _ I1 L D O T (or_intror M) C) as S2. rewrite (step_bytes _ _ _ _ _ S2 M C). unfold reach in *. cbn [fst snd]. rewrite write_at_len by exact P.
    destruct (zlen (bytes c) =? 0) eqn:E; lia.
Qed.

Lemma run_cons c calls w : run (c :: calls) w = match exec c w with Some (r, w1) => match run calls w1 with Some (rs, w2) => Some (r :: rs, w2) | None => None end | None => None end.
Proof. cbn [run]. unfold bind. destruct (exec c w) as [[r w1]|]; [|reflexivity]. destruct (run calls w1) as [[rs w2]|]; reflexivity. Qed.
Lemma run_app a b w : run (a ++ b) w = match run a w with Some (rs, w1) => match run b w1 with Some (rs2, w2) => Some (rs ++ rs2, w2) | None => None end | None => None end.
Proof.
  revert w. induction a as [|c a IH]; intros w.
  - cbn [app run]. unfold ret. destruct (run b w) as [[rs2 w2]|]; reflexivity.
  - cbn [app]. rewrite !run_cons. destruct (exec c w) as [[r w1]|]; [|reflexivity]. rewrite IH. destruct (run a w1) as [[rs w2]|]; [|reflexivity]. destruct (run b w2) as [[rs2 w3]|]; reflexivity.
Qed.
Lemma run_dead calls : forall w rs w', inv w -> ok w = false -> Forall call_ok calls -> run calls w = Some (rs, w') -> inv w' /\ ok w' = false /\ file w' = file w.
Proof.
  induction calls as [|c calls IH]; intros w rs w' I1 O C R; [cbv [run ret] in R; injection R as <- <-; auto|].
  inversion C as [|? ? C1 C2]; subst. rewrite run_cons in R. destruct (exec_dead c w I1 O C1) as [(r & w1 & E & I2 & O2 & F2 & _)|(E & _)]; rewrite E in R; [|discriminate].
  destruct (run calls w1) as [[rs1 w2]|] eqn:R1; [|discriminate]. injection R as <- <-. destruct (IH w1 rs1 w2 I2 O2 C2 R1) as (I3 & O3 & F3). split; [exact I3|]. split; [exact O3|congruence].
Qed.
(** Every history of calls after which the writer is good is a history of a file with a cursor. *)
Lemma run_ok delta calls : forall w rs w', inv w -> ok w = true -> link delta w -> Forall call_ok calls -> Forall (fun c => truncates c = true -> delta = 0) calls ->
  (inside delta (view delta w) \/ Forall (fun c => moves_cursor c = false) calls) -> run calls w = Some (rs, w') -> ok w' = true ->
  inv w' /\ link delta w' /\ steps delta calls rs (view delta w) (view delta w') /\ (match calls with [] => True | _ => match last calls CFail with CFlush _ => file w' = fst (view delta w') | _ => True end end).
Proof.
  induction calls as [|c calls IH]; intros w rs w' I1 O L C T IN R O'; [cbv [run ret] in R; injection R as <- <-; split; [exact I1|split; [exact L|split; [reflexivity|exact Logic.I]]]|].
  inversion C as [|? ? C1 C2]; subst. inversion T as [|? ? T1 T2]; subst. rewrite run_cons in R. destruct (exec_ok delta c w I1 O L C1) as [(r & w1 & E & D)|(E & _)]; rewrite E in R; [|discriminate].
  destruct (run calls w1) as [[rs1 w2]|] eqn:R1; [|discriminate]. injection R as <- <-. pose proof (x_inv _ _ _ _ _ D) as I2. destruct (ok w1) eqn:O1.
  2:{ destruct (run_dead calls w1 rs1 w2 I2 O1 C2 R1) as (_ & X & _). congruence. }
  destruct (x_ok _ _ _ _ _ D O1 T1) as [L1 _].
  assert (S1 : step delta c r (view delta w) (view delta w1)) by (apply (does_step delta c w r w1); auto; destruct IN as [IN|IN]; [left; exact IN|right; inversion IN; assumption]).
  assert (IN1 : inside delta (view delta w1) \/ Forall (fun c => moves_cursor c = false) calls) by (destruct IN as [IN|IN]; [left; apply (does_inside delta c w r w1); auto|right; inversion IN; assumption]).
  destruct (IH w1 rs1 w2 I2 O1 L1 C2 T2 IN1 R1 O') as (I3 & L3 & S3 & FL). split; [exact I3|]. split; [exact L3|]. split; [exists (view delta w1); split; assumption|].
  destruct calls as [|c2 calls]; [|exact FL]. cbv [run ret] in R1. injection R1 as <- <-. cbn [last]. pose proof (x_flush _ _ _ _ _ D O1) as X. destruct c; auto.
Qed.
(** No assertion fails. *)
Lemma run_safe calls : forall known failed w, inv w -> (ok w = true -> exists delta, link delta w) -> Forall call_ok calls -> careful known failed calls ->
  (known = true -> ok w = true -> w_random w <> None \/ nofail w) -> (failed = false -> ok w = false -> w_written w = 0) -> run calls w <> None.
Proof.
  induction calls as [|c calls IH]; intros known failed w I1 LK C CA K F; [discriminate|]. destruct CA as [CA1 CA2]. inversion C as [|? ? C1 C2]; subst. rewrite run_cons. destruct (ok w) eqn:O.
  - destruct (LK eq_refl) as [delta L]. destruct (exec_ok delta c w I1 O L C1) as [(r & w1 & E & D)|(E & (p & ->) & X & Y)].
    2:{ destruct CA1 as [CA1 _]. destruct (K CA1 eq_refl); contradiction. }
    rewrite E. pose proof (IH _ _ w1 (x_inv _ _ _ _ _ D) (x_link _ _ _ _ _ D) C2 CA2) as H. destruct (run calls w1) as [[rs w2]|]; [discriminate|]. intros _. apply H; [| |reflexivity].
    + intros KN O1. destruct (x_random _ _ _ _ _ D O1) as [R1 R2]. apply orb_prop in KN as [KN|KN]; [|left; destruct c; try discriminate; exact R2].
      destruct (K KN eq_refl) as [R3|NF]; [left; exact (R1 R3)|right]. destruct c; try (apply (x_nofail _ _ _ _ _ D NF); discriminate).
      exfalso. clear - D O1 L. destruct (x_ok _ _ _ _ _ D O1) as [_ X]; [discriminate|]. unfold step in X. destruct (view delta w). exact X.
    + intros FA O1. apply orb_false_elim in FA as [FA FC]. apply (x_dead _ _ _ _ _ D O1). intros ->. discriminate.
  - destruct (exec_dead c w I1 O C1) as [(r & w1 & E & I2 & O2 & F2 & W2)|(E & W & p & ->)].
    2:{ destruct CA1 as [_ CA1]. specialize (F CA1 eq_refl). contradiction. }
    rewrite E. pose proof (IH _ _ w1 I2 ltac:(congruence) C2 CA2) as H. destruct (run calls w1) as [[rs w2]|]; [discriminate|]. intros _. apply H; [congruence| |reflexivity].
    intros FA _. apply orb_false_elim in FA as [FA _]. auto.
Qed.
(** Without failures of system calls and with positions within range, the writer stays good. *)
Definition may_fail (c : call) : bool := match c with CFail | CClose => true | _ => false end.
Lemma run_live delta calls : forall w, inv w -> ok w = true -> link delta w -> Forall call_ok calls -> Forall (fun c => truncates c = true -> delta = 0) calls ->
  Forall (fun c => may_fail c = false) calls -> Forall (fun c => match c with CSeek _ | CSize => seekable w | _ => True end) calls -> nofail w -> fits delta w -> reach delta (view delta w) + zlen (all_bytes calls) <= kMax ->
  exists rs w', run calls w = Some (rs, w') /\ inv w' /\ ok w' = true /\ link delta w' /\ nofail w' /\ fits delta w'.
Proof.
  induction calls as [|c calls IH]; intros w I1 O L C T MF SK NF FT RE; [exists [], w; split; [reflexivity|auto 10]|].
  inversion C as [|? ? C1 C2]; subst. inversion T as [|? ? T1 T2]; subst. inversion MF as [|? ? MF1 MF2]; subst. inversion SK as [|? ? SK1 SK2]; subst. cbn [all_bytes] in RE. rewrite zlen_app in RE. fold (bytes c) in RE.
  destruct (exec_ok delta c w I1 O L C1) as [(r & w1 & E & D)|(_ & _ & _ & X)]; [|contradiction]. pose proof (zlen_nonneg (all_bytes calls)) as A0. pose proof (zlen_nonneg (bytes c)) as B0.
  assert (N1 : c <> CFail) by (intros ->; discriminate). assert (N2 : c <> CClose) by (intros ->; discriminate).
  destruct (x_live _ _ _ _ _ D N1 N2 SK1 NF FT) as [O1 FT1]; [fold (bytes c); unfold reach in RE; lia|exact T1|]. destruct (x_ok _ _ _ _ _ D O1 T1) as [L1 _]. destruct (x_nofail _ _ _ _ _ D NF N2) as [NF1 SE].
  pose proof (does_reach delta c w r w1 I1 L D O1 T1 C1) as RE1.
  destruct (IH w1 (x_inv _ _ _ _ _ D) O1 L1 C2 T2 MF2) as (rs & w2 & R & G); auto; [|lia|].
  - clear - SK2 SE. eapply Forall_impl; [|exact SK2]. intros c. destruct c; auto.
  - exists (r :: rs), w2. rewrite run_cons, E, R. split; [reflexivity|exact G].
Qed.
(** Sequential writing: even if a system call fails, what is in the file is a prefix of what was written. *)
Lemma run_eof delta calls : forall w rs w', inv w -> ok w = true -> link delta w -> eof delta w -> Forall call_ok calls -> Forall (fun c => moves_cursor c = false) calls ->
  run calls w = Some (rs, w') -> (exists t, fst (view delta w) ++ all_bytes calls = file w' ++ t) /\ zlen (file w) <= zlen (file w').
Proof.
  induction calls as [|c calls IH]; intros w rs w' I1 O L EO C MC R.
  - cbv [run ret] in R. injection R as <- <-. rewrite (proj1 (view_eof delta w I1 EO)). cbn [all_bytes]. rewrite app_nil_r. split; [eexists; reflexivity|apply Z.le_refl].
  - inversion C as [|? ? C1 C2]; subst. inversion MC as [|? ? MC1 MC2]; subst. rewrite run_cons in R. destruct (exec_ok delta c w I1 O L C1) as [(r & w1 & E & D)|(E & _)]; rewrite E in R; [|discriminate].
    destruct (run calls w1) as [[rs1 w2]|] eqn:R1; [|discriminate]. injection R as <- <-. destruct (x_eof _ _ _ _ _ D MC1 EO) as (E1 & (t & T) & Z1). fold (bytes c) in T. cbn [all_bytes]. fold (bytes c).
    assert (T1 : truncates c = true -> delta = 0) by (intros X; destruct c; discriminate). pose proof (x_inv _ _ _ _ _ D) as I2. destruct (ok w1) eqn:O1.
    + destruct (x_ok _ _ _ _ _ D O1 T1) as [L1 _]. destruct (IH w1 rs1 w2 I2 O1 L1 (E1 eq_refl) C2 MC2 R1) as ((t2 & T2) & Z2).
      pose proof (does_step _ _ _ _ _ I1 L D O1 T1 (or_intror MC1) C1) as S2. rewrite (step_bytes _ _ _ _ _ S2 MC1 C1) in T2. cbn [fst] in T2.
      destruct (view_eof delta w I1 EO) as [V1 V2]. rewrite V2, V1, write_at_end in T2. rewrite V1. split; [exists t2; rewrite app_assoc; exact T2|lia].
    + destruct (run_dead calls w1 rs1 w2 I2 O1 C2 R1) as (_ & _ & F). rewrite F. split; [exists (t ++ all_bytes calls); rewrite !app_assoc, T; reflexivity|exact Z1].
Qed.

(** The constructor *)
Lemma new_writer_ok f o a i own : fd_ok f -> options_ok o -> option_ok a -> option_ok i ->
  let w := new_writer f o a i own in
  inv w /\ w_written w = 0 /\ file w = f_content f /\ w_cur w = 0 /\ w_buf w = [] /\ w_open w = true /\
  (ok w = true -> link (file_pos f i - pos w) w /\ view (file_pos f i - pos w) w = (f_content f, pos w) /\ fits (file_pos f i - pos w) w /\
     (a <> None \/ i <> None \/ f_append f = true -> w_random w <> None)) /\
  (Forall (fun n => 0 < n) (f_calls f) -> nofail w /\
     ((a = None \/ i = None /\ match a with Some p => p <= kMax | None => True end) -> match i with Some p => f_append f = false /\ p <= kMax | None => True end ->
        ok w = true /\ pos w = match a with Some p => p | None => file_pos f i end /\ (a = None -> f_append f = false -> seekable w))).
Proof.
  intros [F1 F2] OO A1 A2. cbv zeta. remember (new_writer f o a i own) as w eqn:W.
  pose proof (zlen_nonneg (f_content f)) as Z0. unfold kMax in *.
  assert (SZ : forall p, write_sizer_ok (ws_BeginRun p (new_write_sizer o))) by (intros p; split; [exact OO|cbn; lia]).
  assert (SZ0 : write_sizer_ok (new_write_sizer o)) by (split; [exact OO|cbn; lia]).
  assert (NW : forall (P : Prop), (forall X : ok w = true, P) -> ok w = true -> P) by auto.
  unfold option_ok in *.
  assert (TAC : forall (g : fd) fl p s ind rnd,
    w = {| w_fd := g; w_failed := fl; w_open := true; w_start_pos := p; w_buf := []; w_cur := 0; w_lim := 0; w_written := 0; w_sizer := s; w_independent := ind; w_random := rnd; w_owning := own |} ->
    0 <= p <= 2 ^ 63 - 1 -> write_sizer_ok s -> ws_base_pos s <= p -> f_content g = f_content f ->
    f_append g = f_append f ->
    (fl = false -> (ind = true -> f_append f = false /\ file_pos f i = p) /\ (ind = false -> i = None) /\
      (ind = false -> f_append f = false -> f_pos g = f_pos f) /\ (rnd <> Some false -> file_pos f i = p /\ f_append f = false) /\ 0 <= file_pos f i <= 2 ^ 63 - 1 /\ (a <> None \/ i <> None \/ f_append f = true -> rnd <> None)) ->
    (Forall (fun n => 0 < n) (f_calls f) -> Forall (fun n => 0 < n) (f_calls g) /\
      ((a = None \/ i = None /\ match a with Some p => p <= 2 ^ 63 - 1 | None => True end) -> match i with Some p => f_append f = false /\ p <= 2 ^ 63 - 1 | None => True end ->
        fl = false /\ p = match a with Some p => p | None => file_pos f i end /\ (a = None -> f_append f = false -> rnd <> Some false))) ->
    inv w /\ w_written w = 0 /\ file w = f_content f /\ w_cur w = 0 /\ w_buf w = [] /\ w_open w = true /\
    (ok w = true -> link (file_pos f i - pos w) w /\ view (file_pos f i - pos w) w = (f_content f, pos w) /\ fits (file_pos f i - pos w) w /\
     (a <> None \/ i <> None \/ f_append f = true -> w_random w <> None)) /\
    (Forall (fun n => 0 < n) (f_calls f) -> nofail w /\
     ((a = None \/ i = None /\ match a with Some p => p <= 2 ^ 63 - 1 | None => True end) -> match i with Some p => f_append f = false /\ p <= 2 ^ 63 - 1 | None => True end ->
        ok w = true /\ pos w = match a with Some p => p | None => file_pos f i end /\ (a = None -> f_append f = false -> seekable w)))).
  { clear W. intros g fl p s ind rnd -> PR S1 S2 GC GA OKF NFF. unfold pos, ok. ws.
    split; [constructor; unfold used, kMaxFdPosition, ok; ws; auto; try lia|]. { change (zlen (@nil Z)) with 0. lia. } { rewrite GC. lia. }
    split; [reflexivity|]. split; [exact GC|]. do 3 (split; [reflexivity|]). rewrite Z.add_0_r. split.
    - destruct fl; [discriminate|]. intros _. destruct (OKF eq_refl) as (K1 & K2 & K3 & K4 & K5 & K6).
      split; [|split; [|split]].
      + constructor; ws.
        * lia.
        * intros X. destruct (K1 X). rewrite GA. split; [lia|assumption].
        * intros X Y. rewrite GA in Y. rewrite GC. rewrite (K2 X). unfold file_pos. rewrite Y. lia.
        * intros X Y. rewrite GA in Y. rewrite (K3 X Y), (K2 X). unfold file_pos. rewrite Y. lia.
        * intros X. rewrite GA. destruct (K4 X). split; [lia|assumption].
      + unfold view, data, used. ws. rewrite GC. replace (ztake (Z.max 0 0) (@nil Z)) with (@nil Z) by (unfold ztake; rewrite firstn_nil; reflexivity). rewrite write_at_nil. f_equal. lia.
      + unfold fits, used, kMaxFdPosition. ws. lia.
      + exact K6.
    - intros NF. destruct (NFF NF) as [N1 N2]. split; [exact N1|]. intros X Y. destruct (N2 X Y) as (-> & -> & SK). split; [reflexivity|]. split; [reflexivity|]. exact SK. }
  assert (FP : 0 <= file_pos f None <= 2 ^ 63 - 1) by (unfold file_pos; destruct (f_append f); lia).
  unfold new_writer in W. destruct a as [ap|], i as [ip|].
  - eapply TAC; [exact W|ws; lia|exact SZ0|cbn; lia|reflexivity|reflexivity|discriminate|]. ws. intros NF. split; [exact NF|]. intros [X|[X _]]; discriminate.
  - destruct (kMaxFdPosition <? ap) eqn:E; unfold kMaxFdPosition in E.
    + eapply TAC; [exact W|ws; lia|exact SZ0|cbn; lia|reflexivity|reflexivity|discriminate|]. ws. intros NF. split; [exact NF|]. intros [X|[_ X]]; [discriminate|lia].
    + eapply TAC; [exact W|ws; lia|apply SZ|cbn; lia|reflexivity|reflexivity| |].
      * ws. intros _. split; [discriminate|]. split; [reflexivity|]. split; [reflexivity|]. split; [congruence|]. split; [exact FP|discriminate].
      * ws. intros NF. split; [exact NF|]. intros _ _. split; [reflexivity|]. split; [reflexivity|discriminate].
  - destruct (f_append f) eqn:AP; [|destruct (kMaxFdPosition <? ip) eqn:E; unfold kMaxFdPosition in E].
    + eapply TAC; [exact W|ws; lia|exact SZ0|cbn; lia|reflexivity|exact AP|discriminate|]. ws. intros NF. split; [exact NF|]. intros _ [X _]. discriminate.
    + eapply TAC; [exact W|ws; lia|exact SZ0|cbn; lia|reflexivity|exact AP|discriminate|]. ws. intros NF. split; [exact NF|]. intros _ [_ X]. lia.
    + eapply TAC; [exact W|ws; lia|apply SZ|cbn; lia|reflexivity|exact AP| |].
      * ws. intros _. cbn [file_pos]. split; [auto|]. split; [discriminate|]. split; [discriminate|]. split; [auto|]. split; [lia|discriminate].
      * ws. intros NF. split; [exact NF|]. intros _ _. split; [reflexivity|]. split; [reflexivity|discriminate].
  - destruct (f_append f) eqn:AP.
    + unfold sys_seek_end, sys_seek in W. destruct (next_call_spec f) as (n & g & E & GC & GP & GA & GN). rewrite E in W. destruct (n <=? 0) eqn:N.
      * eapply TAC; [exact W|ws; lia|exact SZ0|cbn; lia|exact GC|congruence| |].
        -- ws. intros _. split; [discriminate|]. split; [reflexivity|]. split; [congruence|]. split; [congruence|]. split; [exact FP|discriminate].
        -- ws. intros NF. destruct (GN NF). lia.
      * eapply TAC; [exact W| |apply SZ|cbn; lia|exact GC|cbn [f_append]; congruence| |].
        -- ws. lia.
        -- ws. intros _. split; [discriminate|]. split; [reflexivity|]. split; [congruence|]. cbn [f_append]. rewrite GA, AP. split; [congruence|]. split; [exact FP|discriminate].
        -- ws. intros NF. destruct (GN NF) as [_ N2]. split; [exact N2|]. intros _ _. split; [reflexivity|]. cbn [f_pos]. split; [unfold file_pos; rewrite AP; reflexivity|congruence].
    + unfold sys_tell in W. destruct (next_call_spec f) as (n & g & E & GC & GP & GA & GN). rewrite E in W. destruct (n <=? 0) eqn:N.
      * eapply TAC; [exact W|ws; lia|exact SZ0|cbn; lia|exact GC|congruence| |].
        -- ws. intros _. split; [discriminate|]. split; [reflexivity|]. split; [congruence|]. split; [congruence|]. split; [exact FP|discriminate].
        -- ws. intros NF. destruct (GN NF). lia.
      * eapply TAC; [exact W|ws; lia|apply SZ|cbn; lia|exact GC|congruence| |].
        -- ws. intros _. split; [discriminate|]. split; [reflexivity|]. split; [congruence|]. rewrite GA, AP. split; [intros _; unfold file_pos; rewrite AP; auto|]. split; [exact FP|].
           intros [X|[X|X]]; congruence.
        -- ws. intros NF. destruct (GN NF) as [_ N2]. split; [exact N2|]. intros _ _. split; [reflexivity|]. split; [unfold file_pos; rewrite AP; exact GP|intros _ _; rewrite GA, AP; discriminate].
Qed.

Lemma run_inv calls rs w w1 d : Forall call_ok calls -> run calls w = Some (rs, w1) -> inv w -> ok w = true -> link d w -> inv w1.
Proof.
  intros C. revert rs w w1 d. induction C as [|c calls C1 C2 IH]; intros rs w w1 d R I1 O L; [cbv [run ret] in R; injection R as <- <-; exact I1|].
  rewrite run_cons in R. destruct (exec_ok d c w I1 O L C1) as [(r & w2 & E & D)|(E & _)]; rewrite E in R; [|discriminate]. destruct (run calls w2) as [[rs2 w3]|] eqn:R2; [|discriminate]. injection R as <- <-.
  destruct (ok w2) eqn:O2; [|apply (run_dead calls w2 rs2 w3 (x_inv _ _ _ _ _ D) O2 C2 R2)]. destruct (x_link _ _ _ _ _ D O2) as [d2 L2]. exact (IH rs2 w2 w3 d2 R2 (x_inv _ _ _ _ _ D) O2 L2).
Qed.
(** Histories which start from the constructor *)
Section New.
  Context (f : fd) (o : BufferOptions) (assumed independent : option Z) (owning : bool).
  Context (F : fd_ok f) (OO : options_valid o) (A : option_ok assumed) (IP : option_ok independent).
  Let w0 := new_writer f o assumed independent owning.
  Let shift := file_pos f independent - pos w0.

  Lemma new_history calls rs w : Forall call_ok calls -> Forall (fun c => truncates c = true -> shift = 0) calls ->
    (file_pos f independent <= zlen (f_content f) \/ Forall (fun c => moves_cursor c = false) calls) -> run calls w0 = Some (rs, w) -> ok w = true ->
    inv w /\ link shift w /\ steps shift calls rs (f_content f, pos w0) (view shift w) /\
    match calls with [] => True | _ => match last calls CFail with CFlush _ => file w = fst (view shift w) | _ => True end end.
  Proof.
    intros C T IN R O. pose proof (new_writer_ok f o assumed independent owning F OO A IP) as NW. cbv zeta in NW. fold w0 in NW. fold shift in NW. destruct NW as (I1 & _ & _ & _ & _ & _ & K & _). destruct (ok w0) eqn:O0.
    - destruct (K eq_refl) as (L & V & _). rewrite <- V. apply run_ok; auto. rewrite V. destruct IN as [IN|IN]; [left|right; exact IN]. unfold inside. cbn [fst snd]. unfold shift. lia.
    - destruct (run_dead calls w0 rs w I1 O0 C R) as (_ & X & _). congruence.
  Qed.
  Lemma new_close calls rs w : Forall call_ok calls -> Forall (fun c => truncates c = true -> shift = 0) calls -> Forall (fun c => c <> CClose) calls ->
    (file_pos f independent <= zlen (f_content f) \/ Forall (fun c => moves_cursor c = false) calls) -> run (calls ++ [CClose]) w0 = Some (rs ++ [RBool true], w) ->
    exists v, steps shift calls rs (f_content f, pos w0) v /\ file w = fst v /\ pos w = snd v.
  Proof.
    intros C T NC IN R. rewrite run_app in R. destruct (run calls w0) as [[rs1 w1]|] eqn:R1; [|discriminate]. rewrite run_cons in R.
    destruct (exec CClose w1) as [[r w2]|] eqn:E; [|discriminate]. cbv [run ret] in R. injection R as R2 ->. apply app_inj_tail in R2 as [-> ->].
    pose proof (new_writer_ok f o assumed independent owning F OO A IP) as NW. cbv zeta in NW. fold w0 in NW. fold shift in NW. destruct NW as (I1 & _ & _ & _ & _ & OP & K & _).
    assert (OP1 : w_open w1 = true) by (rewrite (keeps_run calls NC _ _ _ R1); exact OP).
    destruct (ok w1) eqn:O1.
    - destruct (new_history calls rs w1 C T IN R1 O1) as (I2 & L2 & S2 & _). exists (view shift w1). split; [exact S2|]. destruct (Close_ok shift w1 I2 O1 L2) as (b & w3 & E3 & I3 & OP3 & _ & _ & V & _).
      unfold exec in E. rewrite (bind_some _ _ _ _ _ E3) in E. injection E as -> ->. destruct (V eq_refl) as [V1 V2]. split; [exact V1|]. unfold pos. pose proof (i_notok _ I3) as Z1.
      assert (O3 : ok w = false) by (unfold ok; rewrite OP3; reflexivity).
      specialize (Z1 O3). pose proof (i_cur _ I3). lia.
    - exfalso. assert (I2 : inv w1 /\ ok w1 = false).
      { destruct (ok w0) eqn:O0; [|destruct (run_dead calls w0 rs w1 I1 O0 C R1) as (X & Y & _); auto]. split; [|exact O1]. destruct (K eq_refl) as (L & _). exact (run_inv calls _ _ _ _ C R1 I1 O0 L). }
      destruct I2 as [I2 _]. destruct (dead_Close w1 I2 O1 OP1) as (w3 & E3 & _). unfold exec in E. rewrite (bind_some _ _ _ _ _ E3) in E. discriminate.
  Qed.
  Lemma new_safe known calls : Forall call_ok calls -> careful known false calls ->
    (known = true -> assumed <> None \/ independent <> None \/ f_append f = true \/ calls_succeed f) -> run calls w0 <> None.
  Proof.
    intros C CA K. pose proof (new_writer_ok f o assumed independent owning F OO A IP) as NW. cbv zeta in NW. fold w0 in NW. fold shift in NW. destruct NW as (I1 & W & _ & _ & _ & _ & L & N).
    apply (run_safe calls known false); auto.
    - intros O. exists shift. apply (L O).
    - intros KN O. destruct (L O) as (_ & _ & _ & R). destruct (K KN) as [X|[X|[X|X]]]; auto. right. apply (N X).
  Qed.
  Lemma new_live calls : Forall call_ok calls -> Forall (fun c => truncates c = true -> shift = 0) calls -> Forall (fun c => may_fail c = false) calls ->
    (assumed = None /\ f_append f = false \/ Forall (fun c => match c with CSeek _ | CSize => False | _ => True end) calls) -> calls_succeed f ->
    (assumed = None \/ independent = None /\ match assumed with Some p => p <= kMax | None => True end) -> match independent with Some p => f_append f = false /\ p <= kMax | None => True end ->
    Z.max (zlen (f_content f)) (Z.max (pos w0) (file_pos f independent)) + zlen (all_bytes calls) <= kMax ->
    exists rs w, run calls w0 = Some (rs, w) /\ ok w = true /\ exists w', Close w = Some (true, w').
  Proof.
    intros C T MF SK CS V1 V2 RE. pose proof (new_writer_ok f o assumed independent owning F OO A IP) as NW. cbv zeta in NW. fold w0 in NW. fold shift in NW. destruct NW as (I1 & W & _ & _ & _ & _ & L & N).
    destruct (N CS) as (NF & N2). destruct (N2 V1 V2) as (O & P & SE). destruct (L O) as (L1 & V & FT & _).
    destruct (run_live shift calls w0) as (rs & w & R & I2 & O2 & L2 & NF2 & FT2); auto.
    - destruct SK as [[X Y]|X]; [apply Forall_forall; intros c _; destruct c; auto|]. eapply Forall_impl; [|exact X]. intros c. destruct c; auto; contradiction.
    - rewrite V. unfold reach. cbn [fst snd]. unfold shift. lia.
    - exists rs, w. split; [exact R|]. split; [exact O2|]. destruct (Close_ok shift w I2 O2 L2) as (b & w3 & E3 & _ & _ & _ & _ & _ & _ & B). exists w3. rewrite <- (B NF2 FT2). exact E3.
  Qed.
  Lemma new_prefix calls rs w : Forall call_ok calls -> Forall (fun c => moves_cursor c = false) calls -> file_pos f independent = zlen (f_content f) -> run calls w0 = Some (rs, w) ->
    exists n, file w = f_content f ++ ztake n (all_bytes calls).
  Proof.
    intros C M E R. pose proof (new_writer_ok f o assumed independent owning F OO A IP) as NW. cbv zeta in NW. fold w0 in NW. fold shift in NW. destruct NW as (I1 & W & FI & CU & BU & _ & L & N). destruct (ok w0) eqn:O.
    - destruct (L eq_refl) as (L1 & V & _). assert (EO : eof shift w0). { split; [exact W|]. rewrite FI. unfold shift, pos. rewrite CU. lia. }
      destruct (run_eof shift calls w0 rs w I1 O L1 EO C M R) as ((t & T) & Z1). rewrite V in T. cbn [fst] in T. rewrite FI in Z1.
      exists (zlen (file w) - zlen (f_content f)). assert (X : file w = ztake (zlen (file w)) (f_content f ++ all_bytes calls)) by (rewrite T, ztake_app_exact; reflexivity).
      rewrite X at 1. unfold ztake. rewrite firstn_app. f_equal; [apply firstn_all2; unfold zlen in *; lia|]. f_equal. unfold zlen in *. lia.
    - destruct (run_dead calls w0 rs w I1 O C R) as (_ & _ & X). exists 0. rewrite X, FI. unfold ztake. cbn [firstn Z.to_nat]. rewrite app_nil_r. reflexivity.
  Qed.
End New.
