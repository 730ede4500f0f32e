(** Histories of calls of the limiting writer. *)
From Verif Require Import Base.Bytes Spec.PosixFile Model.BufferSizer Model.BufferedWriter.
From Verif Require Import Proof.PosixProof Proof.WriterLemmas Proof.WriterSteps Proof.WriterCalls Proof.WriterDead Proof.WriterSeeks Proof.WriterMore Proof.WriterKeep Proof.WriterRun.
From Verif Require Import Model.LimitingWriter Spec.LimitingWriterSpec Proof.LimWriterLemmas Proof.LimWriterRel Proof.LimWriterCalls Proof.LimWriterMore Proof.LimWriterOther Proof.LimWriterRest Proof.LimWriterRun.
Import BufferedWriter(writer, call).
Import BufferedWriterSpec(bytes_of, call_ok, fd_ok, options_valid, option_ok, file_pos, calls_succeed).
Notation file w := (f_content (w_fd w)).
Notation kMax := kMaxFdPosition.

Section S.
  Variables (delta : Z) (random : bool).
  Notation rel := (rel delta).
  Notation live := (live delta random).
  Record St (reliable : Prop) (s : state) (l : limiter) : Prop := {
    t_safe : safe l; t_ok : a_ok s = lok l;
    t_good : a_known s = true -> lok l = true -> rel s l /\ (reliable -> live l);
    t_bad : a_known s = true -> lok l = false -> fin delta (a_content s) (a_pos s) (l_dest l) /\ (reliable -> finlive delta (l_dest l)) }.
  Lemma St_unknown reliable s l : safe l -> St reliable (unknown (lok l) s) l.
  Proof. intros SA. constructor; cbn [unknown a_ok a_known]; auto; discriminate. Qed.
  Lemma history_ok calls : Forall lcall_ok calls -> forall reliable s l, St reliable s l ->
    lhistory delta (l_exact l) (l_owning l) random reliable calls s (file (l_dest l)) (observe_run calls l).
  Proof.
    induction 1 as [|c calls C _ IH]; intros reliable s l [SA TO TG TB]; cbn [lhistory observe_run]; [reflexivity|]. intros RQ.
    destruct (lok l) eqn:K.
    - destruct (a_known s) eqn:KN.
      + destruct (TG eq_refl eq_refl) as [R LV]. pose proof (r_good _ _ _ R) as G. destruct (exec_good delta random c l G C) as (r & l' & E & SA' & [OE OO] & D). rewrite E. specialize (D s R RQ). rewrite <- OE, <- OO.
        destruct D as [(s' & ST & [NO NK NR NF])|(R1 & R2 & R3 & R4)].
        * exists s'. split.
          -- unfold call_spec. cbn [observe q_ok q_result q_closed q_file]. rewrite TO. split; [auto|]. split; [exact NO|]. split; [exact NK|]. intros _. left. rewrite OE, OO. split; [exact ST|].
             intros KN'. specialize (NR KN'). specialize (NF KN'). split; cbn [observe q_ok q_pos q_file q_dest_pos q_closed].
             ++ intros K'. destruct (NR K') as (R' & _ & FL). split; [exact (rel_end _ _ _ R')|]. rewrite <- ?OO in *. exact FL.
             ++ intros K'. destruct (NF K') as (F & FLV & LI). split; [intros v; apply (closing_fin _ _ _ _ _ F)|]. split; [intros [RE RO]; apply closing_live with (1 := F), FLV; auto|exact LI].
          -- apply IH. constructor; auto.
             ++ intros KN' K'. destruct (NR KN' K') as (R' & LV' & _). split; [exact R'|]. intros [RE RO]. auto.
             ++ intros KN' K'. destruct (NF KN' K') as (F & FLV & _). split; [exact F|]. intros [RE RO]. auto.
        * exists (unknown (lok l') s). split.
          -- unfold call_spec. cbn [observe q_ok q_result q_closed q_file unknown a_ok a_known]. rewrite TO. split; [auto|]. split; [reflexivity|]. split; [discriminate|]. intros _. right. split; [exact R1|]. split; [exact R2|]. split; [exact R3|].
             intros (RE & RO & MF). apply R4. auto.
          -- apply IH, St_unknown, SA'.
      + destruct (proj1 SA K) as [d G]. destruct (exec_good d random c l G C) as (r & l' & E & SA' & [OE OO] & _). rewrite E, <- OE, <- OO.
        exists (unknown (lok l') s). split; [|apply IH, St_unknown, SA'].
        unfold call_spec. cbn [observe q_ok q_result q_closed q_file unknown a_ok a_known]. rewrite TO, KN. split; [auto|]. split; [reflexivity|]. split; discriminate.
    - pose proof (proj2 SA K) as B. destruct (exec_bad c l B C) as (r & l' & E & D).
      { destruct c as [c| | | |]; auto. destruct c; auto. cbn [required] in RQ. destruct (l_owning l && negb (l_exact l)); [|reflexivity]. rewrite TO in RQ. discriminate (RQ eq_refl). }
      rewrite E. pose proof (b_ok _ (e_bad _ _ _ _ D)) as K'. destruct (e_opts _ _ _ _ D) as [OE OO]. rewrite <- OE, <- OO. exists s. split.
      + unfold call_spec. cbn [observe q_ok q_result q_closed q_file]. rewrite TO, K'. split; [discriminate|]. split; [reflexivity|]. split; [auto|]. intros KN. destruct (TB KN eq_refl) as [F FL]. destruct (e_fin _ _ _ _ D _ _ _ F) as [F' FL'].
        split; [reflexivity|]. split; [exact (e_file _ _ _ _ D)|]. split; [exact (e_bytes _ _ _ _ D)|]. split; [rewrite OO; exact (e_flush _ _ _ _ D)|]. split; [intros v; apply (closing_fin _ _ _ _ _ F')|].
        intros RE. apply closing_live with (1 := F'). auto.
      + apply IH. constructor; [apply bad_safe, (e_bad _ _ _ _ D)|congruence|congruence|]. intros KN _. destruct (TB KN eq_refl) as [F FL]. destruct (e_fin _ _ _ _ D _ _ _ F) as [F' FL']. split; [exact F'|]. intros [RE _]. auto.
  Qed.
End S.

(** A new limiting writer *)
Lemma accept_initial delta content pos m exact b : pos <= m ->
  accept delta [] m (initial content pos NoLimit exact b) =
  {| a_content := content; a_pos := pos; a_excess := []; a_limit := m; a_high := pos; a_ok := b; a_known := pos <=? kMaxPosition |}.
Proof.
  intros H. unfold accept, initial. cbn [a_content a_pos a_excess a_limit a_high a_ok a_known app]. rewrite ztake_nil, zdrop_nil, write_at_nil. change (zlen (@nil Z)) with 0. rewrite Z.add_0_r, !Z.max_id, Z.min_id. reflexivity.
Qed.
Lemma new_ok delta random w content pos o exact owning : inv w -> ok w = true -> link delta w -> view delta w = (content, pos) -> w_written w = 0 -> (w_random w <> None \/ nofail w) -> limit_option_ok o ->
  exists l, new_limiter w o exact owning = Some l /\ l_exact l = exact /\ l_owning l = owning /\ file (l_dest l) = file w /\
    (pos <= wanted pos o -> lok l = negb (exact && (kMaxPosition <? wanted pos o))) /\
    St delta random (nofail w /\ fits delta w /\ (random = true -> seekable w)) (initial content pos o exact (lok l)) l.
Proof.
  intros I1 O L1 V W RA LO. unfold new_limiter, Initialize. set (l0 := {| l_dest := w |}). unfold bind at 1. unfold get at 1. cbv beta iota.
  assert (H : exists w1, (if l_owning l0 && l_exact l0 then
       match o with
       | NoLimit => ret tt
       | MaxPos p => dest_pos <- on_dest BufferedWriter.get_pos; on_dest (BufferedWriter.SetWriteSizeHint (Some (Z.max 0 (p - dest_pos))))
       | MaxLength n => on_dest (BufferedWriter.SetWriteSizeHint (Some n))
       end
     else ret tt) l0 = Some (tt, set_dest w1 l0) /\ inv w1 /\ (w1 = w \/ exists z, w1 = set_sizer z w)).
  { assert (ID : set_dest w l0 = l0) by reflexivity. destruct (l_owning l0 && l_exact l0); [|exists w; rewrite ID; auto].
    destruct o as [|p|n]; [exists w; rewrite ID; auto| |].
    - rewrite (lbind_on_dest _ _ l0 _ _ (get_pos_ok w I1)). rewrite ID. match goal with |- context [BufferedWriter.SetWriteSizeHint ?x] => set (hh := x) end. destruct (set_hint_ok hh w I1) as [E I2].
      eexists. split; [unfold on_dest; change (l_dest l0) with w; rewrite E; reflexivity|]. split; [exact I2|]. right. eexists. reflexivity.
    - match goal with |- context [BufferedWriter.SetWriteSizeHint ?x] => set (hh := x) end. destruct (set_hint_ok hh w I1) as [E I2].
      eexists. split; [unfold on_dest; change (l_dest l0) with w; rewrite E; reflexivity|]. split; [exact I2|]. right. eexists. reflexivity. }
  destruct H as (w1 & H & I2 & SZ). rewrite (lbind_some _ _ _ _ _ H).
  assert (P : ok w1 = true /\ link delta w1 /\ view delta w1 = (content, pos) /\ w_written w1 = 0 /\ (w_random w1 <> None \/ nofail w1) /\ file w1 = file w /\ (nofail w -> nofail w1) /\ (fits delta w -> fits delta w1) /\ (seekable w -> seekable w1)).
  { destruct SZ as [-> |[z ->]]; [tauto|]. destruct (moves_nil_view _ _ _ _ (moves_sizer True delta w z I1 O L1 I2) O) as [L2 V2]. rewrite V2. split; [exact O|]. split; [exact L2|]. split; [exact V|]. split; [exact W|]. split; [exact RA|]. split; [reflexivity|]. split; [auto|]. split; auto. }
  clear H SZ. destruct P as (O' & L' & V' & W' & RA' & FI & NF & FT & SK).
  unfold bind at 1. unfold get at 1. cbv beta iota. unfold bind at 1. unfold modify at 1. cbv beta iota. set (l1 := set_buffer _ _ _ _ _). unfold bind at 1. change (l_dest (set_dest w1 l0)) with w1. rewrite O'. unfold ret at 1. cbv beta iota.
  assert (FU : full l1 = w1) by (unfold full, l1, l0; lcbn; apply set_buf_id).
  pose proof kMaxPosition_value as KV. pose proof (i_start _ I2) as IS. pose proof (i_cur _ I2) as IC. pose proof (i_lim _ I2) as IL.
  pose proof (f_equal snd V') as V2. unfold view in V2. cbn [snd] in V2. assert (PM : 0 <= pos <= kMaxPosition) by (clear - V2 IS IC IL KV; lia).
  assert (CU : cutw l1 = w1).
  { unfold cutw, l1, l0. lcbn. rewrite Z.min_l by (clear - PM V2; lia). apply set_buf_id. }
  assert (G : good delta l1).
  { constructor; rewrite ?FU; auto; unfold l1, l0; lcbn; auto; try reflexivity; clear - IS IC IL KV; lia. }
  assert (R : rel delta (initial content pos NoLimit exact true) l1).
  { constructor; cbn [initial a_content a_pos a_excess a_limit a_high a_ok a_known]; rewrite ?Z.min_id; auto.
    - rewrite FU, V', write_at_nil. change (zlen (@nil Z)) with 0. rewrite Z.add_0_r. reflexivity.
    - rewrite CU. exact V'.
    - lia.
    - lia.
    - congruence.
    - lia. }
  assert (LV : nofail w /\ fits delta w /\ (random = true -> seekable w) -> live delta random l1).
  { intros (A & B & C). split; [exact (NF A)|]. split; [rewrite FU; exact (FT B)|]. intros X. exact (SK (C X)). }
  assert (RO : forall c, bytes c = [] -> fits delta w -> room delta c (initial content pos NoLimit exact true)).
  { intros c BY F. unfold room, end_pos. rewrite BY. cbn [initial a_pos a_excess]. change (zlen (@nil Z)) with 0. specialize (FT F). unfold fits, used in FT. rewrite W' in FT. clear - FT V2 IC. lia. }
  assert (SET : forall c, is_limit c = true -> lcall_ok c -> exists l', lexec c l1 = Some (RUnit, l') /\ safe l' /\ opts l1 l' /\ exists s', lstep delta exact owning c (initial content pos NoLimit exact true) RUnit s' /\
     after delta random c (initial content pos NoLimit exact true) s' l1 l').
  { intros c IL1 CO. destruct (exec_good delta random c l1 G CO) as (r & l' & E & SA & OPT & D). assert (r = RUnit) as ->.
    { destruct c; try discriminate IL1; cbn [lexec] in E; unfold bind, ret in E; match type of E with match ?x with _ => _ end = _ => destruct x as [[? ?]|]; [|discriminate]; injection E as <- _ end; reflexivity. }
    exists l'. split; [exact E|]. split; [exact SA|]. split; [exact OPT|]. destruct (D _ R) as [X|([X|X] & _)]; [destruct c; try discriminate IL1; exact Logic.I|exact X|discriminate|discriminate]. }
  assert (FILE : forall c l' r, is_limit c = true -> lexec c l1 = Some (r, l') -> file (l_dest l') = file w).
  { intros c l' r IL1 E. rewrite <- FI. change w1 with (l_dest l1).
    assert (X : forall m l2 u, set_max_pos m l1 = Some (u, l2) -> file (l_dest l2) = file (l_dest l1)).
    { intros m l2 u. unfold set_max_pos. unfold bind at 1. unfold modify at 1. cbv beta iota. unfold bind at 1. unfold get at 1. cbv beta iota. destruct (m <? _).
      - rewrite (lbind_some _ _ _ _ _ (FailLimitExceeded_ok (set_max m l1) I2)). unfold ret. intros Q. injection Q as _ <-. reflexivity.
      - unfold ret. intros Q. injection Q as _ <-. reflexivity. }
    destruct c; try discriminate IL1; cbn [lexec] in E; unfold bind at 1 in E.
    - destruct (set_max_pos max_pos l1) as [[u l2]|] eqn:Q; [|discriminate]. unfold ret in E. injection E as _ <-. exact (X _ _ _ Q).
    - destruct (set_max_length max_length l1) as [[u l2]|] eqn:Q; [|discriminate]. unfold ret in E. injection E as _ <-. unfold set_max_length in Q. rewrite (lbind_some _ _ _ _ _ (good_get_lpos _ _ G)) in Q. unfold bind at 1 in Q. unfold get at 1 in Q. cbv beta iota in Q.
      destruct (_ <? max_length) eqn:EM; [|exact (X _ _ _ Q)]. change (l_exact l1) with exact in Q. destruct exact.
      + destruct (Fail_good delta l1 G) as (l3 & E3 & _ & _ & D3 & _). rewrite lbind_bind, (lbind_some _ _ _ _ _ E3) in Q. cbv [bind ret modify] in Q. injection Q as _ <-. lcbn. rewrite D3, CU. reflexivity.
      + cbv [bind ret modify] in Q. injection Q as _ <-. reflexivity.
    - cbv [clear_limit bind ret modify] in E. injection E as _ <-. reflexivity. }
  assert (FIN : forall c l' s' s2, is_limit c = true -> opts l1 l' -> lexec c l1 = Some (RUnit, l') -> safe l' -> after delta random c (initial content pos NoLimit exact true) s' l1 l' ->
     (a_known s2 = true -> s2 = s') -> a_ok s2 = lok l' -> l_exact l' = exact /\ l_owning l' = owning /\ file (l_dest l') = file w /\ St delta random (nofail w /\ fits delta w /\ (random = true -> seekable w)) s2 l').
  { intros c l' s' s2 IL1 [OE OO] E SA [NO NK NR NFI] EQ OK2. split; [exact OE|]. split; [exact OO|]. split; [exact (FILE _ _ _ IL1 E)|]. assert (BY : bytes c = []) by (destruct c; try discriminate IL1; reflexivity). constructor; auto.
    - intros KN K. specialize (EQ KN). subst s2. destruct (NR KN K) as (R' & LV' & _). split; [exact R'|]. intros X. apply LV'; [exact (LV X)|]. apply RO; tauto.
    - intros KN K. specialize (EQ KN). subst s2. destruct (NFI KN K) as (F & LV' & _). split; [exact F|]. intros X. apply LV'; [exact (LV X)|]. apply RO; tauto. }
  assert (PB : (pos <=? kMaxPosition) = true) by lia.
  destruct o as [|p|n].
  - unfold ret. exists l1. split; [reflexivity|]. split; [reflexivity|]. split; [reflexivity|]. split; [exact FI|]. split; [intros _; cbn [wanted]; rewrite Z.ltb_irrefl, andb_false_r; reflexivity|]. constructor; [exact (good_safe _ _ G)|reflexivity|auto|discriminate].
  - destruct (SET (LSetMaxPos p) eq_refl LO) as (l' & E & SA & OPT & s' & ST & AF). pose proof E as E0. cbn [lexec] in E. unfold bind in E. destruct (set_max_pos p l1) as [[[] l2]|]; [|discriminate]. unfold ret in E. injection E as ->. exists l'. split; [reflexivity|].
    cbn [lstep] in ST. destruct ST as [_ ST]. unfold set_limit in ST. change (a_high (initial content pos NoLimit exact true)) with pos in ST. cbn [limit_option_ok] in LO. cbn [wanted].
    assert (MN : Z.min p kMaxPosition = p) by lia. destruct (pos <=? p) eqn:Q.
    + rewrite accept_initial in ST by lia. rewrite PB in ST. assert (K : lok l' = true) by (rewrite <- (n_ok _ _ _ _ _ _ _ AF), ST; reflexivity).
      destruct (FIN (LSetMaxPos p) l' s' (initial content pos (MaxPos p) exact (lok l')) eq_refl OPT E0 SA AF) as (A1 & A2 & A3 & A4).
      * intros _. rewrite ST. unfold initial. cbn [wanted]. rewrite MN, K, Q. reflexivity.
      * reflexivity.
      * split; [exact A1|]. split; [exact A2|]. split; [exact A3|]. split; [|exact A4]. intros _. rewrite K. replace (kMaxPosition <? p) with false by lia. rewrite andb_false_r. reflexivity.
    + destruct (FIN (LSetMaxPos p) l' s' (initial content pos (MaxPos p) exact (lok l')) eq_refl OPT E0 SA AF) as (A1 & A2 & A3 & A4).
      * unfold initial. cbn [a_known wanted]. rewrite MN, Q. discriminate.
      * reflexivity.
      * split; [exact A1|]. split; [exact A2|]. split; [exact A3|]. split; [lia|exact A4].
  - destruct (SET (LSetMaxLength n) eq_refl LO) as (l' & E & SA & OPT & s' & ST & AF). pose proof E as E0. cbn [lexec] in E. unfold bind in E. destruct (set_max_length n l1) as [[[] l2]|]; [|discriminate]. unfold ret in E. injection E as ->. exists l'. split; [reflexivity|].
    cbn [lstep] in ST. destruct ST as [_ ST]. unfold end_pos in ST. change (a_excess (initial content pos NoLimit exact true)) with (@nil Z) in ST. change (zlen (@nil Z)) with 0 in ST. change (a_pos (initial content pos NoLimit exact true)) with pos in ST. rewrite Z.add_0_r in ST. cbn [limit_option_ok] in LO. cbn [wanted].
    assert (PQ : pos <=? Z.min (pos + n) kMaxPosition = true) by lia.
    assert (X : s' = initial content pos (MaxLength n) exact (lok l') /\ lok l' = negb (exact && (kMaxPosition <? pos + n))).
    { pose proof (n_ok _ _ _ _ _ _ _ AF) as NO. unfold set_limit in ST. change (a_high (initial content pos NoLimit exact true)) with pos in ST. rewrite PB in ST. destruct (kMaxPosition <? pos + n) eqn:Q.
      - destruct exact.
        + rewrite ST in NO. cbn in NO. rewrite ST, <- NO. split; [|reflexivity]. unfold exceeded, initial. cbn [a_content a_pos a_excess a_limit a_high a_ok a_known wanted]. rewrite PQ, Z.min_id, PB. f_equal. lia.
        + rewrite accept_initial, PB in ST by lia. rewrite ST in NO. cbn in NO. rewrite ST, <- NO. split; [|reflexivity]. unfold initial. cbn [wanted]. rewrite PQ. f_equal. lia.
      - replace (pos <=? pos + n) with true in ST by lia. rewrite accept_initial, PB in ST by lia. rewrite ST in NO. cbn in NO. rewrite ST, <- NO, andb_false_r. split; [|reflexivity]. unfold initial. cbn [wanted]. rewrite PQ. f_equal. lia. }
    destruct X as [X K]. destruct (FIN (LSetMaxLength n) l' s' (initial content pos (MaxLength n) exact (lok l')) eq_refl OPT E0 SA AF) as (A1 & A2 & A3 & A4); [intros _; symmetry; exact X|reflexivity|].
    split; [exact A1|]. split; [exact A2|]. split; [exact A3|]. split; [|exact A4]. intros _. exact K.
Qed.

(** The original writer after sequential calls *)
Ltac rt := let H := fresh in intros ? ? ? H; cbv [BufferedWriter.ret] in H; injection H as _ <-; auto.
Lemma exec_wk c : sequential c = true -> wk (BufferedWriter.exec c).
Proof.
  intros M. destruct c; try discriminate M; unfold exec; (apply wk_bind; [|intros; try solve [rt]]).
  - apply wk_Write.
  - unfold BufferedWriter.WriteChar. apply wk_bind; [apply wk_Push|intros b]. destruct b; cbn [negb]; cbv iota; [apply wk_bind; [apply wk_put|intros]|]; rt.
  - apply wk_External.
  - apply wk_Chain.
  - apply wk_Fill.
  - apply wk_Push.
  - destruct a; cbn [negb]; cbv iota; [apply wk_bind; [apply wk_put|intros]|]; rt.
  - apply wk_zr, zr_Flush.
  - apply wk_zr, zr_Size.
  - apply wk_hint.
  - apply wk_SRA.
Qed.
Lemma run_keep delta calls : Forall call_ok calls -> Forall (fun c => sequential c = true) calls -> forall w rs w', inv w -> ok w = true -> link delta w -> w_written w = 0 -> run calls w = Some (rs, w') -> ok w' = true ->
  w_written w' = 0 /\ (nofail w -> nofail w') /\ (nofail w -> seekable w -> seekable w') /\
  (w_random w <> None \/ Exists (fun c => c = CSupportsRandomAccess \/ c = CSize) calls -> w_random w' <> None).
Proof.
  intros C. induction C as [|c calls C1 C2 IH]; intros SQ w rs w' I1 O L W R O'.
  - cbv [run BufferedWriter.ret] in R. injection R as _ <-. split; [exact W|]. split; [auto|]. split; [auto|]. intros [X|X]; [exact X|inversion X].
  - inversion SQ as [|? ? SQ1 SQ2]; subst. rewrite run_cons in R. destruct (exec_ok delta c w I1 O L C1) as [(r & w1 & E & D)|(E & _)]; rewrite E in R; [|discriminate].
    destruct (run calls w1) as [[rs1 w2]|] eqn:R1; [|discriminate]. injection R as _ <-. pose proof (x_inv _ _ _ _ _ D) as I2. destruct (ok w1) eqn:O1.
    2:{ destruct (run_dead calls w1 rs1 w2 I2 O1 C2 R1) as (_ & X & _). congruence. }
    destruct (x_ok _ _ _ _ _ D O1) as [L1 _]; [destruct c; discriminate|].
    assert (W1 : w_written w1 = 0) by (destruct (exec_wk c SQ1 _ _ _ E) as [X|[X _]]; congruence).
    destruct (IH SQ2 w1 rs1 w2 I2 O1 L1 W1 R1 O') as (A1 & A2 & A3 & A4). assert (NC : c <> CClose) by (intros ->; discriminate).
    split; [exact A1|]. split; [intros N; apply A2, (x_nofail _ _ _ _ _ D N NC)|]. split; [intros N S1; destruct (x_nofail _ _ _ _ _ D N NC) as [N' S2]; apply A3; auto|].
    destruct (x_random _ _ _ _ _ D O1) as [X1 X2]. intros [X|X]; [apply A4; left; apply X1, X|]. inversion X as [? ? Y|? ? Y]; subst; [|apply A4; right; exact Y]. apply A4. left. destruct Y as [-> | ->]; exact X2.
Qed.

Section New.
  Context (f : fd) (bo : BufferOptions) (assumed independent : option Z) (own : bool).
  Context (F : fd_ok f) (OO : options_valid bo) (A : option_ok assumed) (IP : option_ok independent).
  Let w0 := new_writer f bo assumed independent own.
  Let shift := file_pos f independent - BufferedWriterSpec.pos w0.
  Lemma new_limiter_history pre rs w o exact owning calls : Forall call_ok pre -> Forall (fun c => sequential c = true) pre -> run pre w0 = Some (rs, w) -> ok w = true ->
    (assumed <> None \/ independent <> None \/ f_append f = true \/ calls_succeed f \/ Exists (fun c => c = CSupportsRandomAccess \/ c = CSize) pre) ->
    limit_option_ok o -> Forall lcall_ok calls ->
    exists content pos l, BufferedWriterSpec.steps shift pre rs (f_content f, BufferedWriterSpec.pos w0) (content, pos) /\ 0 <= pos + shift /\ new_limiter w o exact owning = Some l /\
      (pos <= wanted pos o -> lok l = negb (exact && (kMaxPosition <? wanted pos o))) /\
      lhistory shift exact owning (match assumed with None => negb (f_append f) | Some _ => false end) (calls_succeed f /\ pos + Z.max 0 shift <= kMax) calls (initial content pos o exact (lok l)) (file w) (observe_run calls l).
  Proof.
    intros C SQ R O RN LO LC. pose proof (new_writer_ok f bo assumed independent own F OO A IP) as NW. cbv zeta in NW. fold w0 in NW. fold shift in NW. destruct NW as (I0 & W0 & _ & _ & _ & _ & K & N).
    assert (O0 : ok w0 = true) by (destruct (ok w0) eqn:O0; [reflexivity|]; destruct (run_dead pre w0 rs w I0 O0 C R) as (_ & X & _); congruence).
    destruct (K O0) as (L0 & V0 & FT0 & RA0).
    assert (MC : Forall (fun c => BufferedWriterSpec.moves_cursor c = false) pre) by (eapply Forall_impl; [|exact SQ]; intros c; destruct c; auto; discriminate).
    assert (TR : Forall (fun c => BufferedWriterSpec.truncates c = true -> shift = 0) pre) by (eapply Forall_impl; [|exact SQ]; intros c; destruct c; discriminate).
    destruct (new_history f bo assumed independent own F OO A IP pre rs w C TR (or_intror MC) R O) as (I1 & L1 & S1 & _). fold w0 in L1, S1. fold shift in L1, S1.
    destruct (run_keep shift pre C SQ w0 rs w I0 O0 L0 W0 R O) as (W1 & NF & SK & RA).
    set (random := match assumed with None => negb (f_append f) | Some _ => false end).
    destruct (new_ok shift random w (fst (view shift w)) (snd (view shift w)) o exact owning I1 O L1 (surjective_pairing _) W1) as (l & E & LE & LOW & FI & OK & ST); [|exact LO|].
    { destruct RN as [X|[X|[X|[X|X]]]]; [left; apply RA; left; apply RA0; auto..| |left; apply RA; right; exact X]. right. apply NF, (N X). }
    exists (fst (view shift w)), (snd (view shift w)), l. rewrite <- surjective_pairing. split; [exact S1|]. split; [exact (view_pos shift w I1 L1)|]. split; [exact E|]. split; [exact OK|]. rewrite <- FI, <- LE at 1. rewrite <- LOW at 1. subst exact owning.
    apply history_ok with (1 := LC). destruct ST as [T1 T2 T3 T4].
    assert (LV : calls_succeed f /\ snd (view shift w) + Z.max 0 shift <= kMax -> nofail w /\ fits shift w /\ (random = true -> seekable w)).
    { intros [CS RM]. split; [apply NF, (N CS)|]. split; [unfold fits, used; rewrite W1; cbn [view snd] in RM; pose proof (i_cur _ I1) as IC; clear - RM IC; lia|].
      unfold random. destruct assumed; [discriminate|]. intros AP. destruct (N CS) as [NF0 N2]. apply SK; [exact NF0|]. apply N2; auto; [|destruct (f_append f); [discriminate AP|reflexivity]].
      destruct independent as [p|]; [|exact Logic.I]. split; [destruct (f_append f); [discriminate AP|reflexivity]|]. destruct (Z.le_gt_cases p kMax) as [X|X]; [exact X|exfalso].
      unfold w0, new_writer in O0. destruct (f_append f); [discriminate AP|]. replace (kMax <? p) with true in O0 by lia. discriminate O0. }
    constructor; auto.
    - intros KN KL. destruct (T3 KN KL) as [R1 R2]. auto.
    - intros KN KL. destruct (T4 KN KL) as [R1 R2]. auto.
  Qed.
End New.
