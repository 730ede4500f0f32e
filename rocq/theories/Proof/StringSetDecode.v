(** LinearSortedStringSet::Decode(). *)
From Verif Require Import Base.Bytes Spec.VarintSpec Spec.StringSetSpec Model.Varint Model.StringSet Spec.StringSetCalls Proof.VarintProof Proof.CodecLemmas
  Proof.CommonPrefixProof Proof.StringSetProof Proof.StringSetQuery Proof.StringSetBuild.

Lemma some_pair_inv {A B} (a c : A) (b d : B) : Some (a, b) = Some (c, d) -> a = c /\ b = d.
Proof. intros H. injection H as -> ->. auto. Qed.
Lemma follows_cons last e es : follows last (e :: es) <-> fresh last e = true /\ follows (Some e) es.
Proof.
  unfold follows, fresh, lessb. destruct last as [l|]; [|tauto]. split.
  - intros H. apply increasing_cons in H. destruct H as [H A]. split; [|exact H]. inversion A as [|u v Le _]; subst u v.
    unfold lex_lt in Le. rewrite Le. reflexivity.
  - intros [Fr H]. assert (Le : lex_lt l e) by (unfold lex_lt; destruct (lex_cmp l e); congruence).
    apply increasing_cons. split; [exact H|]. apply increasing_cons in H. destruct H as [_ A]. constructor; [exact Le|].
    eapply Forall_impl; [|exact A]. intros a Ha. apply lex_lt_trans with e; assumption.
Qed.
Lemma not_fresh l e : str_leb e l = negb (fresh (Some l) e).
Proof. unfold str_leb, fresh, lessb. rewrite (lex_cmp_antisym e l). destruct (lex_cmp e l); reflexivity. Qed.

Lemma or_last_cons last e es : or_last last (e :: es) = or_last (Some e) es.
Proof.
  unfold or_last. rewrite last_of_cons. destruct es as [|x es]; [reflexivity|]. rewrite last_of_cons, last_cons_eq. reflexivity.
Qed.

Definition decode_inv (validate : bool) (s : decode_loop_state) (prev : list Z) (last : option (list Z)) : Prop :=
  dl_current_length s = zlen prev /\ (0 < zlen prev -> validate = true -> last = Some prev) /\ (validate = true -> dl_current s = last) /\
  (validate = true -> dl_shared s = [] \/ Some (dl_shared s) = last).
Definition decode_result (validate : bool) (s : decode_loop_state) (prev : list Z) (last : option (list Z)) (rest : list Z)
    (r : decoded decode_loop_state) : Prop :=
  match r with
  | Accept s' => exists es, encodes prev rest es /\ (validate = true -> follows last es) /\ dl_size s' = dl_size s + zlen es /\
      (validate = true -> dl_current s' = or_last last es /\ (dl_shared s' = [] \/ Some (dl_shared s') = or_last last es))
  | Reject => forall es, encodes prev rest es -> (validate = true -> follows last es) -> False
  end.
Lemma decode_step validate s s' prev last e enc p q r : bytes enc -> 0 <= p <= zlen enc ->
  dl_size s' = dl_size s + 1 -> (validate = true -> fresh last e = true) ->
  (forall es, encodes e (zdrop q enc) es -> head enc prev p e es) ->
  (forall e' es, head enc prev p e' es -> e' = e /\ encodes e (zdrop q enc) es) ->
  p <> zlen enc ->
  decode_result validate s' e (Some e) (zdrop q enc) r -> decode_result validate s prev last (zdrop p enc) r.
Proof.
  intros B Hp Sz Fr Mk Un Ne. destruct r as [t|]; cbn [decode_result].
  - intros (es & H & Fo & Sz' & La). exists (e :: es). split; [apply head_encodes; auto|].
    split; [intros V; apply follows_cons; auto|]. rewrite zlen_cons. split; [lia|]. rewrite or_last_cons. exact La.
  - intros No es H Fo. destruct es as [|e' es]; [apply encodes_end in H; lia|]. apply encodes_head in H; auto. destruct H as [_ H].
    apply Un in H. destruct H as [-> H]. apply (No es H). intros V. apply Fo in V. apply follows_cons in V. tauto.
Qed.

Lemma decode_loop_ok enc validate : bytes enc -> zlen enc < 2 ^ 62 -> forall fuel p s prev last,
  0 <= p <= zlen enc -> zlen enc - p < Z.of_nat fuel -> zlen prev <= p -> decode_inv validate s prev last ->
  exists r, decode_loop fuel validate enc p s = Some r /\ decode_result validate s prev last (zdrop p enc) r.
Proof.
  intros B Sh; induction fuel as [|fuel IH]; intros p s prev last Hp F Pp (Cl & Lp & Cu & Sd); [lia|]. cbn [decode_loop].
  pose proof (zlen_nonneg prev) as Np.
  destruct (Z.eqb_spec p (zlen enc)) as [Pe|Pe].
  { exists (Accept s). split; [reflexivity|]. exists []. rewrite Pe, zdrop_all by lia. split; [constructor|].
    split; [unfold follows; destruct last; repeat constructor|]. split; [change (zlen (@nil (list Z))) with 0; lia|].
    intros V. unfold or_last. cbn [last_of rev hd_error]. auto. }
  destruct (read_varint_at enc p) as [[t q]|] eqn:R.
  2: { exists Reject. split; [reflexivity|]. intros es H _. destruct es as [|e' es]; [apply encodes_end in H; lia|].
       apply encodes_head in H; auto. destruct H as [_ [? ? R' | ? ? ? ? R']]; congruence. }
  destruct (read_at_inv _ _ _ _ B Hp R) as (tl & Vt & Dt & Et & Bq & Bt).
  destruct (tag_cases t ltac:(lia)) as [(u & Hu & ->) | (u & Hu & ->)].
  - destruct (tag_even u) as [-> ->].
    destruct (Z.ltb_spec (zlen enc - q) u) as [Lu|Lu].
    { exists Reject. split; [reflexivity|]. intros es H _. destruct es as [|e' es]; [apply encodes_end in H; lia|].
      apply encodes_head in H; auto. destruct H as [_ [q' u' R' | q' r' n' u' R']]; rewrite R in R'; apply some_pair_inv in R' as [E1 E2]; lia. }
    set (e := zslice q u enc). assert (Le : zlen e = u) by (apply zlen_zslice; lia).
    assert (Mk : forall es, encodes e (zdrop (q + u) enc) es -> head enc prev p e es)
      by (intros es H; apply head_unshared with q u; auto; lia).
    assert (Un : forall e' es, head enc prev p e' es -> e' = e /\ encodes e (zdrop (q + u) enc) es).
    { intros e' es [q' u' R' Hq Hu' Hb Le' Sl H | q' r' n' u' R']; rewrite R in R'; apply some_pair_inv in R' as [E1 E2]; [|lia].
      assert (Eu : u' = u) by lia. subst q'. rewrite Eu in Sl, H. fold e in Sl. subst e'. auto. }
    assert (Go : forall s', dl_size s' = dl_size s + 1 -> decode_inv validate s' e (Some e) -> (validate = true -> fresh last e = true) ->
      exists r, decode_loop fuel validate enc (q + u) s' = Some r /\ decode_result validate s prev last (zdrop p enc) r).
    { intros s' Sz Inv Fr. destruct (IH (q + u) s' e (Some e)) as (r & Er & Ok); try assumption; try lia.
      exists r. split; [exact Er|]. apply decode_step with s' e (q + u); auto. }
    destruct validate.
    + unfold view. rewrite guard_true by lia. fold e. specialize (Cu eq_refl). rewrite Cu.
      assert (Ff : fresh last e = negb (match last with Some current => str_leb e current | None => false end)).
      { destruct last as [l|]; [rewrite not_fresh, negb_involutive|]; reflexivity. }
      destruct (match last with Some current => str_leb e current | None => false end).
      * exists Reject. split; [reflexivity|]. intros es H Fo. destruct es as [|e' es]; [apply encodes_end in H; lia|].
        apply encodes_head in H; auto. destruct H as [_ H]. apply Un in H. destruct H as [-> H].
        specialize (Fo eq_refl). apply follows_cons in Fo. rewrite Ff in Fo. destruct Fo as [Fo _]. discriminate.
      * apply Go; [reflexivity | | intros _; exact Ff]. repeat split; cbn; auto.
    + apply Go; [reflexivity | | discriminate]. repeat split; cbn; auto; discriminate.
  - destruct (tag_odd u) as [-> ->].
    destruct (read_varint_at enc q) as [[n1 r]|] eqn:Rs.
    2: { exists Reject. split; [reflexivity|]. intros es H _. destruct es as [|e' es]; [apply encodes_end in H; lia|].
         apply encodes_head in H; auto. destruct H as [_ [q' u' R' | q' r' n' u' R' Rs']]; rewrite R in R'; apply some_pair_inv in R' as [E1 E2]; [lia|].
         subst q'. congruence. }
    destruct (read_at_inv enc q n1 r B ltac:(lia) Rs) as (sl & Vs & Ds & Er & Br & Bn).
    rewrite Cl. destruct (Z.leb_spec (zlen prev) n1) as [Ln|Ln].
    { exists Reject. split; [reflexivity|]. intros es H _. destruct es as [|e' es]; [apply encodes_end in H; lia|].
      apply encodes_head in H; auto. destruct H as [_ [q' u' R' | q' r' n' u' R' Rs']]; rewrite R in R'; apply some_pair_inv in R' as [E1 E2]; [lia|].
      subst q'. rewrite Rs in Rs'. apply some_pair_inv in Rs' as [E3 E4]. lia. }
    rewrite (u64_small (n1 + 1)) by lia.
    destruct (Z.ltb_spec (zlen enc - r) u) as [Lu|Lu].
    { exists Reject. split; [reflexivity|]. intros es H _. destruct es as [|e' es]; [apply encodes_end in H; lia|].
      apply encodes_head in H; auto. destruct H as [_ [q' u' R' | q' r' n' u' R' Rs']]; rewrite R in R'; apply some_pair_inv in R' as [E1 E2]; [lia|].
      subst q'. rewrite Rs in Rs'. apply some_pair_inv in Rs' as [E3 E4]. lia. }
    rewrite (u64_small (n1 + 1 + u)) by lia.
    set (n := n1 + 1). assert (Hn : 1 <= n <= zlen prev) by (subst n; lia).
    set (un := zslice r u enc). assert (Lun : zlen un = u) by (apply zlen_zslice; lia).
    set (e := ztake n prev ++ un). assert (Le : zlen e = n + u) by (subst e; rewrite zlen_app, zlen_ztake; lia).
    assert (Mk : forall es, encodes e (zdrop (r + u) enc) es -> head enc prev p e es).
    { intros es H. apply head_shared with q r n u; auto; try lia. replace (n - 1) with n1 by lia. exact Rs. }
    assert (Un : forall e' es, head enc prev p e' es -> e' = e /\ encodes e (zdrop (r + u) enc) es).
    { intros e' es [q' u' R' | q' r' n' u' R' Rs' Hq Hr Hn' Hu' Hb Le' Ee H]; rewrite R in R'; apply some_pair_inv in R' as [E1 E2]; [lia|].
      assert (Eu : u' = u) by lia. subst q'. rewrite Eu in *. rewrite Rs in Rs'. apply some_pair_inv in Rs' as [E3 E4]. subst r'. assert (n' = n) by lia. subst n'.
      fold un in Ee. fold e in Ee. subst e'. auto. }
    assert (Go : forall s', dl_size s' = dl_size s + 1 -> decode_inv validate s' e (Some e) -> (validate = true -> fresh last e = true) ->
      exists r', decode_loop fuel validate enc (r + u) s' = Some r' /\ decode_result validate s prev last (zdrop p enc) r').
    { intros s' Sz Inv Fr. destruct (IH (r + u) s' e (Some e)) as (r' & Er' & Ok); try assumption; try lia.
      exists r'. split; [exact Er'|]. apply decode_step with s' e (r + u); auto. }
    destruct validate.
    + unfold view at 1. rewrite guard_true by lia. fold un. specialize (Cu eq_refl). specialize (Sd eq_refl).
      specialize (Lp ltac:(lia) eq_refl). subst last. rewrite Cu. rewrite substr_some by lia.
      assert (Ff : fresh (Some prev) e = negb (str_leb un (zdrop n prev))).
      { unfold fresh, lessb, str_leb. rewrite (lex_cmp_antisym (zdrop n prev) un). rewrite <- (ztake_zdrop n prev) at 1. unfold e. rewrite lex_cmp_app_same.
        destruct (lex_cmp (zdrop n prev) un); reflexivity. }
      destruct (str_leb un (zdrop n prev)).
      * exists Reject. split; [reflexivity|]. intros es H Fo. destruct es as [|e' es]; [apply encodes_end in H; lia|].
        apply encodes_head in H; auto. destruct H as [_ H]. apply Un in H. destruct H as [-> H].
        specialize (Fo eq_refl). apply follows_cons in Fo. rewrite Ff in Fo. destruct Fo as [Fo _]. discriminate.
      * assert (Sd' : (if zlen (dl_shared s) =? 0 then
                         match view prev 0 n with Some p' => resize_copy (dl_shared s) (n + u) 0 (p' ++ un) | None => None end
                       else resize_copy (dl_shared s) (n + u) n un) = Some e).
        { destruct (Z.eqb_spec (zlen (dl_shared s)) 0) as [Z0|Z0].
          - unfold view. rewrite guard_true by lia. rewrite resize_copy_ok.
            + unfold zslice. rewrite (zdrop_nonpos 0) by lia. rewrite ztake_nonpos by lia. reflexivity.
            + lia.
            + rewrite zlen_app, zlen_zslice by lia. lia.
          - destruct Sd as [Sd|Sd]; [rewrite Sd in Z0; contradiction Z0; reflexivity|]. injection Sd as Sd. rewrite Sd.
            rewrite resize_copy_ok by lia. reflexivity. }
        cbv zeta in Sd' |- *. rewrite Sd'. apply Go; [reflexivity | | intros _; exact Ff]. repeat split; cbn; auto.
    + apply Go; [reflexivity | | discriminate]. repeat split; cbn; auto; discriminate.
Qed.

Lemma encodes_short enc es : zlen enc < 2 ^ 62 -> set_encoding enc es -> Forall short es.
Proof.
  intros Sh H. apply encodes_length in H. eapply Forall_impl; [|exact H]. cbv beta. intros e He. change (zlen (@nil Z)) with 0 in He. unfold short. lia.
Qed.
Lemma encodes_det enc es es' : bytes enc -> zlen enc < 2 ^ 62 -> set_encoding enc es -> set_encoding enc es' -> es = es'.
Proof.
  intros B Sh H H'. pose proof (Set_elements_ok enc es B H (encodes_short _ _ Sh H)) as E.
  rewrite (Set_elements_ok enc es' B H' (encodes_short _ _ Sh H')) in E. congruence.
Qed.
Lemma ReadVarint_inv src v rest : bytes src -> ReadVarint V64 src = Some (v, rest) ->
  exists t, src = t ++ rest /\ varint_of v t /\ 0 <= v.
Proof.
  intros B H. unfold ReadVarint in H. destruct (ReadVarintArray V64 false src) as [| |w n] eqn:R; try discriminate.
  apply some_pair_inv in H as [-> <-].
  apply (read_varint_exact V64 false src (or_intror eq_refl) B) in R. destruct R as (t & rest & E & V & L & M & Ev & Lt & _).
  exists t. rewrite E at 1. rewrite E, <- L, skipn_app, skipn_all, Nat.sub_diag. cbn [app skipn].
  split; [reflexivity|]. split; [|rewrite Ev; apply base128_nonneg]. repeat split; auto; cbn [vmax V64] in M; lia.
Qed.
Lemma ReadVarint_of src t rest v : bytes src -> src = t ++ rest -> varint_of v t -> ReadVarint V64 src = Some (v, rest).
Proof.
  intros B E V. unfold ReadVarint. destruct V as (V & L & Ev & Lt).
  pose proof (read_varint_exact V64 false src (or_intror eq_refl) B) as (_ & R & _).
  assert (Rd : ReadVarintArray V64 false src = VOk v (length t)).
  { apply R. exists t, rest. repeat split; auto; try (symmetry; exact Ev). discriminate. }
  rewrite Rd, E, skipn_app, skipn_all, Nat.sub_diag. reflexivity.
Qed.

Lemma DecodeImpl_ok validate max state src : bytes src -> zlen src < 2 ^ 62 ->
  exists r, DecodeImpl validate max state src = Some r /\
    forall enc rest state', r = Accept (enc, rest, state') <->
      exists t es, src = t ++ enc ++ rest /\ varint_of (zlen enc) t /\ zlen enc <= max /\ set_encoding enc es /\
        (validate = true -> follows (state_last state) es) /\ state' = state_after validate state es.
Proof.
  intros B Sh. unfold DecodeImpl. destruct (ReadVarint V64 src) as [[n src']|] eqn:R.
  2: { exists Reject. split; [reflexivity|]. intros enc rest state'. split; [discriminate|].
       intros (t & es & E & V & _). rewrite (ReadVarint_of src t (enc ++ rest) _ B E V) in R. discriminate. }
  destruct (ReadVarint_inv _ _ _ B R) as (t & E & V & Nn).
  assert (Ln : forall enc rest t' , src = t' ++ enc ++ rest -> varint_of (zlen enc) t' -> zlen enc = n /\ src' = enc ++ rest).
  { intros enc rest t' E' V'. rewrite (ReadVarint_of src t' (enc ++ rest) _ B E' V') in R. apply some_pair_inv in R as [-> <-]. auto. }
  destruct (Z.ltb_spec max n) as [Lm|Lm].
  { exists Reject. split; [reflexivity|]. intros enc rest state'. split; [discriminate|].
    intros (t' & es & E' & V' & Mx & _). destruct (Ln _ _ _ E' V'). lia. }
  destruct (Z.ltb_spec (zlen src') n) as [Ls|Ls].
  { exists Reject. split; [reflexivity|]. intros enc rest state'. split; [discriminate|].
    intros (t' & es & E' & V' & Mx & _). destruct (Ln _ _ _ E' V') as [<- ->]. rewrite zlen_app in Ls. pose proof (zlen_nonneg rest). lia. }
  set (enc0 := ztake n src'). assert (L0 : zlen enc0 = n) by (unfold enc0; rewrite zlen_ztake; lia).
  assert (B0 : bytes enc0) by (apply bytes_ztake; rewrite E, bytes_app in B; tauto).
  assert (S0 : zlen enc0 < 2 ^ 62) by (rewrite E, zlen_app in Sh; pose proof (zlen_nonneg t); lia).
  assert (Ln' : forall enc rest t' , src = t' ++ enc ++ rest -> varint_of (zlen enc) t' -> enc = enc0 /\ rest = zdrop n src').
  { intros enc rest t' E' V'. destruct (Ln _ _ _ E' V') as [<- ->]. unfold enc0. rewrite ztake_app_exact, zdrop_app_exact. auto. }
  destruct (decode_loop_ok enc0 validate B0 S0 (S (length enc0)) 0
    {| dl_size := 0; dl_current_length := 0; dl_shared := []; dl_current := state_last state |} [] (state_last state)) as (r & Er & Ok).
  { pose proof (zlen_nonneg enc0). lia. }
  { unfold zlen. lia. }
  { change (zlen (@nil Z)) with 0. lia. }
  { repeat split; cbn; auto. change (zlen (@nil Z)) with 0. lia. }
  cbv zeta. unfold state_last in Er at 1. rewrite Er. rewrite (zdrop_nonpos 0) in Ok by lia. destruct r as [s|]; cbn [decode_result] in Ok.
  2: { exists Reject. split; [reflexivity|]. intros enc rest state'. split; [discriminate|].
       intros (t' & es & E' & V' & Mx & H & Fo & _). destruct (Ln' _ _ _ E' V') as [-> ->]. exfalso. exact (Ok es H Fo). }
  destruct Ok as (es & H & Fo & Sz & La). cbn [dl_size] in Sz. rewrite Z.add_0_l in Sz.
  exists (Accept (enc0, zdrop n src', state_after validate state es)). split.
  - destruct state as [d|]; [|reflexivity]. cbn [state_after option_map state_last] in *.
    destruct es as [|e es].
    + rewrite Sz. cbn. unfold or_last. cbn. f_equal. f_equal. f_equal. f_equal. destruct d as [c l]. cbn.
      change (zlen (@nil (list Z))) with 0. rewrite Z.add_0_r. destruct validate; reflexivity.
    + rewrite Sz. destruct (Z.ltb_spec 0 (zlen (e :: es))) as [_|No]; [|rewrite zlen_cons in No; pose proof (zlen_nonneg es); lia].
      destruct validate; [|reflexivity]. destruct (La eq_refl) as [Lc Ls']. rewrite Lc.
      assert (Os : exists x, or_last (ds_last d) (e :: es) = Some x) by (unfold or_last; rewrite last_of_cons; eauto).
      destruct Os as (x & Os). rewrite Os in *.
      destruct (Z.eqb_spec (zlen (dl_shared s)) 0) as [Z0|Z0]; [reflexivity|].
      destruct Ls' as [Ls'|Ls']; [rewrite Ls' in Z0; contradiction Z0; reflexivity|]. rewrite Ls'. reflexivity.
  - intros enc rest state'. split.
    + intros Q. injection Q as <- <- <-. exists t, es. split; [unfold enc0; rewrite ztake_zdrop; exact E|].
      rewrite L0. split; [exact V|]. split; [lia|]. auto.
    + intros (t' & es' & E' & V' & Mx & H' & Fo' & ->). destruct (Ln' _ _ _ E' V') as [-> ->].
      rewrite (encodes_det enc0 es' es B0 S0 H' H). reflexivity.
Qed.

Lemma Encode_ok enc es : bytes enc -> zlen enc < 2 ^ 62 -> set_encoding enc es ->
  bytes (EncodeImpl enc) /\ varint_of (zlen enc) (WriteVarint V64 (zlen enc)) /\ EncodeImpl enc = WriteVarint V64 (zlen enc) ++ enc /\
  EncodedSize enc = zlen (EncodeImpl enc).
Proof.
  intros B Sh H. pose proof (zlen_nonneg enc) as N. destruct (write_varint_of (zlen enc) ltac:(lia)) as [V Bv].
  split; [unfold EncodeImpl; rewrite bytes_app; auto|]. split; [exact V|]. split; [reflexivity|].
  unfold EncodedSize, EncodeImpl. rewrite zlen_app. f_equal.
  destruct (varint64_round_trip false (zlen enc) [] ltac:(lia) bytes_nil) as (_ & L & _). cbv zeta in L. symmetry. exact L.
Qed.
