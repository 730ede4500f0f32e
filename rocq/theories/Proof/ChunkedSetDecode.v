(** Serialization of ChunkedSortedStringSet: proofs for C40. *)
From Verif Require Import Base.Bytes Spec.VarintSpec Spec.StringSetSpec Model.Varint Model.StringSet Spec.StringSetCalls Proof.VarintProof Proof.CodecLemmas
  Proof.StringSetProof Proof.StringSetQuery Proof.StringSetBuild Proof.StringSetDecode Model.ChunkedStringSet Spec.ChunkedStringSetSpec
  Proof.ChunkedSetProof Proof.ChunkedSetContains.

Lemma follows_app last a b : follows last (a ++ b) <-> follows last a /\ follows (or_last last a) b.
Proof.
  revert last; induction a as [|e a IH]; intros last; cbn [app].
  - unfold or_last. cbn [last_of rev hd_error]. split; [intros H; split; [|exact H]|tauto]. unfold follows. destruct last; repeat constructor.
  - rewrite !follows_cons, IH, or_last_cons. tauto.
Qed.
Lemma Set_empty_nil enc : Set_empty enc = true <-> enc = [].
Proof. unfold Set_empty. rewrite Z.eqb_eq. split; [destruct enc; [reflexivity|rewrite zlen_cons; pose proof (zlen_nonneg enc); lia] | intros ->; reflexivity]. Qed.
Lemma encoding_nil enc es : set_encoding enc es -> (enc = [] <-> es = []).
Proof.
  intros H. split; [intros -> | intros ->; inversion H; reflexivity].
  pose proof (encodes_count _ _ _ H) as C. change (zlen (@nil Z)) with 0 in C. destruct es as [|e es]; [reflexivity|]. rewrite zlen_cons in C. pose proof (zlen_nonneg es). lia.
Qed.
Lemma c_decode_loop_ok validate max : forall n d src acc, bytes src -> zlen src < 2 ^ 62 ->
  exists r, c_decode_loop n validate max d src acc = Some r /\
    forall chunks rest, r = Accept (chunks, rest) <->
      exists new ess, chunks = acc ++ new /\ length new = n /\ serialized max src new rest /\ chunked (ds_cumulative_size d) new ess /\
        (validate = true -> follows (ds_last d) (concat ess)).
Proof.
  induction n as [|n IH]; intros d src acc B Sh; cbn [c_decode_loop].
  - eexists. split; [reflexivity|]. intros chunks rest. split.
    + intros E. injection E as <- <-. exists [], []. rewrite app_nil_r. repeat split; [constructor|]. intros _. unfold follows. cbn. destruct (ds_last d); repeat constructor.
    + intros (new & ess & -> & L & Se & _). destruct new; [|discriminate]. rewrite app_nil_r. inversion Se; subst. reflexivity.
  - destruct (DecodeImpl_ok validate max (Some d) src B Sh) as (r & E & A). rewrite E. destruct r as [((enc, rest1), st)|].
    + destruct (proj1 (A enc rest1 st) eq_refl) as (t & es & Es & V & Mx & Sen & Fo & St). cbn [state_after option_map state_last] in St, Fo. subst st.
      assert (B2 : bytes enc /\ bytes rest1) by (rewrite Es, !bytes_app in B; tauto). destruct B2 as [Be Br].
      assert (L2 : zlen enc < 2 ^ 62 /\ zlen rest1 < 2 ^ 62).
      { rewrite Es, !zlen_app in Sh. pose proof (zlen_nonneg t). pose proof (zlen_nonneg enc). pose proof (zlen_nonneg rest1). lia. } destruct L2 as [Le Lr].
      assert (Only : forall c new' rest ess0, serialized max src (c :: new') rest -> chunked (ds_cumulative_size d) (c :: new') ess0 ->
         (validate = true -> follows (ds_last d) (concat ess0)) -> c_set c = enc /\ serialized max rest1 new' rest).
      { intros c new' rest ess0 Se Ch Fo0. inversion Se as [|t0 c0 src0 cs0 rest0 V0 M0 Se0 Eq1 Eq2]; subst. destruct ess0 as [|es0 ess0]; [contradiction|].
        cbn [chunked concat] in Ch, Fo0. destruct Ch as ((Bc & Hc & Sc & Nc) & _).
        assert (R : Accept (enc, rest1, Some {| ds_cumulative_size := ds_cumulative_size d + zlen es; ds_last := if validate then or_last (ds_last d) es else ds_last d |})
                  = Accept (c_set c, src0, state_after validate (Some d) es0)).
        { apply A. exists t0, es0. split; [symmetry; assumption|]. split; [exact V0|]. split; [exact M0|]. split; [exact Hc|]. split; [|reflexivity]. intros Va. specialize (Fo0 Va). apply follows_app in Fo0; tauto. }
        injection R as -> -> _. auto. }
      destruct (Set_empty enc) eqn:Em.
      * eexists. split; [reflexivity|]. intros chunks rest. split; [discriminate|]. intros (new & ess & -> & L & Se & Ch & Fo2). exfalso.
        destruct new as [|c new']; [discriminate|]. destruct (Only c new' rest ess Se Ch Fo2) as [Ec _].
        destruct ess as [|es0 ess]; [contradiction|]. destruct Ch as ((_ & Hc & _ & Nc) & _). apply Nc. rewrite <- (encoding_nil _ _ Hc), Ec. apply Set_empty_nil. exact Em.
      * set (d' := {| ds_cumulative_size := ds_cumulative_size d + zlen es; ds_last := if validate then or_last (ds_last d) es else ds_last d |}).
        destruct (IH d' rest1 (acc ++ [{| c_set := enc; c_end := ds_cumulative_size d' |}]) Br Lr) as (r & E2 & A2). exists r. split; [exact E2|].
        intros chunks rest. rewrite A2. split.
        -- intros (new & ess & -> & L & Se & Ch & Fo2). exists ({| c_set := enc; c_end := ds_cumulative_size d' |} :: new), (es :: ess).
           split; [rewrite <- app_assoc; reflexivity|]. split; [cbn; lia|]. split; [rewrite Es; exact (serialized_cons max t {| c_set := enc; c_end := ds_cumulative_size d' |} rest1 new rest V Mx Se)|]. split.
           ++ cbn [chunked c_end]. split; [|split; [reflexivity|exact Ch]]. split; [exact Be|]. split; [exact Sen|]. split; [apply (encodes_short enc); assumption|].
              intros Q. apply (encoding_nil _ _ Sen) in Q. apply Set_empty_nil in Q. congruence.
           ++ intros Va. cbn [concat]. apply follows_app. split; [apply Fo; exact Va|]. specialize (Fo2 Va). cbn [d' ds_last] in Fo2. rewrite Va in Fo2. exact Fo2.
        -- intros (new & ess & -> & L & Se & Ch & Fo2). destruct new as [|c new']; [discriminate|]. destruct (Only c new' rest ess Se Ch Fo2) as [Ec Se'].
           destruct ess as [|es0 ess]; [contradiction|]. destruct Ch as ((_ & Hc & _ & Nc) & En & Ch). rewrite Ec in Hc.
           assert (es0 = es) by (apply (encodes_det enc); assumption). subst es0. exists new', ess. destruct c as [cs ce]. cbn [c_set c_end] in *. subst cs.
           split; [rewrite <- app_assoc; cbn [app]; rewrite En; reflexivity|]. split; [cbn in L; lia|]. split; [exact Se'|]. split; [exact Ch|].
           intros Va. specialize (Fo2 Va). cbn [concat] in Fo2. apply follows_app in Fo2. cbn [d' ds_last]. rewrite Va. tauto.
    + eexists. split; [reflexivity|]. intros chunks rest. split; [discriminate|]. intros (new & ess & -> & L & Se & Ch & Fo2). exfalso.
      destruct new as [|c new']; [discriminate|]. inversion Se as [|t0 c0 src0 cs0 rest0 V0 M0 Se0 Eq1 Eq2]; subst. destruct ess as [|es0 ess]; [contradiction|].
      destruct Ch as ((_ & Hc & _ & Nc) & En & Ch).
      assert (R : Reject = Accept (c_set c, src0, state_after validate (Some d) es0)); [|discriminate].
      apply A. exists t0, es0. split; [reflexivity|]. split; [exact V0|]. split; [exact M0|]. split; [exact Hc|]. split; [|reflexivity]. intros Va. specialize (Fo2 Va). cbn [concat] in Fo2. apply follows_app in Fo2. tauto.
Qed.
Lemma CSet_DecodeImpl_ok validate max_num max src : bytes src -> zlen src < 2 ^ 62 ->
  exists r, CSet_DecodeImpl validate max_num max src = Some r /\
    forall chunks rest, r = Accept (chunks, rest) <->
      exists t body ess, src = t ++ body /\ varint_of (zlen chunks) t /\ zlen chunks <= max_num /\ serialized max body chunks rest /\
        chunked 0 chunks ess /\ (validate = true -> increasing (concat ess)).
Proof.
  intros B Sh. unfold CSet_DecodeImpl. destruct (ReadVarint V64 src) as [(num, body)|] eqn:R.
  - destruct (ReadVarint_inv src num body B R) as (t & Es & V & Nn).
    assert (Inv : forall (chunks : list chunk) t' body', src = t' ++ body' -> varint_of (zlen chunks) t' -> num = zlen chunks /\ body' = body).
    { intros chunks t' body' E' V'. rewrite (ReadVarint_of src t' body' (@zlen chunk chunks) B E' V') in R. apply some_pair_inv in R as [E1 E2]. split; congruence. }
    destruct (Z.ltb_spec max_num num) as [Lt|Ge].
    + eexists. split; [reflexivity|]. intros chunks rest. split; [discriminate|]. intros (t' & body' & ess & E' & V' & M & _). destruct (Inv chunks t' body' E' V'). lia.
    + destruct (c_decode_loop_ok validate max (Z.to_nat num) decode_state_new body []) as (r & E & A).
      { rewrite Es, bytes_app in B. tauto. } { rewrite Es, zlen_app in Sh. pose proof (zlen_nonneg t). lia. }
      exists r. split; [exact E|]. intros chunks rest. rewrite A. split.
      * intros (new & ess & -> & L & Se & Ch & Fo). cbn [app]. assert (Ln : zlen new = num) by (unfold zlen; lia). exists t, body, ess.
        rewrite Ln. split; [exact Es|]. split; [exact V|]. split; [lia|]. split; [exact Se|]. split; [exact Ch | exact Fo].
      * intros (t' & body' & ess & E' & V' & M & Se & Ch & Fo). destruct (Inv chunks t' body' E' V') as [En ->]. exists chunks, ess.
        split; [reflexivity|]. split; [unfold zlen in En; lia|]. split; [exact Se|]. split; [exact Ch | exact Fo].
  - eexists. split; [reflexivity|]. intros chunks rest. split; [discriminate|]. intros (t' & body' & ess & E' & V' & _).
    rewrite (ReadVarint_of src t' body' _ B E' V') in R. discriminate.
Qed.
Lemma encode_serialized max : forall chunks start ess, chunked start chunks ess -> Forall (fun c => zlen (c_set c) <= max /\ zlen (c_set c) < 2 ^ 62) chunks ->
  let enc := concat (map (fun c => EncodeImpl (c_set c)) chunks) in
  bytes enc /\ zlen enc = fold_right Z.add 0 (map (fun c => EncodedSize (c_set c)) chunks) /\ forall rest, serialized max (enc ++ rest) chunks rest.
Proof.
  induction chunks as [|c chunks IH]; intros start [|es ess] Ch F; cbn [chunked map concat fold_right] in *; try contradiction; cbv zeta.
  - split; [constructor|]. split; [reflexivity|]. intros rest. constructor.
  - destruct Ch as ((Bc & Hc & _) & _ & Ch). inversion F as [|u v [M L] F']; subst u v. destruct (IH _ _ Ch F') as (B & Sz & Se). cbv zeta in *.
    destruct (Encode_ok (c_set c) es Bc L Hc) as (Be & V & Ee & Ze). split; [rewrite bytes_app; auto|]. split; [rewrite zlen_app, Sz, Ze; reflexivity|].
    intros rest. rewrite Ee. rewrite <- !app_assoc. constructor; [exact V | exact M | apply Se].
Qed.

Lemma WriteVarint_nonempty v : 1 <= zlen (WriteVarint V64 v).
Proof.
  unfold WriteVarint. destruct (v <? 128); [cbn; lia|]. cbn [V64 vmax write_varint_loop]. rewrite zlen_cons. apply Z.le_trans with (1 := Z.le_refl 1).
  match goal with |- 1 <= 1 + zlen ?l => pose proof (zlen_nonneg l) end || idtac. lia.
Qed.
Lemma encoded_chunks_short max chunks : Forall (fun c => zlen (c_set c) <= max) chunks -> zlen (concat (map (fun c => EncodeImpl (c_set c)) chunks)) < 2 ^ 62 ->
  Forall (fun c => zlen (c_set c) <= max /\ zlen (c_set c) < 2 ^ 62) chunks /\ zlen chunks < 2 ^ 62.
Proof.
  intros M L.
  assert (W : Forall (fun c => zlen (c_set c) < 2 ^ 62) chunks /\ zlen chunks <= zlen (concat (map (fun c => EncodeImpl (c_set c)) chunks))).
  { clear M. induction chunks as [|c chunks IH]; [split; [constructor | cbn; lia]|]. cbn [map concat] in *. rewrite zlen_app in *. rewrite zlen_cons.
    unfold EncodeImpl in L at 1. unfold EncodeImpl at 1. rewrite zlen_app in *. pose proof (WriteVarint_nonempty (zlen (c_set c))). pose proof (zlen_nonneg (c_set c)).
    destruct IH as [F N]; [lia|]. pose proof (zlen_nonneg (concat (map (fun c => EncodeImpl (c_set c)) chunks))). split; [constructor; [lia | exact F] | lia]. }
  destruct W as [F N]. split; [|lia]. apply Forall_forall. intros c Hc. split; [apply (proj1 (Forall_forall _ _) M c Hc) | apply (proj1 (Forall_forall _ _) F c Hc)].
Qed.
