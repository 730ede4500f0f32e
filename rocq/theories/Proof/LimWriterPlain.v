(** Sequential writing to the limiting writer, from its specification. *)
From Verif Require Import Base.Bytes Spec.PosixFile Model.BufferedWriter Proof.PosixProof.
From Verif Require Import Model.LimitingWriter Spec.LimitingWriterSpec.
Import BufferedWriter(writer, call).
Import BufferedWriterSpec(bytes_of, call_ok).

Section S.
  Variables (shift : Z) (exact owning random : bool) (c0 : list Z) (p0 n : Z).
  Hypotheses (N : 0 <= n) (P : 0 <= p0 + shift).
  Definition content_of (d : list Z) := write_at c0 (p0 + shift) (ztake n d).
  Record pinv (s : state) (d : list Z) : Prop := {
    pi_known : a_known s = true; pi_content : a_content s = content_of d; pi_pos : a_pos s = p0 + zlen (ztake n d);
    pi_ok : a_ok s = true -> a_excess s = zdrop n d /\ a_limit s = p0 + n; pi_bad : a_ok s = false -> n < zlen d /\ a_excess s = [] }.
  Lemma pinv_end s d : pinv s d -> end_pos s <= p0 + zlen d.
  Proof.
    intros [K C PO OK BA]. unfold end_pos. rewrite PO. pose proof (zlen_nonneg d). destruct (a_ok s).
    - destruct (OK eq_refl) as [-> _]. rewrite <- Z.add_assoc, <- zlen_app, ztake_zdrop. lia.
    - destruct (BA eq_refl) as [_ ->]. change (zlen (@nil Z)) with 0. rewrite zlen_ztake. lia.
  Qed.
  Lemma pinv_accept s d e : pinv s d -> a_ok s = true -> pinv (accept shift e (a_limit s) s) (d ++ e).
  Proof.
    intros [K C PO OK BA] O. destruct (OK O) as [EX LI]. pose proof (zlen_nonneg d) as ZD. pose proof (zlen_nonneg e) as ZE. unfold accept. rewrite EX, LI, PO. replace (p0 + n - (p0 + zlen (ztake n d))) with (n - zlen (ztake n d)) by lia.
    assert (A : ztake n d ++ ztake (n - zlen (ztake n d)) (zdrop n d ++ e) = ztake n (d ++ e) /\ zdrop (n - zlen (ztake n d)) (zdrop n d ++ e) = zdrop n (d ++ e)).
    { destruct (Z.le_gt_cases (zlen d) n) as [H|H].
      - rewrite (ztake_all n d), (zdrop_all n d) by lia. cbn [app]. rewrite ztake_app_r, zdrop_app_r by lia. auto.
      - replace (n - zlen (ztake n d)) with 0 by (rewrite zlen_ztake; lia). rewrite (ztake_nonpos 0), (zdrop_nonpos 0), app_nil_r by lia. rewrite ztake_app_l, zdrop_app_l by lia. auto. }
    destruct A as [A1 A2]. constructor; cbn [a_known a_content a_pos a_ok a_excess a_limit]; auto; try congruence.
    - rewrite C. unfold content_of. rewrite <- A1. replace (p0 + zlen (ztake n d) + shift) with (p0 + shift + zlen (ztake n d)) by lia. apply write_at_app. exact P.
    - rewrite <- A1, zlen_app. lia.
  Qed.
  Lemma pinv_exceeded s d : pinv s d -> n < zlen d -> pinv (exceeded s) d.
  Proof. intros [K C PO OK BA] H. constructor; cbn [exceeded a_known a_content a_pos a_ok a_excess a_limit]; auto; discriminate. Qed.
  Lemma pinv_excess s d : pinv s d -> a_ok s = true -> a_excess s <> [] -> n < zlen d.
  Proof. intros I1 O E. destruct (pi_ok _ _ I1 O) as [X _]. destruct (Z.le_gt_cases (zlen d) n) as [H|H]; [|exact H]. rewrite zdrop_all in X by lia. congruence. Qed.
  Lemma pinv_none s d : pinv s d -> a_ok s = true -> a_excess s = [] -> zlen d <= n.
  Proof. intros I1 O E. destruct (pi_ok _ _ I1 O) as [X _]. rewrite E in X. destruct (Z.le_gt_cases (zlen d) n) as [H|H]; [exact H|]. pose proof (f_equal zlen X) as Y. rewrite zlen_zdrop in Y. change (zlen (@nil Z)) with 0 in Y. lia. Qed.

  Definition all_true (d : list Z) : bool := (zlen d <=? n) && negb (exact && (zlen d <? n)).
  Lemma plain_history calls : Forall (fun c => plain c = true) calls -> forall s d file os (reliable : Prop), pinv s d -> reliable -> p0 + zlen (d ++ all_written calls) + Z.max 0 shift <= kMaxFdPosition ->
    lhistory shift exact owning random reliable (calls ++ [LWriter CClose]) s file os ->
    exists os' o, os = os' ++ [o] /\ length os' = length calls /\ q_closed o = Some (content_of (d ++ all_written calls), p0 + zlen (ztake n (d ++ all_written calls))) /\
      (a_ok s = true -> forallb succeeded os = all_true (d ++ all_written calls)).
  Proof.
    induction 1 as [|c calls C CS IH]; intros s d file os reliable I1 RE RM H.
    - cbn [app lhistory] in H. unfold all_written in *. cbn [map concat] in *. rewrite app_nil_r in *. specialize (H Logic.I). destruct os as [|o os]; [contradiction|]. destruct H as (s' & CSP & ->).
      exists [], o. split; [reflexivity|]. split; [reflexivity|]. unfold call_spec in CSP. destruct CSP as (C1 & C2 & C3 & C4). specialize (C4 (pi_known _ _ I1)).
      assert (RO : room shift (LWriter CClose) s) by (unfold room; cbn [bytes bytes_of]; change (zlen (@nil Z)) with 0; pose proof (pinv_end _ _ I1); lia).
      destruct (a_ok s) eqn:O.
      + destruct C4 as [[ST OB]|(_ & _ & _ & X)]; [|exfalso; apply X; split; [exact RE|split; [exact RO|intros []]]]. cbn [lstep bytes_of] in ST. destruct ST as [-> R]. specialize (OB (pi_known _ _ I1)). destruct OB as [_ OB]. cbn [exceeded a_ok] in C2.
        destruct (OB (eq_sym C2)) as (_ & CL & _). cbn [exceeded a_content a_pos] in CL. rewrite (CL (conj RE RO)), (pi_content _ _ I1), (pi_pos _ _ I1). split; [reflexivity|]. intros _. cbn [forallb]. rewrite andb_true_r. unfold succeeded. rewrite R.
        destruct (pi_ok _ _ I1 O) as [EX LI]. unfold all_true. rewrite EX, (pi_pos _ _ I1), LI, zlen_zdrop, zlen_ztake. pose proof (zlen_nonneg d). f_equal; [lia|]. f_equal. f_equal. lia.
      + destruct C4 as (-> & _ & _ & _ & _ & CL). split; [|discriminate]. rewrite (CL RE), (pi_content _ _ I1), (pi_pos _ _ I1). reflexivity.
    - assert (AW : all_written (c :: calls) = bytes c ++ all_written calls) by reflexivity. rewrite AW in *. rewrite app_assoc in *.
      cbn [app lhistory] in H. assert (RQ : required shift exact owning c s) by (destruct c as [c| | | |]; try exact Logic.I; destruct c; try exact Logic.I; discriminate C). specialize (H RQ).
      destruct os as [|o os]; [contradiction|]. destruct H as (s' & CSP & H). unfold call_spec in CSP. destruct CSP as (C1 & C2 & C3 & C4). specialize (C4 (pi_known _ _ I1)).
      assert (RO : room shift c s) by (unfold room; pose proof (pinv_end _ _ I1); rewrite !zlen_app in RM; pose proof (zlen_nonneg (all_written calls)); lia).
      assert (X : pinv s' (d ++ bytes c) /\ (a_ok s = true -> a_ok s' = succeeded o)).
      { destruct (a_ok s) eqn:O.
        - destruct C4 as [[ST _]|(_ & _ & _ & X)].
          2:{ exfalso. apply X. split; [exact RE|]. split; [exact RO|]. destruct c as [c| | | |]; try (intros []; fail); destruct c; try (intros []; fail); discriminate C. }
          assert (SY : forall c1, bytes c1 = [] -> synced (RBool false) s (q_result o) s' (q_result o = RBool true /\ s' = s) -> pinv s' (d ++ bytes c1) /\ (true = true -> a_ok s' = succeeded o)).
          { intros c1 BY Q. rewrite BY, app_nil_r. unfold synced in Q. unfold succeeded. destruct (a_excess s) as [|x e] eqn:EX; destruct Q as [R ->]; rewrite R; [auto|]. split; [|reflexivity]. apply pinv_exceeded; [exact I1|]. apply (pinv_excess _ _ I1 O). congruence. }
          destruct c as [c| | | |]; try discriminate C.
          + destruct (bytes_of c) as [e|] eqn:B; cycle 1.
            { destruct c; try discriminate B; try discriminate C. cbn [lstep bytes_of] in ST. apply SY; [reflexivity|exact ST]. }
            cbn [lstep] in ST. rewrite B in ST. cbv zeta in ST. assert (BY : bytes (LWriter c) = e) by (cbn [bytes]; rewrite B; reflexivity). rewrite BY. unfold succeeded. pose proof (pinv_accept _ _ e I1 O) as I2.
            destruct ST as [(R & ->)|(E & R & ->)]; rewrite R; [auto|]. split; [|reflexivity]. apply pinv_exceeded; [exact I2|]. apply (pinv_excess _ _ I2 O). exact E.
          + cbn [lstep] in ST. apply SY; [reflexivity|exact ST].
        - destruct C4 as (-> & _). split; [|discriminate]. destruct (pi_bad _ _ I1 O) as [ND EX]. destruct I1 as [K CC PO OK BA]. pose proof (zlen_nonneg (bytes c)). constructor; auto.
          + rewrite CC. unfold content_of. rewrite ztake_app_l by lia. reflexivity.
          + rewrite ztake_app_l by lia. exact PO.
          + congruence.
          + intros _. rewrite zlen_app. split; [lia|exact EX]. }
      destruct X as [I2 OK2]. destruct (IH s' (d ++ bytes c) _ os (reliable /\ room shift c s) I2 (conj RE RO) RM H) as (os' & o' & -> & LE & CL & FB). exists (o :: os'), o'. split; [reflexivity|]. split; [cbn [length]; congruence|]. split; [exact CL|].
      intros O. specialize (OK2 O). cbn [forallb]. destruct (succeeded o) eqn:SU; [exact (FB OK2)|]. destruct (pi_bad _ _ I2 OK2) as [Y _]. unfold all_true. rewrite (zlen_app (d ++ bytes c)). pose proof (zlen_nonneg (all_written calls)). replace (_ <=? n) with false by lia. reflexivity.
  Qed.
End S.
