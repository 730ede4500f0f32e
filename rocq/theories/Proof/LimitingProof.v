(** Histories of the limiting reader. *)
From Verif Require Import Base.Bytes Model.BufferSizer.
From Verif Require Import Model.BufferedReader Spec.BufferedReaderSpec Proof.ReaderLemmas Proof.ReaderSteps Proof.ReaderSeeks Proof.ReaderRun Proof.ReaderProof.
From Verif Require Import Model.LimitingReader Spec.LimitingReaderSpec Proof.LimitingLemmas Proof.LimitingSteps Proof.LimitingSeeks Proof.LimitingRun Proof.LimitingOptions.
Import BufferedWriter(f_content, f_pos, kMaxFdPosition).

Section S.
  Variables (content : list Z) (shift : Z) (random independent owning : bool).
  Notation inv := (inv content shift). Notation size := (size content shift). Notation reliable := (reliable content shift).
  Notation ending := (ending content shift). Notation enough := (enough content shift). Notation has := (has content shift).
  Notation linv := (linv content shift random independent owning). Notation moved := (moved content shift random independent owning). Notation moves := (moves content shift random independent owning).
  Notation llive := (llive content shift).
  Notation may_fail := (may_fail content shift random). Notation may_fail_reader := (may_fail_reader content shift random). Notation reader_call := (reader_call content shift random independent owning).
  Local Notation d_inv := (d_inv content shift random independent owning). Local Notation d_ok := (d_ok content shift random independent owning).
  Local Notation d_rel := (d_rel content shift random independent owning).

  Record observes (x : result) (s : state) (l : limiter) (o : lobservation) : Prop := {
    b_result : q_result o = x; b_pos : q_pos o = a_pos s; b_ok : q_ok o = a_ok s; b_max : q_max_pos o = a_limit s; b_exact : q_exact o = a_exact s;
    b_src_pos : q_src_pos o = pos (l_src l); b_src_ok : q_src_ok o = ok (l_src l); b_fd : q_fd_pos o = f_pos (r_fd (l_src l)) }.
  Lemma lobserve_ok x s l (Q : lobservation -> limiter -> Prop) : linv s l -> (forall o, observes x s l o -> Q o l) -> lwp (lobserve x) l Q.
  Proof.
    intros V H. unfold lobserve. lb. apply get_lpos_ok with content shift random independent owning s; [exact V|]. lg. lb. apply lwp_on_src. apply get_pos_ok with content shift; [exact (v_src _ _ _ _ _ _ _ V)|].
    apply lwp_ret. replace (set_src (l_src l) l) with l by (destruct l; reflexivity). apply H. constructor; try reflexivity; cbn; apply V.
  Qed.
  Lemma has_dec s p : has s p \/ ~ has s p.
  Proof. unfold LimitingReaderSpec.has. destruct (a_exact s); [|left; discriminate]. destruct (Z_le_gt_dec (Z.min p (a_limit s)) size) as [X|X]; [left; auto|right]. intros H. specialize (H eq_refl). lia. Qed.
  Definition scopes_ok (s : state) : Prop := Forall (fun x => fst (fst x) <= kMaxPosition) (a_scopes s).
  (** What a call does, as [lhistory] says *)
  Definition step_ok (c : lcall) (s : state) (o : lobservation) (s' : state) : Prop :=
    match c with
    | LReader c =>
      reader_call c s o /\
      s' = {| a_pos := q_pos o; a_ok := q_ok o; a_limit := a_limit s; a_exact := a_exact s; a_longer := a_longer s; a_behind := still_behind c s o; a_scopes := a_scopes s |}
    | LSyncFromObject =>
      (exists b, q_result o = RBool b /\ b = q_ok o /\ (b = true -> a_ok s = true)) /\
      (q_ok o = true -> q_pos o = a_pos s /\ (a_behind s = false -> q_src_pos o = q_pos o)) /\ observed s' o /\
      s' = {| a_pos := q_pos o; a_ok := q_ok o; a_limit := a_limit s; a_exact := a_exact s; a_longer := a_longer s; a_behind := a_behind s; a_scopes := a_scopes s |}
    | _ => q_result o = RUnit /\ options_call content shift c s s' /\ observed s' o
    end.
  Definition good_step (c : lcall) (s : state) (l : limiter) (o : lobservation) (l' : limiter) : Prop :=
    exists s', linv s' l' /\ scopes_ok s' /\ (reliable (l_src l) -> reliable (l_src l')) /\ (reliable (l_src l) -> a_ok s = true -> ~ may_fail c s -> lnot_failed c o) /\ step_ok c s o s'.
  Notation step c s l := (lwp (x <- lexec c; lobserve x) l (good_step c s l)).

  Lemma common s l p k l' x o : moves s l p k l' -> linv s l -> (a_behind s = false -> k = false) -> observes x (with_pos p (lok l') k s) l' o ->
    q_pos o = p /\ q_ok o = lok l' /\ (q_ok o = true -> a_ok s = true) /\ q_max_pos o = a_limit s /\ q_exact o = a_exact s /\ q_pos o <= a_limit s /\ q_pos o <= size /\ (a_behind s = false -> 0 <= q_pos o + shift).
  Proof.
    intros M V K [B1 B2 B3 B4 B5 B6 B7 B8]. cbn [with_pos a_pos a_ok a_limit a_exact] in *. rewrite B2, B3, B4, B5. pose proof (d_inv _ _ _ _ _ M) as V1. destruct (linv_bounds _ _ _ _ _ _ _ V1) as (LB1 & LB2 & LB3 & _). cbn [with_pos a_pos a_limit] in *.
    split; [reflexivity|]. split; [reflexivity|]. split; [intros O; rewrite <- (v_ok _ _ _ _ _ _ _ V); exact (d_ok _ _ _ _ _ M O)|]. split; [reflexivity|]. split; [reflexivity|]. split; [exact LB2|]. split; [exact LB3|].
    intros BH. exact (proj2 (proj2 (v_file _ _ _ _ _ _ _ V1)) (K BH)).
  Qed.
  (** A call of a function of Reader whose result is [x] *)
  Lemma reader_step c s l p k l' x : linv s l -> scopes_ok s -> moves s l p k l' -> (a_behind s = false -> k = false) ->
    (forall o, q_result o = x -> q_pos o = p -> q_ok o = lok l' -> q_src_pos o = pos (l_src l') -> q_src_ok o = ok (l_src l') -> q_fd_pos o = f_pos (r_fd (l_src l')) ->
      k = still_behind c s o /\ (reliable (l_src l) -> a_ok s = true -> ~ may_fail_reader c s -> lnot_failed (LReader c) o) /\
      ((q_ok o = true -> a_ok s = true) -> q_max_pos o = a_limit s -> q_exact o = a_exact s -> q_pos o <= a_limit s -> q_pos o <= size -> (a_behind s = false -> 0 <= q_pos o + shift) -> reader_call c s o)) ->
    lwp (lobserve x) l' (good_step (LReader c) s l).
  Proof.
    intros V SC M K H. apply lobserve_ok with (with_pos p (lok l') k s); [exact (d_inv _ _ _ _ _ M)|]. intros o OB. destruct (common _ _ _ _ _ _ _ M V K OB) as (C1 & C2 & C3 & C4 & C5 & C6 & C7 & C8).
    destruct (H o (b_result _ _ _ _ OB) C1 C2 (b_src_pos _ _ _ _ OB) (b_src_ok _ _ _ _ OB) (b_fd _ _ _ _ OB)) as (H1 & H2 & H3).
    exists (with_pos p (lok l') k s). split; [exact (d_inv _ _ _ _ _ M)|]. split; [exact SC|]. split; [exact (d_rel _ _ _ _ _ M)|]. split; [exact H2|]. split; [apply H3; assumption|].
    rewrite C1, C2, H1. reflexivity.
  Qed.
  Definition keeps_behind (c : call) : Prop := match c with CSeek _ => False | _ => True end.
  Lemma still c s o : keeps_behind c -> a_behind s = still_behind c s o.
  Proof. unfold still_behind. destruct c; try (intros _; rewrite andb_true_r; reflexivity). intros []. Qed.
  (** A call which does not move the original reader from behind the limit *)
  Lemma moved_step c s l p l' x good : linv s l -> scopes_ok s -> moved s l p l' -> keeps_behind c -> c <> CClose -> llive good l l' -> (~ may_fail_reader c s -> good) ->
    (forall o, q_result o = x -> q_pos o = p -> q_ok o = lok l' -> q_src_pos o = pos (l_src l') -> q_src_ok o = ok (l_src l') -> q_fd_pos o = f_pos (r_fd (l_src l')) ->
      (q_ok o = true -> a_ok s = true) -> q_max_pos o = a_limit s -> q_exact o = a_exact s -> q_pos o <= a_limit s -> q_pos o <= size -> (a_behind s = false -> 0 <= q_pos o + shift) -> reader_call c s o) ->
    lwp (lobserve x) l' (good_step (LReader c) s l).
  Proof.
    intros V SC M K NC LV G H. apply reader_step with p (a_behind s); auto. intros o O1 O2 O3 O4 O5 O6. split; [apply still; exact K|]. split; [|apply H; assumption].
    intros R A NF. assert (X : q_ok o = true). { rewrite O3. apply LV; [exact R|rewrite (v_ok _ _ _ _ _ _ _ V); exact A|exact (G NF)]. } unfold lnot_failed. destruct c; try exact X. destruct (NC eq_refl).
  Qed.
  Lemma not_has s p c : (~ has s p -> may_fail_reader c s) -> ~ may_fail_reader c s -> has s p.
  Proof. intros H N. destruct (has_dec s p) as [X|X]; [exact X|]. destruct (N (H X)). Qed.
  Ltac hs := apply not_has; intros X; left; exact X.

  Lemma reads_step c s l n x l' : linv s l -> scopes_ok s -> lread content shift random independent owning s l n x l' -> (c = CRead n \/ c = CReadView n \/ c = CReadChain n \/ (c = CReadByte /\ n = 1)) ->
    lwp (lobserve (RBytes (fst x) (snd x))) l' (good_step (LReader c) s l).
  Proof.
    intros V SC (A1 & A2 & A3 & A4) C. destruct x as [b d]. cbn [fst snd] in *. pose proof (zlen_nonneg d) as ZD.
    apply moved_step with (a_pos s + zlen d) (has s (a_pos s + n)); auto.
    - destruct C as [->|[->|[->|[-> _]]]]; exact Logic.I.
    - destruct C as [->|[->|[->|[-> _]]]]; discriminate.
    - destruct C as [->|[->|[->|[-> ->]]]]; hs.
    - intros o O1 O2 O3 _ _ _ K1 K2 K3 K4 K5 K6. rewrite <- O2 in A2, A4. rewrite <- O3 in A4. unfold LimitingReaderSpec.reader_call.
      split; [exact K1|]. split; [exact K2|]. split; [exact K3|]. split; [exact K4|]. split; [exact K5|]. split; [exact K6|]. rewrite O1.
      destruct C as [->|[->|[->|[-> ->]]]]; (split; [exact A2|]); destruct b; try exact A4. destruct A4 as [A4 A5]. split; [clear - A4 ZD; lia|exact A5].
  Qed.
  Lemma some_step c s l n x l' : linv s l -> scopes_ok s -> lsome content shift random independent owning s l n x l' -> (c = CReadSome n \/ c = CReadSomeView n \/ c = CReadSomeChain n) ->
    lwp (lobserve (RBytes (fst x) (snd x))) l' (good_step (LReader c) s l).
  Proof.
    intros V SC (A1 & A2 & A3 & A4) C. destruct x as [b d]. cbn [fst snd] in *.
    apply moved_step with (a_pos s + zlen d) (has s (a_pos s + Z.min n 1)); auto.
    - destruct C as [->|[->| ->]]; exact Logic.I.
    - destruct C as [->|[->| ->]]; discriminate.
    - destruct C as [->|[->| ->]]; hs.
    - intros o O1 O2 O3 _ _ _ K1 K2 K3 K4 K5 K6. rewrite <- O2 in A2, A4. rewrite <- O3 in A4. unfold LimitingReaderSpec.reader_call.
      split; [exact K1|]. split; [exact K2|]. split; [exact K3|]. split; [exact K4|]. split; [exact K5|]. split; [exact K6|]. rewrite O1.
      destruct C as [->|[->| ->]]; (split; [exact A2|exact A4]).
  Qed.
  Ltac rc := unfold LimitingReaderSpec.reader_call; split; [assumption|]; split; [assumption|]; split; [assumption|]; split; [assumption|]; split; [assumption|]; split; [assumption|].
  Lemma lexec_reader c s l : linv s l -> scopes_ok s -> call_ok c -> step (LReader c) s l.
  Proof.
    intros V SC CO. destruct (linv_bounds _ _ _ _ _ _ _ V) as (LB1 & LB2 & LB3 & LB4 & LB5 & LB6 & LB7). pose proof (v_ok _ _ _ _ _ _ _ V) as VO. lb. destruct c as [n rec|n|n| |n|n|n|n|n rec|h| |p|n| | |]; cbn [lexec call_ok] in *.
    - (* Pull *)
      lb. eapply lwp_conseq; [apply (Pull_ok content shift random independent owning s); [exact V|apply CO|apply CO]|]. cbn beta. intros b l' (A1 & A2 & A3). apply lwp_ret.
      apply moved_step with (a_pos s) (has s (a_pos s + n)); [exact V|exact SC|exact A1|exact Logic.I|discriminate|exact A2|hs|]. intros o O1 O2 O3 _ _ _ K1 K2 K3 K4 K5 K6. rc. rewrite O1, O2, O3. split; [reflexivity|].
      pose proof (d_inv _ _ _ _ _ A1) as V1. destruct (linv_bounds _ _ _ _ _ _ _ V1) as (LC1 & LC2 & LC3 & LC4 & LC5 & LC6 & LC7). cbn [with_pos a_pos] in *. change (LimitingReaderSpec.ending content shift (with_pos (a_pos s) (lok l') (a_behind s) s)) with (ending s) in LC6.
      destruct b; [clear - A3 LC4 LC6; lia|]. intros OK. destruct A3 as [A3 A4]. destruct (A4 OK) as [A5 A6]. split; [clear - A3 A5; lia|exact A6].
    - lb. eapply lwp_conseq; [apply (Read_ok content shift random independent owning s); [exact V|apply CO]|]. intros x l' H. apply lwp_ret. apply (reads_step _ _ _ _ _ _ V SC H). auto.
    - lb. eapply lwp_conseq; [apply (ReadView_ok content shift random independent owning s); [exact V|apply CO]|]. intros x l' H. apply lwp_ret. apply (reads_step _ _ _ _ _ _ V SC H). auto.
    - lb. eapply lwp_conseq; [apply (ReadByte_ok content shift random independent owning s); exact V|]. intros x l' H. apply lwp_ret. apply (reads_step _ _ _ _ _ _ V SC H). auto.
    - lb. eapply lwp_conseq; [apply (ReadChain_ok content shift random independent owning s); [exact V|apply CO]|]. intros x l' H. apply lwp_ret. apply (reads_step _ _ _ _ _ _ V SC H). auto.
    - lb. eapply lwp_conseq; [apply (ReadSome_ok content shift random independent owning s); [exact V|apply CO]|]. intros x l' H. apply lwp_ret. apply (some_step _ _ _ _ _ _ V SC H). auto.
    - lb. eapply lwp_conseq; [apply (ReadSomeView_ok content shift random independent owning s); [exact V|apply CO]|]. intros x l' H. apply lwp_ret. apply (some_step _ _ _ _ _ _ V SC H). auto.
    - lb. eapply lwp_conseq; [apply (ReadSomeChain_ok content shift random independent owning s); [exact V|apply CO]|]. intros x l' H. apply lwp_ret. apply (some_step _ _ _ _ _ _ V SC H). auto.
    - (* ReadHint *)
      lb. eapply lwp_conseq; [apply (ReadHint_ok content shift random independent owning s); [exact V|apply CO|apply CO]|]. cbn beta. intros _ l' (A1 & A2). apply lwp_ret.
      apply moved_step with (a_pos s) True; [exact V|exact SC|exact A1|exact Logic.I|discriminate|exact A2|auto|]. intros o O1 O2 O3 _ _ _ K1 K2 K3 K4 K5 K6. rc. rewrite O1. exact O2.
    - apply lwp_ret. apply moved_step with (a_pos s) True; [exact V|exact SC|exact (moved_refl _ _ _ _ _ _ _ V)|exact Logic.I|discriminate|intros _ X _; exact X|auto|].
      intros o O1 O2 O3 _ _ _ K1 K2 K3 K4 K5 K6. rc. rewrite O1. exact O2.
    - (* Sync *)
      lb. eapply lwp_conseq; [apply (Sync_ok content shift random independent owning s l false V)|]. cbn beta. intros b l' (A1 & A2 & A3 & A4). apply lwp_ret.
      apply moved_step with (lpos l') True; [exact V|exact SC|exact A1|exact Logic.I|discriminate|exact A2|auto|]. intros o O1 O2 O3 O4 _ O6 K1 K2 K3 K4 K5 K6. rc. rewrite O1, O2, O3, O4, O6. split; [exact A3|].
      intros OK. destruct (A4 OK) as (B1 & B2 & B3). rewrite B1. split; [reflexivity|]. intros BH. destruct B2 as [B2|(B2 & _)]; [|congruence]. split; [exact B2|]. intros RN IN. exact (B3 eq_refl B2 RN IN).
    - (* Seek *)
      lb. eapply lwp_conseq; [apply (Seek_ok content shift random independent owning s l p V); apply CO|]. cbn beta. intros b l' (A1 & A2 & A3). apply lwp_ret.
      apply reader_step with (lpos l') (a_behind s && ((p =? a_pos s) || negb (lok l'))); auto; [intros ->; reflexivity|]. intros o O1 O2 O3 _ _ _. split; [unfold still_behind; rewrite O3; reflexivity|]. split.
      { intros R A NF. unfold lnot_failed. rewrite O3. apply A2; [exact R|congruence|]. split; [destruct (has_dec s p) as [X|X]; [exact X|destruct NF; left; left; exact X]|].
        destruct random eqn:RN; [left; reflexivity|right]. split; [destruct (Z_le_gt_dec (a_pos s) p); [assumption|destruct NF; left; right; split; [reflexivity|lia]]|].
        destruct (a_behind s) eqn:BH; [|reflexivity]. destruct NF. right. split; [exact BH|reflexivity]. }
      intros K1 K2 K3 K4 K5 K6. rc. rewrite O1, O2, O3. destruct b; [exact A3|exact (proj1 A3)].
    - (* Skip *)
      lb. eapply lwp_conseq; [apply (Skip_ok content shift random independent owning s l n V); apply CO|]. cbn beta. intros [b m] l' (A1 & A2 & A3). cbn [fst snd] in *. apply lwp_ret.
      eapply moved_step with (p := lpos l'); [exact V|exact SC|exact A1|exact Logic.I|discriminate|exact A2| |].
      { intros NF. split; [destruct (has_dec s (a_pos s + n)) as [X|X]; [exact X|destruct NF; left; exact X]|]. destruct random eqn:RN; [left; reflexivity|right]. destruct (a_behind s) eqn:BH; [|reflexivity]. destruct NF. right. split; [exact BH|reflexivity]. }
      intros o O1 O2 O3 _ _ _ K1 K2 K3 K4 K5 K6. rc. rewrite O1, O2, O3. exact A3.
    - (* Size *)
      lb. eapply lwp_conseq; [apply (Size_ok content shift random independent owning s l V)|]. cbn beta. intros x l' (A1 & A2 & A3). apply lwp_ret.
      eapply moved_step with (p := a_pos s); [exact V|exact SC|exact A1|exact Logic.I|discriminate|exact A2| |].
      { intros NF. destruct (a_exact s) eqn:EX; [left; reflexivity|]. destruct random eqn:RN; [right; reflexivity|]. destruct NF. left. split; [exact EX|reflexivity]. }
      intros o O1 O2 O3 _ _ _ K1 K2 K3 K4 K5 K6. rc. rewrite O1, O2, O3. split; [reflexivity|exact A3].
    - (* VerifyEnd *)
      lb. eapply lwp_conseq; [apply (VerifyEnd_ok content shift random independent owning s l V)|]. cbn beta. intros x l' (A1 & A2 & A3). apply lwp_ret.
      eapply moved_step with (p := a_pos s); [exact V|exact SC|exact A1|exact Logic.I|discriminate|exact A2| |].
      { intros NF. split; [destruct (Z.eq_dec (a_pos s) (ending s)) as [X|X]; [exact X|destruct NF; left; left; exact X]|].
        unfold LimitingReaderSpec.enough. intros EX. destruct (Z_le_gt_dec (a_limit s) size) as [X|X]; [exact X|]. destruct NF. left. right. intros H. specialize (H EX). lia. }
      intros o O1 O2 O3 _ _ _ K1 K2 K3 K4 K5 K6. rc. rewrite O1, O2, O3. split; [reflexivity|exact A3].
    - (* Close *)
      lb. eapply lwp_conseq; [apply (Close_ok content shift random independent owning s l V)|]. cbn beta. intros b l' (A1 & A2 & A3 & A4 & A5). apply lwp_ret.
      apply lobserve_ok with (with_pos (a_pos s) (lok l') (a_behind s) s); [exact A2|]. intros o [B1 B2 B3 B4 B5 B6 B7 B8]. cbn [with_pos a_pos a_ok a_limit a_exact] in *.
      exists (with_pos (a_pos s) (lok l') (a_behind s) s). split; [exact A2|]. split; [exact SC|]. split; [exact A3|]. split.
      { intros R A NF. unfold lnot_failed. rewrite B1. f_equal. apply A4; [exact R|congruence| |]; intros X; apply NF; [left; exact X|right; exact X]. }
      split.
      + unfold LimitingReaderSpec.reader_call. rewrite B1, B2, B3, B4, B5, B6, B7, B8, A1. split; [discriminate|]. split; [reflexivity|]. split; [reflexivity|]. split; [exact LB2|]. split; [exact LB3|].
        split; [exact (proj2 (proj2 (v_file _ _ _ _ _ _ _ V)))|]. split; [reflexivity|]. split; [reflexivity|]. rewrite <- VO. exact A5.
      + rewrite B2, B3. unfold still_behind. rewrite andb_true_r. reflexivity.
  Qed.
  (** Calls which change options *)
  Lemma options_step c s l l' s' : (match c with LReader _ | LSyncFromObject => False | _ => True end) -> linv s' l' -> scopes_ok s' -> same_src content shift l l' -> options_call content shift c s s' ->
    (reliable (l_src l) -> a_ok s = true -> ~ may_fail c s -> a_ok s' = true) -> lwp (lobserve RUnit) l' (good_step c s l).
  Proof.
    intros C V SC SS OC LV. apply lobserve_ok with s'; [exact V|]. intros o [B1 B2 B3 B4 B5 B6 B7 B8]. exists s'. split; [exact V|]. split; [exact SC|]. split; [exact SS|].
    split; [intros R A NF; specialize (LV R A NF); destruct c; try (destruct C; fail); unfold lnot_failed; congruence|].
    destruct c; try (destruct C; fail); (split; [exact B1|]; split; [exact OC|]; split; [exact B2|]; split; [exact B3|]; split; [exact B4|exact B5]).
  Qed.
  Lemma lexec_ok c s l : linv s l -> scopes_ok s -> lcall_ok c -> required c s -> step c s l.
  Proof.
    intros V SC CO RQ. destruct (linv_bounds _ _ _ _ _ _ _ V) as (LB1 & LB2 & LB3 & LB4 & LB5 & LB6 & LB7). pose proof (v_ok _ _ _ _ _ _ _ V) as VO.
    destruct c as [c| |p|n| |b|b|o e f|]; [apply lexec_reader; auto|..]; lb; cbn [lexec lcall_ok required] in *; lb.
    - eapply lwp_conseq; [apply (Sync_ok content shift random independent owning s l true V)|]. cbn beta. intros b l' (A1 & A2 & A3 & A4). apply lwp_ret.
      apply lobserve_ok with (with_pos (lpos l') (lok l') (a_behind s) s); [exact (d_inv _ _ _ _ _ A1)|]. intros o [B1 B2 B3 B4 B5 B6 B7 B8]. cbn [with_pos a_pos a_ok a_limit a_exact] in *.
      exists (with_pos (lpos l') (lok l') (a_behind s) s). split; [exact (d_inv _ _ _ _ _ A1)|]. split; [exact SC|]. split; [exact (d_rel _ _ _ _ _ A1)|]. split; [intros R A NF; unfold lnot_failed; rewrite B3; apply A2; auto; congruence|].
      split; [exists b; split; [exact B1|]; split; [congruence|]; intros X; rewrite <- VO; apply (d_ok _ _ _ _ _ A1); congruence|]. split.
      { rewrite B2, B3, B6. intros OK. destruct (A4 OK) as (C1 & C2 & _). split; [exact C1|]. intros BH. destruct C2 as [C2|(C2 & _)]; congruence. }
      split; [|rewrite B2, B3; reflexivity]. split; [exact B2|]. split; [exact B3|]. split; [exact B4|exact B5].
    - eapply lwp_conseq; [apply (set_max_pos_ok content shift random independent owning s l p V); [unfold kMaxPosition; lia|exact RQ]|]. cbn beta. intros _ l' (A1 & A2). apply lwp_ret.
      eapply options_step; [exact Logic.I|exact A1|exact SC|unfold same_src; rewrite A2; auto|reflexivity|auto].
    - eapply lwp_conseq; [apply (set_max_length_ok content shift random independent owning s l n V CO); intros BH; rewrite (RQ BH); lia|]. cbn beta. intros _ l' (A1 & A2). apply lwp_ret.
      eapply options_step; [exact Logic.I|exact A1|exact SC|exact A2|reflexivity|]. intros _ _ NF. destruct NF. exact Logic.I.
    - unfold clear_limit. apply lwp_modify. apply lwp_ret.
      eapply options_step; [exact Logic.I|exact (clear_limit_ok _ _ _ _ _ s l V RQ)|exact SC|exact (fun x => x)|reflexivity|auto].
    - unfold set_exact. apply lwp_modify. apply lwp_ret. rewrite (v_longer _ _ _ _ _ _ _ V), (v_scopes _ _ _ _ _ _ _ V).
      eapply options_step; [exact Logic.I|exact (set_options_ok _ _ _ _ _ s l b (a_longer s) (a_scopes s) V)|exact SC|exact (fun x => x)|reflexivity|auto].
    - unfold set_fail_if_longer. apply lwp_modify. apply lwp_ret. rewrite (v_ex _ _ _ _ _ _ _ V), (v_scopes _ _ _ _ _ _ _ V).
      eapply options_step; [exact Logic.I|exact (set_options_ok _ _ _ _ _ s l (a_exact s) b (a_scopes s) V)|exact SC|exact (fun x => x)|reflexivity|auto].
    - eapply lwp_conseq; [apply (ScopedLimiter_ok content shift random independent owning s l o e f V CO)|]. cbn beta. intros _ l' (A1 & A2). apply lwp_ret.
      eapply options_step; [exact Logic.I|exact A1| |exact A2|reflexivity|intros _ _ NF; destruct NF; exact Logic.I]. constructor; [exact (LimitingLemmas.v_max _ _ _ _ _ _ _ V)|exact SC].
    - destruct (a_scopes s) as [|[[old_limit old_exact] longer] scopes] eqn:ES; [destruct RQ|]. destruct RQ as [RQ1 RQ2]. unfold scopes_ok in SC. rewrite ES in SC. inversion SC as [|? ? SC1 SC2]; subst. cbn [fst] in SC1.
      eapply lwp_conseq; [apply (EndScopedLimiter_ok content shift random independent owning s l old_limit old_exact longer scopes V ES); auto|]. cbn beta zeta. intros _ l' (A1 & A2 & A3 & A4 & A5). apply lwp_ret.
      eapply options_step; [exact Logic.I|exact A1|exact SC2|exact A2| |].
      + unfold options_call. rewrite ES. exists (lok l'). split; [reflexivity|]. split; [rewrite <- VO; exact A3|exact A4].
      + cbn [a_ok]. intros R A NF. apply A5; [exact R|congruence|]. intros -> PL. unfold LimitingReaderSpec.may_fail in NF. rewrite ES in NF.
        assert (H : a_behind s = false) by (destruct (a_behind s); [destruct NF; split; [exact PL|right; right; reflexivity]|reflexivity]).
        assert (H1 : ~ (a_pos s < Z.min old_limit size)) by (intros X; apply NF; split; [exact PL|left; exact X]).
        assert (H2 : old_exact = true -> old_limit <= size) by (intros EX; destruct (Z_le_gt_dec old_limit size) as [X|X]; [exact X|]; destruct NF; split; [exact PL|right; left; split; [exact EX|lia]]).
        split; [clear - H1; lia|]. split; [exact H2|exact H].
  Qed.
  Lemma lrun_ok (rel : Prop) : forall calls s l, Forall lcall_ok calls -> linv s l -> scopes_ok s -> (rel -> reliable (l_src l)) -> lhistory content shift random independent owning rel calls s (lrun calls l).
  Proof.
    induction calls as [|c calls IH]; intros s l CO V SC RL; [reflexivity|]. inversion CO as [|? ? C1 C2]; subst. cbn [lhistory lrun]. intros RQ. pose proof (lexec_ok c s l V SC C1 RQ) as W. unfold lwp in W.
    destruct ((x <- lexec c; lobserve x) l) as [[o l']|]; [|destruct W]. destruct W as (s' & W1 & W2 & W3 & W4 & W5). split; [intros R; exact (W4 (RL R))|]. exists s'.
    split; [|apply IH; auto]. destruct c; exact W5.
  Qed.
End S.

(** ** What follows from histories *)
Lemma reader_call_read content shift rnd ind own c s o : is_read c = true -> reader_call content shift rnd ind own c s o -> reads content shift (ldata_of o) (a_pos s) (q_pos o).
Proof.
  intros R (_ & _ & _ & _ & _ & _ & H). unfold ldata_of, reads in *.
  assert (N : forall p, p = a_pos s -> @nil Z = piece content shift (a_pos s) (zlen (@nil Z)) /\ p = a_pos s + zlen (@nil Z)).
  { intros p ->. change (zlen (@nil Z)) with 0. split; [reflexivity|lia]. }
  destruct c; try discriminate R; destruct (q_result o); try (destruct H; fail); try (apply N; try exact H; exact (proj1 H)); exact (proj1 H).
Qed.
Lemma lhistory_stream content shift rnd ind own rel : forall calls s os, 0 <= a_pos s + shift -> a_behind s = false -> a_pos s <= a_limit s -> forallb is_read calls = true ->
  lhistory content shift rnd ind own rel (map LReader calls) s os ->
  concat (map ldata_of os) = piece content shift (a_pos s) (zlen (concat (map ldata_of os))) /\ a_pos s + zlen (concat (map ldata_of os)) <= a_limit s.
Proof.
  induction calls as [|c calls IH]; intros s os P0 BH PL R H.
  - cbn in H. subst os. cbn. change (zlen (@nil Z)) with 0. split; [reflexivity|lia].
  - cbn [map forallb] in *. apply andb_prop in R. destruct R as [R1 R2]. cbn [lhistory] in H. specialize (H Logic.I). destruct os as [|o os]; [destruct H|]. destruct H as (_ & s' & (H1 & ->) & H2).
    pose proof (reader_call_read _ _ _ _ _ _ _ _ R1 H1) as [D1 D2]. destruct H1 as (_ & _ & _ & L1 & L2 & L3 & _).
    assert (BH' : still_behind c s o = false) by (unfold still_behind; rewrite BH; reflexivity). apply IH in H2; [|exact (L3 BH)|exact BH'|exact L1|exact R2]. destruct H2 as [E1 E2]. cbn [a_pos a_limit] in E1, E2. cbn [map concat].
    rewrite zlen_app. pose proof (zlen_nonneg (ldata_of o)). pose proof (zlen_nonneg (concat (map ldata_of os))). split; [|lia].
    unfold piece in *. rewrite E1 at 1. rewrite D1 at 1. rewrite D2. replace (a_pos s + zlen (ldata_of o) + shift) with (a_pos s + shift + zlen (ldata_of o)) by lia. apply zslice_app; lia.
Qed.

Lemma limiter_ok f options ap ip growing sowning spaces before limit exact longer owning calls : options_valid options -> fd_ok f ip -> option_ok ap -> Forall call_ok before ->
  limit_option_ok limit -> Forall lcall_ok calls ->
  exists r os r', new_reader f options ap ip growing sowning spaces = Some r /\ run before r = Some (os, r') /\ (r_open r' = true ->
    let shift := file_pos f ip - pos r in
    0 <= pos r' /\ 0 <= pos r' + shift /\ pos r' <= size (f_content f) shift /\ pos r' <= kMaxFdPosition /\
    exists l, new_limiter r' limit exact longer owning = Some l /\
    lhistory (f_content f) shift (r_random r') (r_independent r') owning (calls_succeed (r_fd r') /\ size (f_content f) shift < kMaxFdPosition) calls
      (initial (pos r') (ok r') limit exact longer) (lrun calls l)).
Proof.
  intros OV FO AO C1 LO C2. destruct (new_reader_ok f options ap ip growing sowning spaces OV FO AO) as (r & E & [O1 _ _ _]).
  pose proof (run_ok _ _ before r True O1 C1) as W. destruct (run before r) as [[os r']|] eqn:ER.
  2:{ exfalso. pose proof (run_ok _ _ before r False O1 C1 ltac:(intros [])) as X. unfold wp in X. rewrite ER in X. exact X. }
  pose proof (run_ok _ _ before r False O1 C1 ltac:(intros [])) as X. unfold wp in X. rewrite ER in X. destruct X as (I2 & _ & _). clear W.
  exists r, os, r'. split; [exact E|]. split; [exact ER|]. intros OP. cbn zeta. destruct (pos_bounds _ _ _ I2) as (PB1 & PB2 & PB3 & PB4 & PB5 & PB6).
  split; [exact PB2|]. split; [exact PB3|]. split; [clear - PB1 PB4 PB5; lia|]. split; [clear - PB1 PB4 PB6; lia|].
  destruct (new_limiter_ok _ _ (r_random r') (r_independent r') owning r' limit exact longer I2 eq_refl eq_refl OP LO) as (l & E2 & V & SS).
  exists l. split; [exact E2|]. apply lrun_ok; [exact C2|exact V|constructor|]. intros [R1 R2]. apply SS. split; [exact R1|exact R2].
Qed.
