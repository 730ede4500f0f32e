(** The public list of states, and the bases from which its states are reached. *)
From Coq Require Import Permutation.
From Verif Require Import Base.Bytes Model.Endian Model.Varint Model.Chunk Model.SimpleChunk Model.TransposeEncoder Model.TransposeDecoder.
From Verif Require Import Proof.TransposeLoops Proof.TransposePath Proof.TransposeFill Proof.TransposeList Proof.TransposeCollect Proof.TransposePrivate.

(** ** The queue of the public list *)
Fixpoint pq (i : nat) (T : list tag_info) : list entry :=
  match T with
  | [] => []
  | t :: T => (if t_incoming t =? 0 then [] else [(DTag i, t_incoming t)]) ++ pq (S i) T
  end.
Lemma public_queue_perm T : forall i queue, Permutation (public_queue i T queue) (pq i T ++ queue) /\ (sorted queue -> sorted (public_queue i T queue)).
Proof.
  induction T as [|t T IH]; intros i queue; cbn [public_queue pq]; [split; [reflexivity|auto]|]. destruct (IH (S i) (if t_incoming t =? 0 then queue else insert (DTag i, t_incoming t) queue)) as [I1 I2].
  destruct (t_incoming t =? 0); cbn [app]; [auto|]. split; [|intros H; apply I2, insert_sorted, H]. rewrite I1, insert_perm. apply Permutation_sym, Permutation_middle.
Qed.
Lemma pq_in T : forall i e, In e (pq i T) <-> exists k t, nth_error T k = Some t /\ t_incoming t <> 0 /\ e = (DTag (i + k), t_incoming t).
Proof.
  induction T as [|t T IH]; intros i e; cbn [pq]; [split; [intros []|intros (k & t & H & _); destruct k; discriminate]|]. rewrite in_app_iff, IH. split.
  - intros [H|(k & t0 & H1 & H2 & H3)].
    + destruct (Z.eqb_spec (t_incoming t) 0); [destruct H|]. destruct H as [<-|[]]. exists O, t. rewrite Nat.add_0_r. auto.
    + exists (S k), t0. replace (i + S k)%nat with (S i + k)%nat by lia. auto.
  - intros (k & t0 & H1 & H2 & H3). destruct k as [|k]; cbn [nth_error] in H1.
    + injection H1 as <-. left. destruct (Z.eqb_spec (t_incoming t) 0); [contradiction|]. left. rewrite H3, Nat.add_0_r. reflexivity.
    + right. exists k, t0. replace (S i + k)%nat with (i + S k)%nat by lia. auto.
Qed.
Lemma pq_nodup T : forall i, NoDup (keys (pq i T)).
Proof.
  induction T as [|t T IH]; intros i; cbn [pq]; [constructor|]. destruct (t_incoming t =? 0); cbn [app]; [apply IH|]. cbn [map fst]. constructor; [|apply IH].
  intros H. apply in_map_iff in H. destruct H as (e & E1 & E2). apply pq_in in E2. destruct E2 as (k & t0 & _ & _ & ->). cbn [fst] in E1. injection E1 as E1. lia.
Qed.
Lemma pq_sum T : forall i, sum (pq i T) = rows_sum t_incoming T.
Proof.
  induction T as [|t T IH]; intros i; [reflexivity|]. cbn [pq rows_sum fold_right]. fold (rows_sum t_incoming T). rewrite <- (IH (S i)). destruct (Z.eqb_spec (t_incoming t) 0) as [->|]; cbn [app]; [lia|].
  cbn [sum fold_right snd]. fold (sum (pq (S i) T)). lia.
Qed.

(** ** Climbing to a base *)
Inductive anc (machine : list state_info) : nat -> nat -> Prop :=
| anc_refl q : anc machine q q
| anc_step q s c a : nth_error machine q = Some s -> s_source s = Some c -> anc machine c a -> anc machine q a.
Lemma anc_trans machine q a b : anc machine q a -> anc machine a b -> anc machine q b.
Proof. induction 1 as [|q s c a H1 H2 H3 IH]; intros H; [assumption|]. eapply anc_step; eauto. Qed.
Lemma anc_extends m m' q a : extends m m' -> anc m q a -> anc m' q a.
Proof.
  intros E. induction 1 as [|q s c a H1 H2 H3 IH]; [constructor|]. destruct (E q s H1) as (s' & E1 & _ & E2 & _). eapply anc_step; [exact E1|rewrite E2; exact H2|exact IH].
Qed.
Section Climb.
Variable mt : nat.
Definition reach (machine : list state_info) (m q : nat) : Prop := exists a, anc machine q a /\ (m <= a <= m + mt)%nat.
Lemma reach_extends a b m q : extends a b -> reach a m q -> reach b m q.
Proof. intros E (x & H1 & H2). exists x. split; [eapply anc_extends; eassumption|assumption]. Qed.
Variable machine : list state_info.
Variables lo hi : nat.
Variable ht : nat -> nat.
Hypothesis G : segment mt machine lo hi ht.
Lemma source_in q s c : (lo <= q < hi)%nat -> nth_error machine q = Some s -> s_source s = Some c ->
  (lo <= c < q)%nat /\ (ht q < ht c)%nat /\ exists b, (lo <= c < b)%nat /\ (b <= q <= b + mt)%nat /\ base_of machine c = Some b /\
    forall q' s', (b <= q' <= b + mt)%nat -> (q' < hi)%nat -> nth_error machine q' = Some s' -> s_source s' = Some c.
Proof.
  intros Hq Hs Hc. pose proof (g_state _ _ _ _ _ G q s Hq Hs) as X. rewrite Hc in X. destruct X as (X0 & b & X1 & X2 & (sc & X3 & X4 & X5) & X6). split; [lia|]. split; [assumption|].
  exists b. split; [assumption|]. split; [assumption|]. split; [unfold base_of; rewrite X3; exact X5|assumption].
Qed.
Lemma state_in q : (lo <= q < hi)%nat -> exists s, nth_error machine q = Some s.
Proof. intros H. pose proof (g_range _ _ _ _ _ G). destruct (nth_error machine q) as [s|] eqn:E; [exists s; reflexivity|]. apply nth_error_None in E. lia. Qed.
Lemma anc_in q a : anc machine q a -> (lo <= q < hi)%nat -> (lo <= a <= q)%nat /\ (ht q <= ht a)%nat.
Proof.
  induction 1 as [|q s c a H1 H2 H3 IH]; intros H; [lia|]. destruct (source_in q s c H H1 H2) as (X1 & X2 & _). specialize (IH ltac:(lia)). lia.
Qed.
Lemma path_climbs base q a : anc machine q a -> (lo <= q < hi)%nat -> (base <= a <= base + mt)%nat ->
  forall fuel written, (ht a < ht q + fuel)%nat -> exists w, path mt fuel machine base q written = Some w.
Proof.
  induction 1 as [q|q s c a H1 H2 H3 IH]; intros Hq Ha fuel written Hf; (destruct fuel as [|fuel]; cbn [path]).
  - lia.
  - destruct (Nat.ltb_spec q base); [lia|]. destruct (Nat.ltb_spec mt (q - base)); [lia|]. eexists; reflexivity.
  - pose proof (anc_in c a H3) as X. destruct (source_in q s c Hq H1 H2) as (X1 & X2 & _). specialize (X ltac:(lia)). lia.
  - destruct (Nat.ltb q base || Nat.ltb mt (q - base)); [|eexists; reflexivity]. destruct (source_in q s c Hq H1 H2) as (X1 & X2 & b & X3 & X4 & X5 & _).
    unfold checked_source, source_of. rewrite H1, H2, X5. destruct (Nat.leb_spec b q); [|lia]. destruct (Nat.leb_spec (q - b) mt); [|lia]. cbn [andb]. rewrite X5.
    apply IH; [lia|assumption|lia].
Qed.
Definition climbs (base q : nat) : Prop := exists w, path mt kWriteBufSize machine base q [] = Some w.
Lemma reach_climbs m q : (lo <= q < hi)%nat -> reach machine m q -> climbs m q.
Proof.
  intros Hq (a & A1 & A2). eapply path_climbs; [exact A1|exact Hq|exact A2|]. destruct (anc_in q a A1 Hq) as [X _]. pose proof (g_low _ _ _ _ _ G a ltac:(lia)). unfold kWriteBufSize. lia.
Qed.
Lemma reach_lo : forall q, (lo <= q < hi)%nat -> reach machine lo q.
Proof.
  intros q. induction q as [q IH] using lt_wf_ind. intros Hq. destruct (state_in q Hq) as [s Hs]. destruct (s_source s) as [c|] eqn:Hc.
  - destruct (source_in q s c Hq Hs Hc) as (X1 & _). destruct (IH c ltac:(lia) ltac:(lia)) as (a & A1 & A2). exists a. split; [eapply anc_step; eassumption|assumption].
  - pose proof (g_state _ _ _ _ _ G q s Hq Hs) as X. rewrite Hc in X. exists q. split; [constructor|lia].
Qed.

(** The blocks *)
Definition block_of (cs : option nat) : option nat := match cs with None => Some lo | Some cs => base_of machine cs end.
Definition isblock (b : nat) : Prop := (lo <= b < hi)%nat /\
  (b = lo \/ exists c, (lo <= c < b)%nat /\ forall a s, (b <= a <= b + mt)%nat -> (a < hi)%nat -> nth_error machine a = Some s -> s_source s = Some c).
Lemma block_in q : (lo <= q < hi)%nat -> exists s b, nth_error machine q = Some s /\ block_of (s_source s) = Some b /\ isblock b /\ (b <= q <= b + mt)%nat.
Proof.
  intros Hq. destruct (state_in q Hq) as [s Hs]. exists s. destruct (s_source s) as [c|] eqn:Hc.
  - destruct (source_in q s c Hq Hs Hc) as (X1 & _ & b & X3 & X4 & X5 & X6). exists b. split; [assumption|]. split; [exact X5|]. split; [|assumption]. split; [lia|]. right. exists c. auto.
  - pose proof (g_state _ _ _ _ _ G q s Hq Hs) as X. rewrite Hc in X. exists lo. split; [assumption|]. split; [reflexivity|]. split; [split; [lia|auto]|lia].
Qed.
Definition covers (b m : nat) (ps : list nat) : Prop := isblock b /\ (b <= m < hi)%nat /\ forall q, In q ps -> (lo <= q < hi)%nat /\ exists a, anc machine q a /\ (m <= a <= b + mt)%nat.
Lemma extend_base_ok ps pos0 : (lo <= pos0 < hi)%nat -> forall fuel b m pos, covers b m ps -> anc machine pos0 pos -> (b + pos < fuel)%nat ->
  exists b' m', extend_base mt fuel machine lo (Some b) (Some m) pos = Some (Some b', Some m') /\ covers b' m' (pos0 :: ps).
Proof.
  intros H0. induction fuel as [|fuel IH]; intros b m pos (C1 & C2 & C3) A Hf; [lia|]. cbn [extend_base]. destruct (anc_in pos0 pos A H0) as [Ap _].
  destruct (Nat.ltb_spec pos b) as [Q1|Q1]; [|destruct (Nat.ltb_spec mt (pos - b)) as [Q2|Q2]].
  - (* to the block before *)
    destruct C1 as [R [->|(c & Hc & BL)]]; [lia|]. destruct (state_in b R) as [sb Hsb]. unfold source_of at 1. rewrite Hsb. rewrite (BL b sb ltac:(lia) ltac:(lia) Hsb).
    destruct (block_in c ltac:(lia)) as (sc & b' & Y1 & Y2 & Y3 & Y4). unfold source_of. rewrite Y1. fold (block_of (s_source sc)). rewrite Y2.
    assert (CV : covers b' (Nat.min m c) ps).
    { split; [assumption|]. split; [lia|]. intros q Hq. destruct (C3 q Hq) as [Z1 (a & Z2 & Z3)]. split; [assumption|]. exists c. split; [|lia].
      eapply anc_trans; [exact Z2|]. destruct (anc_in q a Z2 Z1) as [Z4 _]. destruct (state_in a ltac:(lia)) as [sa Hsa]. eapply anc_step; [exact Hsa| |constructor]. apply (BL a sa); [lia|lia|assumption]. }
    cbn [min_opt]. apply IH; [exact CV|assumption|lia].
  - (* to the block which leads here *)
    destruct (state_in pos ltac:(lia)) as [s Hs]. unfold checked_source, source_of. rewrite Hs. destruct (s_source s) as [c|] eqn:Hc.
    + destruct (source_in pos s c ltac:(lia) Hs Hc) as (X1 & _ & b1 & X3 & X4 & X5 & _). rewrite X5. destruct (Nat.leb_spec b1 pos); [|lia]. destruct (Nat.leb_spec (pos - b1) mt); [|lia]. cbn [andb].
      apply IH; [split; [assumption|split; assumption]| |lia]. eapply anc_trans; [exact A|]. eapply anc_step; [exact Hs|exact Hc|constructor].
    + pose proof (g_state _ _ _ _ _ G pos s ltac:(lia) Hs) as X. rewrite Hc in X. destruct C1 as [C1 _]. lia.
  - cbn [min_opt]. exists b, (Nat.min m pos). split; [reflexivity|]. split; [assumption|]. split; [lia|]. intros q [<-|Hq].
    + split; [assumption|]. exists pos. split; [assumption|lia].
    + destruct (C3 q Hq) as [Z1 (a & Z2 & Z3)]. split; [assumption|]. exists a. split; [assumption|lia].
Qed.
Lemma extend_base_first pos : (lo <= pos < hi)%nat -> forall fuel, exists b, extend_base mt (S (S fuel)) machine lo None None pos = Some (Some b, Some pos) /\ covers b pos [pos].
Proof.
  intros H fuel. destruct (block_in pos H) as (s & b & Y1 & Y2 & Y3 & Y4). exists b.
  assert (E : extend_base mt (S (S fuel)) machine lo None None pos = extend_base mt (S fuel) machine lo (Some b) None pos).
  { cbn [extend_base]. unfold source_of at 1. rewrite Y1. fold (block_of (s_source s)). rewrite Y2. reflexivity. }
  rewrite E. cbn [extend_base]. destruct (Nat.ltb_spec pos b); [lia|]. destruct (Nat.ltb_spec mt (pos - b)); [lia|]. cbn [min_opt].
  split; [reflexivity|]. split; [assumption|]. split; [lia|]. intros q [<-|[]]. split; [assumption|]. exists pos. split; [constructor|lia].
Qed.

Variable st : nat -> option nat.
Definition pub_ok (l : dests) : Prop := forall k d, In (k, d) l -> d_pos d = None -> exists q, st k = Some q /\ (lo <= q < hi)%nat.
Definition states (T : list tag_info) : Prop := forall k q, st k = Some q -> exists tk, nth_error T k = Some tk /\ t_state tk = Some q.
Lemma min_pos_more T l : states T -> forall b m ps, covers b m ps -> pub_ok l ->
  exists b' m' ps', min_pos_of mt machine T lo (Some b) (Some m) l = Some (Some m') /\ covers b' m' ps' /\ (forall q, In q ps -> In q ps') /\
    forall k d q, In (k, d) l -> d_pos d = None -> st k = Some q -> In q ps'.
Proof.
  intros ST. induction l as [|[k d] l IH]; intros b m ps C P; cbn [min_pos_of].
  - exists b, m, ps. split; [reflexivity|]. split; [assumption|]. split; [auto|intros k d q []].
  - assert (P' : pub_ok l) by (intros k0 d0 H; apply (P k0 d0); right; exact H). destruct (d_pos d) as [x|] eqn:Ed.
    + destruct (IH b m ps C P') as (b' & m' & ps' & I1 & I2 & I3 & I4). exists b', m', ps'. split; [assumption|]. split; [assumption|]. split; [assumption|].
      intros k0 d0 q [H|H] H1 H2; [injection H as <- <-; congruence|eapply I4; eassumption].
    + destruct (P k d (or_introl eq_refl) Ed) as (q & Q1 & Q2). destruct (ST k q Q1) as (tk & K1 & K2). rewrite K1, K2.
      pose proof (g_range _ _ _ _ _ G) as GR. assert (BR : (b < hi)%nat) by (destruct C as [[X _] _]; lia).
      destruct (extend_base_ok ps q Q2 (2 * length machine + 3) b m q C ltac:(constructor) ltac:(lia)) as (b1 & m1 & E1 & C1). rewrite E1.
      destruct (IH b1 m1 (q :: ps) C1 P') as (b' & m' & ps' & I1 & I2 & I3 & I4). exists b', m', ps'. split; [assumption|]. split; [assumption|]. split; [intros x Hx; apply I3; right; exact Hx|].
      intros k0 d0 q0 [H|H] H1 H2; [injection H as <- <-; rewrite Q1 in H2; injection H2 as <-; apply I3; left; reflexivity|eapply I4; eassumption].
Qed.
Lemma min_pos_ok T l : states T -> pub_ok l ->
  (min_pos_of mt machine T lo None None l = Some None /\ forall k d, In (k, d) l -> d_pos d <> None) \/
  (exists m, min_pos_of mt machine T lo None None l = Some (Some m) /\ (lo <= m < hi)%nat /\ (exists k d, In (k, d) l /\ d_pos d = None) /\
    (forall k d q, In (k, d) l -> d_pos d = None -> st k = Some q -> (lo <= q < hi)%nat /\ reach machine m q) /\
    (length l = 1%nat -> forall k d q, In (k, d) l -> d_pos d = None -> st k = Some q -> m = q)).
Proof.
  intros ST. induction l as [|[k d] l IH]; intros P; cbn [min_pos_of].
  - left. split; [reflexivity|intros k d []].
  - assert (P' : pub_ok l) by (intros k0 d0 H; apply (P k0 d0); right; exact H). destruct (d_pos d) as [x|] eqn:Ed.
    + destruct (IH P') as [[I1 I2]|(m & I1 & I2 & (k1 & d1 & I3 & I4) & I5 & I6)].
      * left. split; [assumption|]. intros k0 d0 [H|H]; [injection H as <- <-; congruence|eapply I2; exact H].
      * right. exists m. split; [assumption|]. split; [assumption|]. split; [exists k1, d1; split; [right; assumption|assumption]|]. split.
        -- intros k0 d0 q [H|H] H1 H2; [injection H as <- <-; congruence|eapply I5; eassumption].
        -- intros L. cbn [length] in L. destruct l; [destruct I3|cbn [length] in L; lia].
    + right. destruct (P k d (or_introl eq_refl) Ed) as (q & Q1 & Q2). destruct (ST k q Q1) as (tk & K1 & K2). rewrite K1, K2.
      destruct (extend_base_first q Q2 (2 * length machine + 1)) as (b & E1 & C1). replace (2 * length machine + 3)%nat with (S (S (2 * length machine + 1))) by lia. rewrite E1.
      destruct (min_pos_more T l ST b q [q] C1 P') as (b' & m' & ps' & I1 & (I2 & I2' & I2'') & I3 & I4). exists m'. split; [assumption|]. split; [destruct I2 as [X _]; lia|].
      split; [exists k, d; split; [left; reflexivity|assumption]|]. split.
      * intros k0 d0 q0 H H1 H2. assert (IQ : In q0 ps') by (destruct H as [H|H]; [injection H as <- <-; rewrite Q1 in H2; injection H2 as <-; apply I3; left; reflexivity|eapply I4; eassumption]).
        destruct (I2'' q0 IQ) as [Z1 (a & Z2 & Z3)]. split; [assumption|]. exists a. split; [assumption|lia].
      * intros L. cbn [length] in L. destruct l as [|? ?]; [|cbn [length] in L; lia]. cbn [min_pos_of] in I1. injection I1 as <-. intros k0 d0 q0 [H|[]] _ H2. injection H as <- <-. congruence.
Qed.
End Climb.
