(** The states of one list: blocks of at most [max_transition] + 1 states, each block but the first one is entered from a NoOp state. *)
From Coq Require Import Permutation.
From Verif Require Import Base.Bytes Model.Endian Model.Varint Model.Chunk Model.SimpleChunk Model.TransposeEncoder Model.TransposeDecoder.
From Verif Require Import Proof.TransposeLoops.

Definition with_source (c : nat) (s : state_info) : state_info := {| s_tag := s_tag s; s_base := s_base s; s_source := Some c |}.
Lemma nth_set_sources c : forall n l j, nth_error (set_sources n c l) j = if Nat.ltb j n then option_map (with_source c) (nth_error l j) else nth_error l j.
Proof.
  induction n as [|n IH]; intros l j; [destruct l; destruct j; reflexivity|]. destruct l as [|s l]; cbn [set_sources].
  - destruct j; cbn [nth_error option_map]; destruct (Nat.ltb _ _); reflexivity.
  - destruct j as [|j]; [reflexivity|]. cbn [nth_error]. rewrite IH. reflexivity.
Qed.
Lemma nth_set_block mt c : forall skip l j, nth_error (set_block_sources mt skip c l) j =
  if Nat.leb skip j && Nat.leb j (skip + mt) then option_map (with_source c) (nth_error l j) else nth_error l j.
Proof.
  induction skip as [|skip IH]; intros l j.
  - replace (set_block_sources mt 0 c l) with (set_sources (S mt) c l) by (destruct l; reflexivity). rewrite nth_set_sources.
    cbn [Nat.leb andb Nat.add]. destruct (Nat.ltb_spec j (S mt)), (Nat.leb_spec j mt); try lia; reflexivity.
  - destruct l as [|s l].
    + replace (set_block_sources mt (S skip) c []) with (set_sources (S mt) c (@nil state_info)) by reflexivity. cbn [set_sources].
      destruct j; cbn [nth_error option_map]; destruct (_ && _); reflexivity.
    + cbn [set_block_sources]. destruct j as [|j]; [reflexivity|]. cbn [nth_error]. rewrite IH. reflexivity.
Qed.
Lemma length_set_sources c : forall n l, length (set_sources n c l) = length l.
Proof. induction n as [|n IH]; intros l; destruct l; cbn [set_sources length]; auto. Qed.
Lemma length_set_block mt c : forall skip l, length (set_block_sources mt skip c l) = length l.
Proof.
  induction skip as [|skip IH]; intros l; destruct l as [|s l]; cbn [set_block_sources length]; rewrite ?length_set_sources; auto.
Qed.

(** ** The queue *)
Lemma insert_perm e l : Permutation (insert e l) (e :: l).
Proof.
  induction l as [|f l IH]; cbn [insert]; [reflexivity|]. destruct (entry_before e f); [reflexivity|]. rewrite IH. apply perm_swap.
Qed.
(** Sorted by the number of transitions *)
Fixpoint sorted (l : list entry) : Prop := match l with [] => True | e :: l => Forall (fun f => snd e <= snd f) l /\ sorted l end.
Lemma insert_sorted e l : sorted l -> sorted (insert e l).
Proof.
  induction l as [|f l IH]; cbn [insert sorted]; [auto|]. intros [F S1]. destruct (entry_before e f) eqn:Q.
  - cbn [sorted]. split; [|auto]. assert (snd e <= snd f) by (unfold entry_before in Q; lia).
    constructor; [assumption|]. eapply Forall_impl; [|exact F]. cbv beta. intros; lia.
  - cbn [sorted]. split; [|auto]. assert (snd f <= snd e) by (unfold entry_before in Q; lia).
    eapply Permutation_Forall; [apply Permutation_sym, insert_perm|]. constructor; assumption.
Qed.
Definition sum (l : list entry) : Z := fold_right (fun e a => snd e + a) 0 l.
Lemma sum_perm a b : Permutation a b -> sum a = sum b.
Proof. unfold sum. induction 1; cbn [fold_right]; lia. Qed.
Lemma sum_in e l : Forall (fun f => 0 <= snd f) l -> In e l -> snd e <= sum l.
Proof.
  intros F H. assert (N : forall l, Forall (fun f : entry => 0 <= snd f) l -> 0 <= sum l).
  { clear. intros l F. induction F; cbn [sum fold_right]; [lia|]. fold (sum l). lia. }
  induction l as [|f l IH]; [destruct H|]. inversion F as [|? ? F1 F2]; subst. cbn [sum fold_right]. fold (sum l). specialize (N l F2).
  destruct H as [->|H]; [lia|]. specialize (IH F2 H). lia.
Qed.

Section Fill.
Variable mt : nat.
Hypothesis mt_pos : (1 <= mt)%nat.
Variable owner : option nat.
Variable Q0 : list entry.
Variable T0 : list tag_info.
Variable noops0 : list (nat * nat).
Variable hi : nat.
Notation keys := (map (@fst dest_index Z)).

Definition at_pos (p : partial) (q : nat) : option state_info := if Nat.ltb q (p_pos p) then None else nth_error (p_tail p) (q - p_pos p).
Record filling (queue : list entry) (p : partial) (cur : nat) : Prop := {
  f_len : (p_pos p + length (p_tail p) = hi)%nat;
  f_cur : (p_pos p <= cur <= hi)%nat;
  f_bases : forall i b, nth_error (p_bases p) i = Some b -> (cur <= b < hi)%nat;
  f_apart : forall i j b b', (i < j)%nat -> nth_error (p_bases p) i = Some b -> nth_error (p_bases p) j = Some b' -> (b' + mt < b)%nat;
  f_noop_in : forall i, In (DNoOp i) (keys queue) -> (i < length (p_bases p))%nat;
  f_nodup : NoDup (keys queue);
  f_incl : forall e, In e (keys queue) -> (exists i, e = DNoOp i) \/ In e (keys Q0);
  f_free : forall i b q s, In (DNoOp i) (keys queue) -> nth_error (p_bases p) i = Some b -> (b <= q <= b + mt)%nat -> at_pos p q = Some s -> s_source s = None;
  f_state : forall q s, at_pos p q = Some s ->
    match s_source s with
    | None => (q < cur)%nat \/ exists i b, nth_error (p_bases p) i = Some b /\ In (DNoOp i) (keys queue) /\ (b <= q <= b + mt)%nat
    | Some c => exists b, (p_pos p <= c < b)%nat /\ (cur <= b <= q)%nat /\ (q <= b + mt)%nat /\
        (exists sc, at_pos p c = Some sc /\ s_tag sc = None /\ s_base sc = Some b) /\
        forall q' s', (b <= q' <= b + mt)%nat -> at_pos p q' = Some s' -> s_source s' = Some c
    end;
  f_kind : forall q s, at_pos p q = Some s ->
    match s_tag s with
    | Some k => In (DTag k) (keys Q0)
    | None => (exists b, s_base s = Some b /\ (cur <= b < hi)%nat) \/ (s_base s = None /\ exists t, owner = Some t /\ In (t, q) (p_noops p))
    end }.

Lemma at_range p q s : at_pos p q = Some s -> (p_pos p + length (p_tail p) = hi)%nat -> (p_pos p <= q < hi)%nat.
Proof.
  unfold at_pos. destruct (Nat.ltb_spec q (p_pos p)); [discriminate|]. intros E L.
  assert (q - p_pos p < length (p_tail p))%nat by (apply nth_error_Some; congruence). lia.
Qed.
(** Adding a state without changing the other ones *)
Lemma filling_add queue e p p' cur s : filling (e :: queue) p cur -> (1 <= p_pos p)%nat -> p_pos p' = (p_pos p - 1)%nat -> p_tail p' = s :: p_tail p ->
  p_bases p' = p_bases p -> (forall x, In x (p_noops p) -> In x (p_noops p')) -> (forall i, fst e <> DNoOp i) -> s_source s = None ->
  match s_tag s with
  | Some k => In (DTag k) (keys Q0)
  | None => s_base s = None /\ exists t, owner = Some t /\ In (t, p_pos p') (p_noops p')
  end -> filling queue p' cur.
Proof.
  intros [F1 F2 F3 F4 F5 F6 F7 F8 F9 F10] HP E1 E2 E3 E4 NE SS K.
  assert (A : forall q, at_pos p' q = if Nat.eqb q (p_pos p') then Some s else at_pos p q).
  { intros q. unfold at_pos. rewrite E2, E1. destruct (Nat.eqb_spec q (p_pos p - 1)) as [->|N].
    - rewrite Nat.ltb_irrefl, Nat.sub_diag. reflexivity.
    - destruct (Nat.ltb_spec q (p_pos p - 1)), (Nat.ltb_spec q (p_pos p)); try lia; try reflexivity.
      replace (q - (p_pos p - 1))%nat with (S (q - p_pos p)) by lia. reflexivity. }
  assert (NI : forall i, In (DNoOp i) (keys (e :: queue)) <-> In (DNoOp i) (keys queue)).
  { intros i. cbn [map In]. specialize (NE i). tauto. }
  constructor; rewrite ?E3.
  - rewrite E1, E2. cbn [length]. lia.
  - lia.
  - exact F3.
  - exact F4.
  - intros i Hi. apply F5, NI, Hi.
  - cbn [map] in F6. inversion F6; assumption.
  - intros x Hx. apply F7. cbn [map In]. right; exact Hx.
  - intros i b q s' Hi Hb Hq. rewrite A. destruct (Nat.eqb_spec q (p_pos p')); [intros EE; injection EE as <-; exact SS|]. intros Hs. eapply F8; eauto. apply NI, Hi.
  - intros q s' Hs. rewrite A in Hs. destruct (Nat.eqb_spec q (p_pos p')) as [->|N].
    + injection Hs as <-. rewrite SS. left. lia.
    + specialize (F9 q s' Hs). destruct (s_source s') as [c|].
      * destruct F9 as (b & B1 & B2 & B3 & (sc & B4 & B5 & B6) & B7). exists b. split; [lia|]. split; [lia|]. split; [lia|]. split.
        -- exists sc. rewrite A. destruct (Nat.eqb_spec c (p_pos p')); [lia|]. auto.
        -- intros q' s'' Hq'. rewrite A. destruct (Nat.eqb_spec q' (p_pos p')); [lia|]. apply B7; assumption.
      * destruct F9 as [F9|(i & b & B1 & B2 & B3)]; [left; assumption|]. right. exists i, b. split; [assumption|]. split; [apply NI, B2|assumption].
  - intros q s' Hs. rewrite A in Hs. destruct (Nat.eqb_spec q (p_pos p')) as [->|N].
    + injection Hs as <-. destruct (s_tag s); [exact K|]. right. exact K.
    + specialize (F10 q s' Hs). destruct (s_tag s'); [exact F10|]. destruct F10 as [F10|(G1 & t & G2 & G3)]; [left; exact F10|]. right. split; [exact G1|]. exists t. auto.
Qed.
(** Adding a NoOp state which leads to a block *)
Lemma filling_noop queue i w b p p' cur : filling ((DNoOp i, w) :: queue) p cur -> (1 <= p_pos p)%nat -> nth_error (p_bases p) i = Some b ->
  p_pos p' = (p_pos p - 1)%nat ->
  p_tail p' = set_block_sources mt (b - p_pos p') (p_pos p') ({| s_tag := None; s_base := Some b; s_source := None |} :: p_tail p) ->
  p_bases p' = p_bases p -> p_noops p' = p_noops p -> filling queue p' cur.
Proof.
  intros [F1 F2 F3 F4 F5 F6 F7 F8 F9 F10] HP Hb E1 E2 E3 E4. set (c := p_pos p') in *. pose proof (F3 i b Hb) as BR.
  assert (A : forall q, at_pos p' q = if Nat.eqb q c then Some {| s_tag := None; s_base := Some b; s_source := None |}
                                  else if Nat.leb b q && Nat.leb q (b + mt) then option_map (with_source c) (at_pos p q) else at_pos p q).
  { intros q. unfold at_pos. rewrite E2. fold c. rewrite nth_set_block. rewrite E1. destruct (Nat.eqb_spec q (p_pos p - 1)) as [->|N].
    - rewrite Nat.ltb_irrefl, Nat.sub_diag. destruct (Nat.leb_spec (b - (p_pos p - 1)) 0); [lia|]. reflexivity.
    - destruct (Nat.ltb_spec q (p_pos p - 1)), (Nat.ltb_spec q (p_pos p)); try lia.
      + destruct (_ && _); reflexivity.
      + replace (q - (p_pos p - 1))%nat with (S (q - p_pos p)) by lia. cbn [nth_error].
        replace (Nat.leb (b - (p_pos p - 1)) (S (q - p_pos p)) && Nat.leb (S (q - p_pos p)) (b - (p_pos p - 1) + mt)) with (Nat.leb b q && Nat.leb q (b + mt)); [reflexivity|].
        destruct (Nat.leb_spec b q), (Nat.leb_spec q (b + mt)), (Nat.leb_spec (b - (p_pos p - 1)) (S (q - p_pos p))), (Nat.leb_spec (S (q - p_pos p)) (b - (p_pos p - 1) + mt)); try lia; reflexivity. }
  assert (IN : forall q, Nat.leb b q && Nat.leb q (b + mt) = true <-> (b <= q <= b + mt)%nat) by (intros q; rewrite andb_true_iff, !Nat.leb_le; lia).
  assert (A1 : forall q s, at_pos p' q = Some s -> (q = c /\ s = {| s_tag := None; s_base := Some b; s_source := None |}) \/
     (q <> c /\ (b <= q <= b + mt)%nat /\ exists s0, at_pos p q = Some s0 /\ s = with_source c s0) \/ (q <> c /\ ~ (b <= q <= b + mt)%nat /\ at_pos p q = Some s)).
  { intros q s. rewrite A. destruct (Nat.eqb_spec q c) as [->|N]; [intros EE; injection EE as <-; auto|].
    destruct (Nat.leb b q && Nat.leb q (b + mt)) eqn:Q.
    - apply IN in Q. destruct (at_pos p q) as [s0|]; [|discriminate]. intros EE; injection EE as <-. right; left. split; [assumption|]. split; [assumption|]. exists s0; auto.
    - intros Hs. right; right. split; [assumption|]. split; [intros X; apply IN in X; congruence|assumption]. }
  cbn [map fst] in F6. inversion F6 as [|? ? N6 F6']; subst.
  assert (OTH : forall j b', In (DNoOp j) (keys queue) -> nth_error (p_bases p) j = Some b' -> (b' + mt < b \/ b + mt < b')%nat).
  { intros j b' Hj Hb'. destruct (Nat.lt_trichotomy i j) as [Q|[Q|Q]]; [left; eapply F4; eassumption|subst j; contradiction|right; eapply F4; eassumption]. }
  assert (CN : forall q s, at_pos p q = Some s -> q <> c) by (intros q s Hs; apply at_range in Hs; [lia|assumption]).
  constructor; rewrite ?E3, ?E4.
  - rewrite E2, length_set_block. cbn [length]. lia.
  - lia.
  - exact F3.
  - exact F4.
  - intros j Hj. apply F5. cbn [map fst In]. right; exact Hj.
  - exact F6'.
  - intros x Hx. apply F7. cbn [map In]. right; exact Hx.
  - intros j b' q s Hj Hb' Hq Hs. pose proof (OTH j b' Hj Hb') as D. pose proof (F3 j b' Hb').
    destruct (A1 q s Hs) as [[-> ->]|[(_ & Q & _)|(_ & _ & Q)]]; [reflexivity|lia|]. apply (F8 j b' q s); auto. cbn [map fst In]. right; exact Hj.
  - intros q s Hs. destruct (A1 q s Hs) as [[-> ->]|[(N & Q & s0 & Q1 & ->)|(N & Q & Q1)]].
    + cbn [s_source]. left. lia.
    + cbn [with_source s_source]. exists b. split; [lia|]. split; [lia|]. split; [lia|]. split.
      * exists {| s_tag := None; s_base := Some b; s_source := None |}. rewrite A, Nat.eqb_refl. auto.
      * intros q' s' Hq' Hs'. destruct (A1 q' s' Hs') as [[-> ->]|[(_ & _ & s1 & _ & ->)|(_ & X & _)]]; [lia|reflexivity|contradiction].
    + specialize (F9 q s Q1). destruct (s_source s) as [c1|] eqn:Sc.
      * destruct F9 as (b1 & B1 & B2 & B3 & (sc & B4 & B5 & B6) & B7). exists b1. split; [lia|]. split; [lia|]. split; [lia|].
        assert (DIS : forall q', (b1 <= q' <= b1 + mt)%nat -> (b <= q' <= b + mt)%nat -> forall s', at_pos p q' = Some s' -> False).
        { intros q' H1 H2 s' Hs'. specialize (B7 q' s' H1 Hs'). assert (s_source s' = None) by (eapply (F8 i b q' s'); try eassumption; cbn [map fst In]; left; reflexivity). congruence. }
        split.
        -- pose proof (CN c1 sc B4). destruct (Nat.leb b c1 && Nat.leb c1 (b + mt)) eqn:X.
           ++ exists (with_source c sc). rewrite A. destruct (Nat.eqb_spec c1 c); [contradiction|]. rewrite X, B4. cbn [with_source s_tag s_base]. auto.
           ++ exists sc. rewrite A. destruct (Nat.eqb_spec c1 c); [contradiction|]. rewrite X. auto.
        -- intros q' s' Hq' Hs'. destruct (A1 q' s' Hs') as [[-> ->]|[(_ & X & s1 & X1 & ->)|(_ & X & X1)]]; [lia| |eapply B7; eassumption].
           exfalso. eapply DIS; eassumption.
      * destruct F9 as [F9|(j & b' & B1 & B2 & B3)]; [left; assumption|]. right. exists j, b'. split; [assumption|]. split; [|assumption].
        cbn [map fst In] in B2. destruct B2 as [B2|B2]; [|assumption]. injection B2 as <-. rewrite Hb in B1. injection B1 as <-. contradiction.
  - intros q s Hs. destruct (A1 q s Hs) as [[-> ->]|[(N & Q & s0 & Q1 & ->)|(N & Q & Q1)]].
    + cbn [s_tag s_base]. left. exists b. auto.
    + cbn [with_source s_tag s_base]. exact (F10 q s0 Q1).
    + exact (F10 q s Q1).
Qed.
(** Starting the next block *)
Lemma filling_block queue p cur w : filling queue p cur -> (p_pos p < cur)%nat -> (cur <= p_pos p + S mt)%nat -> (cur = hi \/ cur = p_pos p + S mt)%nat ->
  filling (insert (DNoOp (length (p_bases p)), w) queue)
    {| p_pos := p_pos p; p_tail := p_tail p; p_tags := p_tags p; p_noops := p_noops p; p_bases := p_bases p ++ [p_pos p] |} (p_pos p).
Proof.
  intros [F1 F2 F3 F4 F5 F6 F7 F8 F9 F10] HP HC HE. set (e := (DNoOp (length (p_bases p)), w) : entry).
  set (p' := {| p_pos := p_pos p; p_tail := p_tail p; p_tags := p_tags p; p_noops := p_noops p; p_bases := p_bases p ++ [p_pos p] |}).
  assert (A : forall q, at_pos p' q = at_pos p q) by reflexivity.
  assert (KP : Permutation (keys (insert e queue)) (DNoOp (length (p_bases p)) :: keys queue)) by (rewrite (insert_perm e queue); reflexivity).
  assert (KI : forall x, In x (keys (insert e queue)) <-> x = DNoOp (length (p_bases p)) \/ In x (keys queue)).
  { intros x. split; intros H.
    - apply (Permutation_in x KP) in H. destruct H as [<-|H]; auto.
    - apply (Permutation_in x (Permutation_sym KP)). destruct H as [->|H]; [left; reflexivity|right; exact H]. }
  assert (FR : ~ In (DNoOp (length (p_bases p))) (keys queue)) by (intros H; apply F5 in H; lia).
  assert (BS : forall i b, nth_error (p_bases p ++ [p_pos p]) i = Some b -> (i = length (p_bases p) /\ b = p_pos p) \/ ((i < length (p_bases p))%nat /\ nth_error (p_bases p) i = Some b)).
  { intros i b. destruct (Nat.lt_ge_cases i (length (p_bases p))) as [Q|Q]; [rewrite nth_error_app1 by assumption; auto|].
    rewrite nth_error_app2 by assumption. destruct (i - length (p_bases p))%nat as [|n] eqn:D; cbn [nth_error]; [|destruct n; discriminate].
    intros EE; injection EE as <-. left. split; [lia|reflexivity]. }
  assert (BI : forall i b, nth_error (p_bases p) i = Some b -> nth_error (p_bases p ++ [p_pos p]) i = Some b).
  { intros i b H. rewrite nth_error_app1; [assumption|]. apply nth_error_Some. congruence. }
  assert (BL : nth_error (p_bases p ++ [p_pos p]) (length (p_bases p)) = Some (p_pos p)) by (rewrite nth_error_app2, Nat.sub_diag by lia; reflexivity).
  assert (UN : forall q s, at_pos p q = Some s -> (q < cur)%nat -> s_source s = None).
  { intros q s Hs Hq. specialize (F9 q s Hs). destruct (s_source s) as [c|]; [|reflexivity]. destruct F9 as (b & B1 & B2 & _). lia. }
  constructor.
  - exact F1.
  - cbn [p' p_pos]. lia.
  - cbn [p' p_bases p_pos]. intros i b Hb. destruct (BS i b Hb) as [[-> ->]|[_ Hb']]; [lia|]. apply F3 in Hb'. lia.
  - cbn [p' p_bases]. intros i j b b' Hij Hb Hb'. destruct (BS j b' Hb') as [[-> ->]|[Lj Hb2]].
    + destruct (BS i b Hb) as [[-> ->]|[Li Hb1]]; [lia|]. pose proof (F3 i b Hb1). destruct HE as [->|HE]; [|lia].
      (* the last block is not full only if it is the first one *)
      exfalso. lia.
    + destruct (BS i b Hb) as [[-> ->]|[Li Hb1]]; [lia|]. exact (F4 i j b b' Hij Hb1 Hb2).
  - cbn [p' p_bases]. intros i Hi. rewrite app_length. cbn [length]. apply KI in Hi. destruct Hi as [Hi|Hi]; [injection Hi as ->; lia|]. apply F5 in Hi. lia.
  - eapply Permutation_NoDup; [apply Permutation_sym, KP|]. constructor; assumption.
  - intros x Hx. apply KI in Hx. destruct Hx as [->|Hx]; [left; eexists; reflexivity|apply F7, Hx].
  - cbn [p' p_bases]. intros i b q s Hi Hb Hq. rewrite A. intros Hs. apply KI in Hi. destruct Hi as [Hi|Hi].
    + injection Hi as ->. rewrite BL in Hb. injection Hb as <-. apply at_range in Hs as R; [|assumption]. apply (UN q s Hs). lia.
    + destruct (BS i b Hb) as [[-> ->]|[Li Hb1]]; [contradiction|]. eapply F8; eassumption.
  - intros q s. rewrite A. intros Hs. specialize (F9 q s Hs). apply at_range in Hs as R; [|assumption]. destruct (s_source s) as [c|].
    + destruct F9 as (b & B1 & B2 & B3 & B4 & B5). exists b. cbn [p' p_pos]. split; [lia|]. split; [lia|]. split; [lia|]. split; [exact B4|exact B5].
    + right. cbn [p' p_bases]. destruct F9 as [F9|(i & b & B1 & B2 & B3)].
      * exists (length (p_bases p)), (p_pos p). split; [exact BL|]. split; [apply KI; left; reflexivity|lia].
      * exists i, b. split; [apply BI, B1|]. split; [apply KI; right; exact B2|lia].
  - intros q s. rewrite A. intros Hs. specialize (F10 q s Hs). cbn [p' p_pos p_noops]. destruct (s_tag s); [exact F10|]. destruct F10 as [(b & B1 & B2)|F10]; [|right; exact F10].
    left. exists b. split; [assumption|lia].
Qed.

(** ** The tags *)
Definition tag_at (p : partial) (q k : nat) : Prop := exists s, at_pos p q = Some s /\ s_tag s = Some k.
Definition bare_at (p : partial) (q : nat) : Prop := exists s, at_pos p q = Some s /\ s_tag s = None /\ s_base s = None.
Definition keeps (p p' : partial) : Prop := forall q s, at_pos p q = Some s -> exists s', at_pos p' q = Some s' /\ s_tag s' = s_tag s /\ s_base s' = s_base s.
Definition tagged (queue : list entry) (p : partial) : Prop :=
  length (p_tags p) = length T0 /\
  match owner with
  | None => p_noops p = noops0 /\ forall k ti0, nth_error T0 k = Some ti0 ->
      (In (DTag k) (keys Q0) -> ~ In (DTag k) (keys queue) -> exists q, nth_error (p_tags p) k = Some (set_state q ti0) /\ tag_at p q k) /\
      (~ In (DTag k) (keys Q0) \/ In (DTag k) (keys queue) -> nth_error (p_tags p) k = Some ti0)
  | Some t => (forall k, k <> t -> nth_error (p_tags p) k = nth_error T0 k) /\
      forall ti0, nth_error T0 t = Some ti0 -> exists ti, nth_error (p_tags p) t = Some ti /\
        t_incoming ti = t_incoming ti0 /\ t_state ti = t_state ti0 /\ t_base ti = t_base ti0 /\ map fst (t_dests ti) = map fst (t_dests ti0) /\
        (forall k d0, find_dest k (t_dests ti0) = Some d0 ->
          (In (DTag k) (keys Q0) -> ~ In (DTag k) (keys queue) -> exists q, find_dest k (t_dests ti) = Some {| d_pos := Some q; d_count := d_count d0 |} /\ tag_at p q k) /\
          (~ In (DTag k) (keys Q0) \/ In (DTag k) (keys queue) -> find_dest k (t_dests ti) = Some d0)) /\
        (In DPublic (keys Q0) -> ~ In DPublic (keys queue) -> exists q, t_noop ti = Some q /\ bare_at p q /\ p_noops p = noops0 ++ [(t, q)]) /\
        (~ In DPublic (keys Q0) \/ In DPublic (keys queue) -> t_noop ti = t_noop ti0 /\ p_noops p = noops0)
  end.
Hypothesis Q0_noop : forall i, ~ In (DNoOp i) (keys Q0).
Hypothesis Q0_owner : match owner with
  | None => ~ In DPublic (keys Q0) /\ forall k, In (DTag k) (keys Q0) -> (k < length T0)%nat
  | Some t => exists ti0, nth_error T0 t = Some ti0 /\ forall k, In (DTag k) (keys Q0) -> In k (map fst (t_dests ti0))
  end.

Definition touched (e : entry) (p : partial) (q : nat) : bool :=
  match fst e with
  | DNoOp i => match nth_error (p_bases p) i with Some b => Nat.leb b q && Nat.leb q (b + mt) | None => false end
  | _ => false
  end.
Definition added (e : entry) (p p' : partial) : Prop :=
  p_pos p' = (p_pos p - 1)%nat /\ p_bases p' = p_bases p /\
  exists s, s_source s = None /\ forall q, at_pos p' q =
    if Nat.eqb q (p_pos p') then Some s else if touched e p q then option_map (with_source (p_pos p')) (at_pos p q) else at_pos p q.
Lemma added_keeps e p p' : added e p p' -> (1 <= p_pos p)%nat -> keeps p p'.
Proof.
  intros (E1 & E2 & s & E3 & A) HP q sq Hq. rewrite A. destruct (Nat.eqb_spec q (p_pos p')) as [->|N].
  - exfalso. unfold at_pos in Hq. destruct (Nat.ltb_spec (p_pos p') (p_pos p)); [discriminate|lia].
  - rewrite Hq. destruct (touched e p q); [|exists sq; auto]. exists (with_source (p_pos p') sq). auto.
Qed.
Lemma added_plain e p p' s : (1 <= p_pos p)%nat -> p_pos p' = (p_pos p - 1)%nat -> p_tail p' = s :: p_tail p -> p_bases p' = p_bases p -> (forall i, fst e <> DNoOp i) -> s_source s = None ->
  added e p p' /\ at_pos p' (p_pos p') = Some s.
Proof.
  intros HP E1 E2 E3 NE SS.
  assert (A : forall q, at_pos p' q = if Nat.eqb q (p_pos p') then Some s else at_pos p q).
  { intros q. unfold at_pos. rewrite E2, E1. destruct (Nat.eqb_spec q (p_pos p - 1)) as [->|N].
    - rewrite Nat.ltb_irrefl, Nat.sub_diag. reflexivity.
    - destruct (Nat.ltb_spec q (p_pos p - 1)), (Nat.ltb_spec q (p_pos p)); try lia; try reflexivity.
      replace (q - (p_pos p - 1))%nat with (S (q - p_pos p)) by lia. reflexivity. }
  split; [|rewrite A, Nat.eqb_refl; reflexivity]. split; [assumption|]. split; [assumption|]. exists s. split; [assumption|]. intros q. rewrite A.
  unfold touched. specialize (NE). destruct (fst e) as [k|i|] eqn:Q; [reflexivity|exfalso; apply (NE i); reflexivity|reflexivity].
Qed.
Lemma update_dest_spec key f l : In key (map fst l) -> map fst (update_dest key f l) = map fst l /\
  (forall k, k <> key -> find_dest k (update_dest key f l) = find_dest k l) /\
  (forall d, find_dest key l = Some d -> find_dest key (update_dest key f l) = Some (f d)).
Proof.
  induction l as [|[k d] l IH]; intros H; [destruct H|]. cbn [update_dest map fst find_dest]. destruct (Nat.eqb_spec k key) as [->|N].
  - cbn [map fst find_dest]. split; [reflexivity|]. split.
    + intros k' Nk. destruct (Nat.eqb_spec key k'); [congruence|reflexivity].
    + intros d'. rewrite Nat.eqb_refl. intros EE; injection EE as <-. reflexivity.
  - cbn [map fst In] in H. destruct H as [H|H]; [congruence|]. destruct (IH H) as (I1 & I2 & I3). cbn [map fst find_dest]. rewrite I1. split; [reflexivity|]. split.
    + intros k' Nk. destruct (Nat.eqb k k'); [reflexivity|]. apply I2, Nk.
    + intros d'. destruct (Nat.eqb_spec k key); [congruence|]. apply I3.
Qed.
Lemma tag_at_keeps p p' q k : keeps p p' -> tag_at p q k -> tag_at p' q k.
Proof. intros K (s & S1 & S2). destruct (K q s S1) as (s' & K1 & K2 & K3). exists s'. split; [assumption|congruence]. Qed.
Lemma bare_at_keeps p p' q : keeps p p' -> bare_at p q -> bare_at p' q.
Proof. intros K (s & S1 & S2 & S3). destruct (K q s S1) as (s' & K1 & K2 & K3). exists s'. split; [assumption|split; congruence]. Qed.
(** What does not concern the tags *)
Lemma tagged_keeps e queue p p' : keeps p p' -> p_tags p' = p_tags p -> p_noops p' = p_noops p -> (exists i, fst e = DNoOp i) -> tagged (e :: queue) p -> tagged queue p'.
Proof.
  intros K E1 E2 (i & Ei) [TL TG]. split; [congruence|].
  assert (KQ : forall x, (forall i, x <> DNoOp i) -> (In x (keys (e :: queue)) <-> In x (keys queue))).
  { intros x Nx. cbn [map In]. rewrite Ei. specialize (Nx i). split; [intros [?|?]; [congruence|assumption]|auto]. }
  assert (KT : forall k, In (DTag k) (keys (e :: queue)) <-> In (DTag k) (keys queue)) by (intros k; apply KQ; discriminate).
  assert (KP : In DPublic (keys (e :: queue)) <-> In DPublic (keys queue)) by (apply KQ; discriminate).
  destruct owner as [t|].
  - destruct TG as [G1 G2]. rewrite E1. split; [exact G1|]. intros ti0 H0. destruct (G2 ti0 H0) as (ti & H1 & H2 & H3 & H4 & H5 & H6 & H7 & H8).
    exists ti. repeat (split; [assumption|]). split; [|rewrite E2; split].
    + intros k d0 Hd. destruct (H6 k d0 Hd) as [A1 A2]. split.
      * intros X1 X2. rewrite <- KT in X2. destruct (A1 X1 X2) as (q & Q1 & Q2). exists q. split; [assumption|]. eapply tag_at_keeps; eassumption.
      * intros X. apply A2. rewrite KT. exact X.
    + intros X1 X2. rewrite <- KP in X2. destruct (H7 X1 X2) as (q & Q1 & Q2 & Q3). exists q. split; [assumption|]. split; [eapply bare_at_keeps; eassumption|assumption].
    + intros X. apply H8. rewrite KP. exact X.
  - destruct TG as [G1 G2]. split; [congruence|]. intros k ti0 H0. destruct (G2 k ti0 H0) as [A1 A2]. rewrite E1. split.
    + intros X1 X2. rewrite <- KT in X2. destruct (A1 X1 X2) as (q & Q1 & Q2). exists q. split; [assumption|]. eapply tag_at_keeps; eassumption.
    + intros X. apply A2. rewrite KT. exact X.
Qed.
Lemma find_dest_key k l : In k (map fst l) <-> exists d, find_dest k l = Some d.
Proof.
  induction l as [|[k' d] l IH]; cbn [map fst In find_dest]; [split; [intros []|intros (d & D); discriminate]|].
  destruct (Nat.eqb_spec k' k) as [->|N]; [split; [intros _; eexists; reflexivity|auto]|]. rewrite <- IH. split; [intros [X|X]; [congruence|assumption]|auto].
Qed.
Lemma add_state_ok e queue p cur : filling (e :: queue) p cur -> tagged (e :: queue) p -> (1 <= p_pos p)%nat ->
  exists p', add_state mt owner e p = Some p' /\ added e p p' /\ filling queue p' cur /\ tagged queue p'.
Proof.
  intros F TG HP. unfold add_state. destruct (p_pos p) as [|pos] eqn:Ep; [lia|].
  assert (Epos : pos = (p_pos p - 1)%nat) by lia. assert (HP' : (1 <= p_pos p)%nat) by lia. clear Ep. subst pos.
  pose proof (f_nodup _ _ _ F) as ND. cbn [map] in ND. apply NoDup_cons_iff in ND. destruct ND as [N1 ND'].
  destruct e as [d w]. cbn [fst map] in *. destruct d as [tag|i|].
  - (* a tag *)
    assert (IN0 : In (DTag tag) (keys Q0)).
    { destruct (f_incl _ _ _ F (DTag tag)) as [(i & X)|X]; [left; reflexivity|discriminate|exact X]. }
    assert (KT : forall k, k <> tag -> (In (DTag k) (keys ((DTag tag, w) :: queue)) <-> In (DTag k) (keys queue))).
    { intros k Nk. cbn [map fst In]. split; [intros [X|X]; [congruence|assumption]|auto]. }
    assert (KP : In DPublic (keys ((DTag tag, w) :: queue)) <-> In DPublic (keys queue)) by (cbn [map fst In]; split; [intros [X|X]; [discriminate|assumption]|auto]).
    assert (HIN : In (DTag tag) (keys ((DTag tag, w) :: queue))) by (left; reflexivity).
    set (s := {| s_tag := Some tag; s_base := None; s_source := None |}).
    assert (STEP : forall tags', 
      let p' := {| p_pos := (p_pos p - 1)%nat; p_tail := s :: p_tail p; p_tags := tags'; p_noops := p_noops p; p_bases := p_bases p |} in
      added (DTag tag, w) p p' /\ filling queue p' cur /\ keeps p p' /\ tag_at p' (p_pos p - 1) tag).
    { intros tags' p'. destruct (added_plain (DTag tag, w) p p' s HP' eq_refl eq_refl eq_refl) as [A1 A2]; [discriminate|reflexivity|].
      split; [exact A1|]. split.
      - eapply filling_add with (s := s); try reflexivity; try eassumption; [cbn [p' p_noops]; auto|discriminate].
      - split; [eapply added_keeps; eassumption|]. exists s. auto. }
    destruct TG as [TL TG]. destruct owner as [t|] eqn:Eo.
    + destruct TG as [G1 G2]. destruct Q0_owner as (ti0 & O1 & O2). destruct (G2 ti0 O1) as (ti & H1 & H2 & H3 & H4 & H5 & H6 & H7 & H8).
      destruct (update_total (fun t : tag_info => set_dests (update_dest tag (fun d => {| d_pos := Some (p_pos p - 1)%nat; d_count := d_count d |}) (t_dests t)) t) (p_tags p) t) as [tags' Eu];
        [apply nth_error_Some; rewrite H1; discriminate|]. rewrite Eu. destruct (update_spec _ _ _ _ Eu) as (U1 & U2 & U3 & (x & U4 & U5)). rewrite H1 in U4. injection U4 as <-.
      specialize (STEP tags'). cbv zeta in STEP. destruct STEP as (S1 & S2 & S3 & S4). eexists. split; [reflexivity|]. split; [exact S1|]. split; [exact S2|].
      assert (KEY : In tag (map fst (t_dests ti))) by (rewrite H5; apply O2, IN0).
      destruct (update_dest_spec tag (fun d => {| d_pos := Some (p_pos p - 1)%nat; d_count := d_count d |}) (t_dests ti) KEY) as (D1 & D2 & D3).
      split; [cbn [p_tags]; congruence|]. rewrite Eo. split; [intros k Nk; cbn [p_tags]; rewrite U3 by assumption; apply G1, Nk|].
      intros ti0' O1'. rewrite O1 in O1'. injection O1' as <-. eexists. split; [exact U5|]. cbn [set_dests t_incoming t_state t_base t_dests t_noop p_noops].
      repeat (split; [assumption|]). split; [congruence|]. split; [|split].
      * intros k d0 Hd. destruct (H6 k d0 Hd) as [A1 A2]. destruct (Nat.eq_dec k tag) as [->|Nk].
        -- split; [|intros [X|X]; [contradiction|contradiction]]. intros _ _. exists (p_pos p - 1)%nat. split; [|exact S4]. apply D3, A2. right; exact HIN.
        -- rewrite D2 by assumption. rewrite KT in A1, A2 by assumption. split; [|exact A2]. intros X1 X2. destruct (A1 X1 X2) as (q & Q1 & Q2). exists q. split; [assumption|].
           eapply tag_at_keeps; eassumption.
      * intros X1 X2. rewrite KP in H7. destruct (H7 X1 X2) as (q & Q1 & Q2 & Q3). exists q. split; [assumption|]. split; [eapply bare_at_keeps; eassumption|assumption].
      * intros X. apply H8. rewrite KP. exact X.
    + destruct TG as [G1 G2]. destruct Q0_owner as [O1 O2]. 
      destruct (update_total (set_state (p_pos p - 1)%nat) (p_tags p) tag) as [tags' Eu]; [rewrite TL; apply O2, IN0|]. rewrite Eu.
      destruct (update_spec _ _ _ _ Eu) as (U1 & U2 & U3 & (x & U4 & U5)).
      specialize (STEP tags'). cbv zeta in STEP. destruct STEP as (S1 & S2 & S3 & S4). eexists. split; [reflexivity|]. split; [exact S1|]. split; [exact S2|].
      split; [cbn [p_tags]; congruence|]. rewrite Eo. cbn [p_tags p_noops]. split; [exact G1|]. intros k ti0 H0. destruct (G2 k ti0 H0) as [A1 A2]. destruct (Nat.eq_dec k tag) as [->|Nk].
      * split; [|intros [X|X]; contradiction]. intros _ _. exists (p_pos p - 1)%nat. split; [|exact S4]. rewrite U5. specialize (A2 (or_intror HIN)). rewrite U4 in A2. congruence.
      * rewrite U3 by assumption. rewrite KT in A1, A2 by assumption. split; [|exact A2]. intros X1 X2. destruct (A1 X1 X2) as (q & Q1 & Q2). exists q. split; [assumption|].
        eapply tag_at_keeps; eassumption.
  - (* a NoOp for a block *)
    assert (Li : (i < length (p_bases p))%nat) by (apply (f_noop_in _ _ _ F); left; reflexivity).
    destruct (nth_error (p_bases p) i) as [b|] eqn:Eb; [|apply nth_error_None in Eb; lia]. pose proof (f_bases _ _ _ F i b Eb) as BR. pose proof (f_cur _ _ _ F).
    cbv zeta. destruct (Nat.ltb_spec b (p_pos p - 1)); [lia|].
    set (s := {| s_tag := None; s_base := Some b; s_source := None |}).
    set (p' := {| p_pos := (p_pos p - 1)%nat; p_tail := set_block_sources mt (b - (p_pos p - 1)) (p_pos p - 1) (s :: p_tail p); p_tags := p_tags p; p_noops := p_noops p; p_bases := p_bases p |}).
    exists p'. split; [reflexivity|].
    assert (AD : added (DNoOp i, w) p p').
    { split; [reflexivity|]. split; [reflexivity|]. exists s. split; [reflexivity|]. intros q. unfold touched. cbn [fst]. rewrite Eb. unfold at_pos. cbn [p' p_pos p_tail]. rewrite nth_set_block.
      destruct (Nat.eqb_spec q (p_pos p - 1)) as [->|N].
      - rewrite Nat.ltb_irrefl, Nat.sub_diag. destruct (Nat.leb_spec (b - (p_pos p - 1)) 0); [lia|]. reflexivity.
      - destruct (Nat.ltb_spec q (p_pos p - 1)), (Nat.ltb_spec q (p_pos p)); try lia.
        + destruct (_ && _); reflexivity.
        + replace (q - (p_pos p - 1))%nat with (S (q - p_pos p)) by lia. cbn [nth_error].
          replace (Nat.leb (b - (p_pos p - 1)) (S (q - p_pos p)) && Nat.leb (S (q - p_pos p)) (b - (p_pos p - 1) + mt)) with (Nat.leb b q && Nat.leb q (b + mt)); [reflexivity|].
          destruct (Nat.leb_spec b q), (Nat.leb_spec q (b + mt)), (Nat.leb_spec (b - (p_pos p - 1)) (S (q - p_pos p))), (Nat.leb_spec (S (q - p_pos p)) (b - (p_pos p - 1) + mt)); try lia; reflexivity. }
    split; [exact AD|]. split.
    + eapply filling_noop with (b := b) (p := p); try reflexivity; eassumption.
    + eapply tagged_keeps; [eapply added_keeps; eassumption|reflexivity|reflexivity| |exact TG]. exists i; reflexivity.
  - (* the NoOp for the public list *)
    assert (IN0 : In DPublic (keys Q0)).
    { destruct (f_incl _ _ _ F DPublic) as [(i & X)|X]; [left; reflexivity|discriminate|exact X]. }
    assert (KT : forall k, (In (DTag k) (keys ((DPublic, w) :: queue)) <-> In (DTag k) (keys queue))).
    { intros k. cbn [map fst In]. split; [intros [X|X]; [congruence|assumption]|auto]. }
    assert (HIN : In DPublic (keys ((DPublic, w) :: queue))) by (left; reflexivity).
    set (s := {| s_tag := None; s_base := None; s_source := None |}).
    destruct TG as [TL TG]. destruct owner as [t|] eqn:Eo; [|destruct Q0_owner; contradiction].
    destruct TG as [G1 G2]. destruct Q0_owner as (ti0 & O1 & O2). destruct (G2 ti0 O1) as (ti & H1 & H2 & H3 & H4 & H5 & H6 & H7 & H8).
    destruct (update_total (set_noop (p_pos p - 1)%nat) (p_tags p) t) as [tags' Eu]; [apply nth_error_Some; rewrite H1; discriminate|]. rewrite Eu.
    destruct (update_spec _ _ _ _ Eu) as (U1 & U2 & U3 & (x & U4 & U5)). rewrite H1 in U4. injection U4 as <-.
    set (p' := {| p_pos := (p_pos p - 1)%nat; p_tail := s :: p_tail p; p_tags := tags'; p_noops := p_noops p ++ [(t, (p_pos p - 1)%nat)]; p_bases := p_bases p |}).
    destruct (added_plain (DPublic, w) p p' s HP' eq_refl eq_refl eq_refl) as [A1 A2]; [discriminate|reflexivity|].
    pose proof (added_keeps _ _ _ A1 HP') as KE.
    exists p'. split; [reflexivity|]. split; [exact A1|]. split.
    + eapply filling_add with (s := s); try reflexivity; try eassumption.
      * cbn [p' p_noops]. intros y Hy. apply in_or_app; auto.
      * discriminate.
      * cbn [s s_tag]. split; [reflexivity|]. exists t. split; [assumption|]. cbn [p' p_noops p_pos]. apply in_or_app. right. left. reflexivity.
    + assert (NN : p_noops p = noops0) by (apply H8; right; exact HIN).
      split; [cbn [p' p_tags]; congruence|]. rewrite Eo. split; [intros k Nk; cbn [p' p_tags]; rewrite U3 by assumption; apply G1, Nk|].
      intros ti0' O1'. rewrite O1 in O1'. injection O1' as <-. eexists. split; [exact U5|]. cbn [set_noop t_incoming t_state t_base t_dests t_noop p' p_noops].
      repeat (split; [assumption|]). split; [|split].
      * intros k d0 Hd. destruct (H6 k d0 Hd) as [B1 B2]. rewrite KT in B1, B2. split; [|exact B2]. intros X1 X2. destruct (B1 X1 X2) as (q & Q1 & Q2). exists q. split; [assumption|].
        eapply tag_at_keeps; eassumption.
      * intros _ _. exists (p_pos p - 1)%nat. split; [reflexivity|]. split; [exists s; auto|]. rewrite NN. reflexivity.
      * intros [X|X]; contradiction.
Qed.
End Fill.
