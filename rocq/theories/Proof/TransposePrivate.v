(** The private lists of states. *)
From Coq Require Import Permutation.
From Verif Require Import Base.Bytes Model.Endian Model.Varint Model.Chunk Model.SimpleChunk Model.TransposeEncoder Model.TransposeDecoder.
From Verif Require Import Proof.TransposeLoops Proof.TransposePath Proof.TransposeFill Proof.TransposeList Proof.TransposeCollect.

Definition in_list (d : dest_info) : bool := match d_pos d with Some O => true | _ => false end.
Definition incoming (T : list tag_info) (k : nat) : Z := match nth_error T k with Some t => t_incoming t | None => 0 end.
Definition chosen (T : list tag_info) (kd : nat * dest_info) : bool := in_list (snd kd) || (d_count (snd kd) =? incoming T (fst kd)).
Definition entry_of (kd : nat * dest_info) : entry := (DTag (fst kd), d_count (snd kd)).
Lemma filter_ext_in' {A} (f g : A -> bool) l : (forall x, In x l -> f x = g x) -> filter f l = filter g l.
Proof. induction l as [|x l IH]; intros H; [reflexivity|]. cbn [filter]. rewrite (H x (or_introl eq_refl)), IH; [reflexivity|]. intros y Hy. apply H. right; exact Hy. Qed.
Lemma lowered_refl T : lowered (fun _ => 0) T T.
Proof. split; [reflexivity|]. intros k tk H. rewrite H. f_equal. destruct tk. unfold set_incoming. cbn. f_equal. lia. Qed.
Lemma choose_ok l : forall queue excl es T, NoDup (dkeys l) -> (forall k, In k (dkeys l) -> (k < length T)%nat) ->
  exists queue' T', choose_dests l queue excl es T =
      Some (queue', excl + row_sum (filter (fun kd => negb (chosen T kd)) l), last (map entry_of (filter (fun kd => negb (chosen T kd)) l)) es, T') /\
    Permutation queue' (map entry_of (filter (chosen T) l) ++ queue) /\ (sorted queue -> sorted queue') /\
    lowered (fun k => match find_dest k l with Some d => if negb (in_list d) && (d_count d =? incoming T k) then d_count d else 0 | None => 0 end) T T'.
Proof.
  induction l as [|[k d] l IH]; intros queue excl es T ND HK; cbn [choose_dests].
  - exists queue, T. cbn [filter map last row_sum fold_right]. rewrite Z.add_0_r. split; [reflexivity|]. split; [reflexivity|]. split; [auto|]. apply lowered_refl.
  - cbn [map fst] in ND. apply NoDup_cons_iff in ND. destruct ND as [N1 N2]. assert (NF : find_dest k l = None) by (apply find_dest_none; assumption).
    assert (HK' : forall k0, In k0 (dkeys l) -> (k0 < length T)%nat) by (intros k0 H; apply HK; right; exact H).
    assert (Hk : (k < length T)%nat) by (apply HK; left; reflexivity).
    destruct (nth_error T k) as [t|] eqn:Et; [|apply nth_error_None in Et; lia]. cbv zeta. fold (in_list d).
    assert (IT : incoming T k = t_incoming t) by (unfold incoming; rewrite Et; reflexivity). rewrite <- IT.
    assert (CE : chosen T (k, d) = in_list d || (d_count d =? incoming T k)) by reflexivity. cbn [filter]. rewrite CE.
    assert (LASTc : forall (a : entry) (r : list entry) (e : entry), last (a :: r) e = last r a) by (intros a r; revert a; induction r as [|b r IHr]; intros a e; [reflexivity|]; cbn [last] in *; destruct r; [reflexivity|apply IHr]).
    destruct (in_list d || (d_count d =? incoming T k)) eqn:Q; cbn [negb].
    + destruct (in_list d) eqn:QL.
      * destruct (IH (insert (DTag k, d_count d) queue) excl es T N2 HK') as (q' & T' & I1 & I2 & I3 & I4 & I5). exists q', T'. split; [exact I1|]. split.
        -- rewrite I2. cbn [map app]. unfold entry_of at 2. cbn [fst snd]. rewrite insert_perm. apply Permutation_sym, Permutation_middle.
        -- split; [intros S; apply I3, insert_sorted, S|]. split; [exact I4|]. intros k0 tk0 H0. rewrite (I5 k0 tk0 H0). cbn [find_dest]. destruct (Nat.eqb_spec k k0) as [<-|Nk]; [|reflexivity].
           rewrite NF, QL. reflexivity.
      * cbn [orb] in Q. destruct (update_total (fun t => set_incoming (t_incoming t - d_count d) t) T k Hk) as [T1 E1]. rewrite E1.
        destruct (update_spec _ _ _ _ E1) as (U1 & U2 & U3 & (tk & U4 & U5)).
        assert (INC : forall k0, k0 <> k -> incoming T1 k0 = incoming T k0) by (intros k0 Nk; unfold incoming; rewrite U3 by assumption; reflexivity).
        assert (CH : forall x, In x l -> chosen T1 x = chosen T x).
        { intros [k0 d0] H0. unfold chosen. cbn [fst snd]. rewrite INC; [reflexivity|]. intros ->. apply N1. apply in_map_iff. exists (k, d0). auto. }
        destruct (IH (insert (DTag k, d_count d) queue) excl es T1 N2) as (q' & T' & I1 & I2 & I3 & I4 & I5); [intros k0 H; rewrite U1; apply HK', H|].
        rewrite (filter_ext_in' (fun kd => negb (chosen T1 kd)) (fun kd => negb (chosen T kd)) l) in I1 by (intros x Hx; rewrite CH by assumption; reflexivity).
        rewrite (filter_ext_in' (chosen T1) (chosen T) l CH) in I2. exists q', T'. split; [exact I1|]. split.
        -- rewrite I2. cbn [map app]. unfold entry_of at 2. cbn [fst snd]. rewrite insert_perm. apply Permutation_sym, Permutation_middle.
        -- split; [intros S; apply I3, insert_sorted, S|]. split; [lia|]. intros k0 tk0 H0. cbn [find_dest]. destruct (Nat.eqb_spec k k0) as [<-|Nk].
           ++ rewrite (I5 k _ U5). rewrite NF, QL, Q. cbn [negb andb]. rewrite U4 in H0. injection H0 as <-. f_equal. unfold set_incoming. cbn. f_equal. lia.
           ++ rewrite (I5 k0 tk0) by (rewrite U3; [assumption|congruence]). rewrite INC by congruence. reflexivity.
    + apply orb_false_iff in Q. destruct Q as [QL QE].
      destruct (IH queue (excl + d_count d) (DTag k, d_count d) T N2 HK') as (q' & T' & I1 & I2 & I3 & I4 & I5). exists q', T'. split; [rewrite I1|].
      * cbn [map row_sum fold_right snd]. fold (row_sum (filter (fun kd => negb (chosen T kd)) l)). rewrite LASTc. unfold entry_of at 3. cbn [fst snd]. do 3 f_equal. f_equal. lia.
      * split; [exact I2|]. split; [exact I3|]. split; [exact I4|]. intros k0 tk0 H0. rewrite (I5 k0 tk0 H0). cbn [find_dest]. destruct (Nat.eqb_spec k k0) as [<-|Nk]; [|reflexivity].
        rewrite NF, QL, QE. reflexivity.
Qed.
Definition to_lower (A : dests) (k : nat) : Z := match find_dest k A with Some d => match d_pos d with None => d_count d | Some _ => 0 end | None => 0 end.
Definition public_entry (B : dests) : list entry := match B with [] => [] | _ => [(DPublic, row_sum B)] end.
Lemma filter_perm {A} (f : A -> bool) l : Permutation l (filter f l ++ filter (fun x => negb (f x)) l).
Proof.
  induction l as [|x l IH]; [reflexivity|]. cbn [filter]. destruct (f x); cbn [negb app]; [constructor; exact IH|]. rewrite IH at 1. apply Permutation_middle.
Qed.
Lemma find_dest_app k (A B : dests) : find_dest k (A ++ B) = match find_dest k A with Some d => Some d | None => find_dest k B end.
Proof. induction A as [|[k' d] A IH]; [reflexivity|]. cbn [app find_dest]. destruct (Nat.eqb k' k); [reflexivity|exact IH]. Qed.
Lemma find_dest_filter k (f : nat * dest_info -> bool) l d : NoDup (dkeys l) -> (find_dest k (filter f l) = Some d <-> find_dest k l = Some d /\ f (k, d) = true).
Proof.
  intros ND. assert (ND' : NoDup (dkeys (filter f l))).
  { clear - ND. induction l as [|x l IH]; [constructor|]. cbn [map] in ND. apply NoDup_cons_iff in ND. destruct ND as [N1 N2]. cbn [filter]. destruct (f x); cbn [map]; [|auto]. constructor; [|auto].
    intros H. apply N1. apply in_map_iff in H. destruct H as (y & Y1 & Y2). apply filter_In in Y2. rewrite <- Y1. apply in_map. tauto. }
  rewrite !find_dest_some by assumption. rewrite filter_In. tauto.
Qed.
Lemma row_queue l T sz : NoDup (dkeys l) -> (forall k, In k (dkeys l) -> (k < length T)%nat) -> sz = length l ->
  (forall k d, find_dest k l = Some d -> d_pos d = None \/ d_pos d = Some O) ->
  exists q excl es T1, choose_dests l [] 0 (DTag O, 0) T = Some (q, excl, es, T1) /\
    ((q = [] /\ T1 = T /\ forall k d, find_dest k l = Some d -> d_pos d = None) \/
     (q <> [] /\ exists Qs T2,
       (if Nat.eqb (length q + 1) sz then
          match fst es with
          | DTag k => match update k (fun t => set_incoming (t_incoming t - snd es) t) T1 with None => None | Some tags => Some (insert es q, tags) end
          | _ => None
          end
        else Some (q, T1)) = Some (Qs, T2) /\
       exists A B, Permutation l (A ++ B) /\ A <> [] /\ length B <> 1%nat /\ Forall (fun kd => d_pos (snd kd) = None) B /\
         Permutation (if Nat.eqb (length Qs) sz then Qs else insert (DPublic, excl) Qs) (map entry_of A ++ public_entry B) /\
         sorted (if Nat.eqb (length Qs) sz then Qs else insert (DPublic, excl) Qs) /\ lowered (to_lower A) T T2)).
Proof.
  intros ND HK SZ HP. destruct (choose_ok l [] 0 (DTag O, 0) T ND HK) as (q & T1 & E & P & SO & LW). rewrite Z.add_0_l in E. rewrite app_nil_r in P. specialize (SO Logic.I).
  set (A := filter (chosen T) l) in *. set (B := filter (fun kd => negb (chosen T kd)) l) in *.
  pose proof (filter_perm (chosen T) l) as PL. fold A B in PL.
  assert (LQ : length q = length A) by (rewrite (Permutation_length P), map_length; reflexivity).
  assert (LL : length l = (length A + length B)%nat) by (rewrite (Permutation_length PL), app_length; reflexivity).
  assert (FB : forall k d, find_dest k B = Some d -> find_dest k l = Some d /\ chosen T (k, d) = false).
  { intros k d H. apply find_dest_filter in H; [|assumption]. destruct H as [H1 H2]. split; [assumption|]. apply negb_true_iff in H2. exact H2. }
  assert (NDAB : NoDup (dkeys (A ++ B))) by (eapply Permutation_NoDup; [apply Permutation_map, PL|exact ND]).
  assert (NDB : NoDup (dkeys B)) by (rewrite map_app in NDAB; clear - NDAB; induction (dkeys A) as [|x r IH]; [exact NDAB|]; cbn [app] in NDAB; apply NoDup_cons_iff in NDAB; tauto).
  assert (BN : Forall (fun kd => d_pos (snd kd) = None) B).
  { apply Forall_forall. intros [k d] H. cbn [snd]. apply find_dest_some in H; [|assumption]. destruct (FB k d H) as [H1 H2]. destruct (HP k d H1) as [X|X]; [assumption|].
    exfalso. unfold chosen, in_list in H2. cbn [fst snd] in H2. rewrite X in H2. discriminate. }
  assert (FF : forall k, (match find_dest k l with Some d => if negb (in_list d) && (d_count d =? incoming T k) then d_count d else 0 | None => 0 end) = to_lower A k).
  { intros k. unfold to_lower. destruct (find_dest k l) as [d|] eqn:El.
    - assert (D : find_dest k A = if chosen T (k, d) then Some d else None).
      { destruct (chosen T (k, d)) eqn:C; [apply find_dest_filter; [assumption|split; assumption]|].
        destruct (find_dest k A) as [d'|] eqn:X; [|reflexivity]. apply find_dest_filter in X; [|assumption]. destruct X as [X1 X2]. rewrite El in X1. injection X1 as <-. congruence. }
      rewrite D. unfold chosen. cbn [fst snd]. unfold in_list. destruct (HP k d El) as [X|X]; rewrite X; cbn [negb andb orb]; [|rewrite X; reflexivity].
      destruct (d_count d =? incoming T k); [rewrite X|]; reflexivity.
    - destruct (find_dest k A) as [d'|] eqn:X; [|reflexivity]. apply find_dest_filter in X; [|assumption]. destruct X as [X1 X2]. congruence. }
  assert (LW' : lowered (to_lower A) T T1) by (destruct LW as [L1 L2]; split; [assumption|]; intros k tk H; rewrite (L2 k tk H), FF; reflexivity). clear LW FF.
  exists q, (row_sum B), (last (map entry_of B) (DTag O, 0)), T1. split; [exact E|].
  destruct q as [|e q0] eqn:Eq.
  - left. split; [reflexivity|]. assert (EA : A = []) by (destruct A; [reflexivity|cbn [length] in LQ; discriminate]). split.
    + apply lowered_eq. rewrite EA in LW'. exact LW'.
    + intros k d H. assert (H' : find_dest k B = Some d).
      { apply find_dest_filter; [assumption|]. split; [assumption|]. destruct (chosen T (k, d)) eqn:C; [|reflexivity]. exfalso.
        assert (X : find_dest k A = Some d) by (apply find_dest_filter; [assumption|split; assumption]). rewrite EA in X. discriminate. }
      apply find_dest_some in H'; [|assumption]. rewrite Forall_forall in BN. apply (BN (k, d) H').
  - rewrite <- Eq in *. right. split; [rewrite Eq; discriminate|]. assert (AN : A <> []) by (intros X; rewrite X in LQ; rewrite Eq in LQ; cbn [length] in LQ; discriminate).
    destruct (Nat.eqb_spec (length q + 1) sz) as [S1|S1].
    + assert (LB : length B = 1%nat) by lia. destruct B as [|[k d] [|? ?]] eqn:EB; cbn [length] in LB; try discriminate. cbn [map last entry_of fst snd].
      unfold entry_of at 1. cbn [fst snd].
      assert (Dk : find_dest k l = Some d /\ chosen T (k, d) = false) by (apply FB; cbn [find_dest]; rewrite Nat.eqb_refl; reflexivity).
      assert (Hk : (k < length T)%nat) by (apply HK, find_dest_key; exists d; tauto). destruct LW' as [L1 L2].
      destruct (update_total (fun t => set_incoming (t_incoming t - d_count d) t) T1 k) as [T2 E2]; [lia|]. rewrite E2. destruct (update_spec _ _ _ _ E2) as (U1 & U2 & U3 & (tk & U4 & U5)).
      exists (insert (DTag k, d_count d) q), T2. split; [reflexivity|]. exists (A ++ [(k, d)]), []. rewrite app_nil_r.
      assert (PI : Permutation (insert (DTag k, d_count d) q) (map entry_of (A ++ [(k, d)]))).
      { rewrite insert_perm, P, map_app. cbn [map]. apply Permutation_cons_append. }
      rewrite (Permutation_length PI), map_length, app_length. cbn [length]. replace (length A + 1)%nat with sz by lia. rewrite Nat.eqb_refl. cbn [public_entry]. rewrite app_nil_r.
      split; [assumption|]. split; [intros X; destruct A; discriminate|]. split; [discriminate|]. split; [constructor|]. split; [assumption|]. split; [apply insert_sorted, SO|].
      split; [lia|]. intros k0 tk0 H0. unfold to_lower. rewrite find_dest_app. cbn [find_dest]. specialize (L2 k0 tk0 H0). destruct (Nat.eq_dec k0 k) as [->|Nk].
      * assert (NA : find_dest k A = None).
        { destruct (find_dest k A) as [d'|] eqn:X; [|reflexivity]. apply find_dest_filter in X; [|assumption]. destruct X as [X1 X2]. destruct Dk as [D1 D2]. rewrite D1 in X1. injection X1 as <-. congruence. }
        rewrite NA, Nat.eqb_refl. inversion BN as [|? ? B1 _]; subst. cbn [snd] in B1. rewrite B1. rewrite L2 in U4. injection U4 as <-. rewrite U5. f_equal. unfold to_lower. rewrite NA.
        unfold set_incoming. cbn. f_equal. lia.
      * rewrite U3 by congruence. rewrite L2. unfold to_lower. destruct (find_dest k0 A); [reflexivity|]. destruct (Nat.eqb_spec k k0); [congruence|reflexivity].
    + exists q, T1. split; [reflexivity|]. exists A, B. split; [assumption|]. split; [assumption|]. split; [lia|]. split; [assumption|].
      destruct (Nat.eqb_spec (length q) sz) as [S2|S2].
      * assert (EB : B = []) by (destruct B; [reflexivity|cbn [length] in LL; lia]). rewrite EB. cbn [public_entry]. rewrite app_nil_r. split; [exact P|]. split; [exact SO|exact LW'].
      * split; [|split; [apply insert_sorted, SO|exact LW']]. rewrite insert_perm, P. destruct B as [|b B0] eqn:EB; [cbn [length] in LL; lia|]. cbn [public_entry]. apply Permutation_cons_append.
Qed.

Section Private.
Variable order : nat -> dests -> dests.
Hypothesis order_perm : forall t l, Permutation (order t l) l.
Variable mt : nat.
Hypothesis mt_big : (63 <= mt)%nat.
Variable n : nat.
Variable N : Z.
Hypothesis N_small : N + 1 < 2 ^ 63.
Variable first : nat.
Variable K : list (list nat).

Definition placed (machine : list state_info) (noops : list (nat * nat)) (t : nat) (ti : tag_info) : Prop :=
  (t_base ti = None /\ t_noop ti = None /\ forall k d, find_dest k (t_dests ti) = Some d -> d_pos d = None) \/
  exists lo hi ht, t_base ti = Some lo /\ segment mt machine lo hi ht /\
    (forall k d, find_dest k (t_dests ti) = Some d -> match d_pos d with None => t_noop ti <> None | Some q => tag_in machine lo hi q k end) /\
    (forall q, t_noop ti = Some q -> (lo <= q < hi)%nat /\ (exists s, nth_error machine q = Some s /\ s_tag s = None) /\ In (t, q) noops /\
       exists k d, find_dest k (t_dests ti) = Some d /\ d_pos d = None) /\
    (length (t_dests ti) = 1%nat -> exists k d, find_dest k (t_dests ti) = Some d /\ tag_in machine lo hi lo k).
Lemma tag_in_extends a b lo hi q k : tag_in a lo hi q k -> extends a b -> tag_in b lo hi q k.
Proof. intros (R & s & S1 & S2) E. split; [assumption|]. destruct (E q s S1) as (s' & E1 & E2 & _). exists s'. split; [assumption|congruence]. Qed.
Lemma placed_extends a b noops noops' t ti : placed a noops t ti -> extends a b -> (forall x, In x noops -> In x noops') -> placed b noops' t ti.
Proof.
  intros [P|(lo & hi & ht & P1 & P2 & P3 & P4 & P5)] E H; [left; exact P|]. right. exists lo, hi, ht. split; [assumption|]. split; [eapply segment_extends; eassumption|]. split; [|split].
  - intros k d Hd. specialize (P3 k d Hd). destruct (d_pos d) as [q|]; [|assumption]. eapply tag_in_extends; eassumption.
  - intros q Hq. destruct (P4 q Hq) as (X1 & (s & X2 & X3) & X4 & X5). split; [assumption|]. split; [|auto]. destruct (E q s X2) as (s' & E1 & E2 & _). exists s'. split; [assumption|congruence].
  - intros L. destruct (P5 L) as (k & d & X1 & X2). exists k, d. split; [assumption|]. eapply tag_in_extends; eassumption.
Qed.
Record built (id : nat) (machine : list state_info) (T : list tag_info) (noops : list (nat * nat)) : Prop := {
  u_counted : counted n N first K T;
  u_row : forall t ti, nth_error T t = Some ti -> t_state ti = None /\ ((t < id)%nat -> placed machine noops t ti) /\ ((id <= t)%nat -> fresh ti /\ unplaced ti);
  u_noops : forall t q, In (t, q) noops -> (t < id)%nat /\ (q < length machine)%nat /\ exists ti, nth_error T t = Some ti /\ t_noop ti = Some q;
  u_nodup : NoDup (map snd noops);
  u_kind : forall q s, nth_error machine q = Some s -> match s_tag s with
    | Some k => (k < n)%nat
    | None => (exists b, s_base s = Some b /\ (b < length machine)%nat) \/ (s_base s = None /\ exists t, In (t, q) noops)
    end;
  u_source : forall q s c, nth_error machine q = Some s -> s_source s = Some c -> exists s', nth_error machine c = Some s' /\ s_tag s' = None;
  u_size : (length machine <= 2 * length (concat (firstn id K)))%nat;
  u_bare : forall t q, In (t, q) noops -> exists s, nth_error machine q = Some s /\ s_tag s = None /\ s_base s = None }.
Lemma firstn_concat id k : nth_error K id = Some k -> length (concat (firstn (S id) K)) = (length (concat (firstn id K)) + length k)%nat.
Proof.
  clear. revert id. induction K as [|a l IH]; intros id H; [destruct id; discriminate|]. destruct id as [|id]; cbn [nth_error] in H.
  - injection H as ->. cbn [firstn concat]. rewrite app_length. cbn [firstn concat length]. destruct l; cbn; lia.
  - rewrite !firstn_cons. cbn [concat]. rewrite !app_length, (IH id H). lia.
Qed.
Lemma private_step id machine T noops : (id < n)%nat -> built id machine T noops -> exists machine' T' noops', built (S id) machine' T' noops' /\
  forall m, private_lists order mt (S m) id machine T noops = private_lists order mt m (S id) machine' T' noops'.
Proof.
  intros Hid [C R UN UD UK US UZ UB]. pose proof (v_len _ _ _ _ _ C) as CL. cbn [private_lists].
  destruct (nth_error T id) as [ti|] eqn:Et; [|apply nth_error_None in Et; lia]. cbv zeta.
  destruct (v_row _ _ _ _ _ C id ti Et) as [ND ROW]. destruct (R id ti Et) as (TS & _ & RF). destruct (RF (Nat.le_refl _)) as ((_ & FN & FBs) & UP). clear RF.
  pose proof (order_perm id (t_dests ti)) as OP. set (l := order id (t_dests ti)) in *.
  assert (NDl : NoDup (dkeys l)) by (eapply Permutation_NoDup; [apply Permutation_map, Permutation_sym, OP|exact ND]).
  assert (FE : forall k, find_dest k l = find_dest k (t_dests ti)) by (intros k; apply find_dest_perm; assumption).
  assert (KID : nth_error K id = Some (dkeys (t_dests ti))) by (rewrite <- (v_keys _ _ _ _ _ C), nth_error_map, Et; reflexivity).
  destruct (row_queue l T (length (t_dests ti)) NDl) as (q & excl & es & T1 & E1 & CASES).
  { intros k H. apply find_dest_key in H. destruct H as [d Hd]. rewrite FE in Hd. specialize (ROW k d Hd). lia. }
  { symmetry. apply Permutation_length, OP. }
  { intros k d H. rewrite FE in H. apply (UP k d H). }
  rewrite E1. destruct CASES as [(-> & -> & NP)|(NQ & Qs & T2 & E2 & A & B & PL & AN & LB & BN & PQ & SQ & LW)].
  - (* nothing in the private list *)
    exists machine, T, noops. split; [|reflexivity]. constructor; try assumption.
    + intros t tt Ht. destruct (R t tt Ht) as (X1 & X2 & X3). split; [assumption|]. split; [|intros H; apply X3; lia].
      intros H. destruct (Nat.eq_dec t id) as [->|Nt]; [|apply X2; lia]. rewrite Et in Ht. injection Ht as <-. left. split; [assumption|]. split; [assumption|].
      intros k d Hd. rewrite <- FE in Hd. apply (NP k d Hd).
    + intros t q Hq. destruct (UN t q Hq) as (X1 & X2). split; [lia|assumption].
    + rewrite (firstn_concat id _ KID). lia.
  - (* the list *)
    assert (NDAB : NoDup (dkeys (A ++ B))) by (eapply Permutation_NoDup; [apply Permutation_map, PL|exact NDl]).
    assert (FAB : forall k, find_dest k (t_dests ti) = match find_dest k A with Some d => Some d | None => find_dest k B end).
    { intros k. rewrite <- FE, (find_dest_perm k l (A ++ B) PL NDl). apply find_dest_app. }
    assert (NDA : NoDup (dkeys A)) by (rewrite map_app in NDAB; clear - NDAB; induction (dkeys A) as [|x r IH]; [constructor|]; cbn [app] in NDAB; apply NoDup_cons_iff in NDAB; destruct NDAB as [X Y]; constructor; [intros H; apply X, in_or_app; auto|auto]).
    assert (NDB : NoDup (dkeys B)) by (rewrite map_app in NDAB; clear - NDAB; induction (dkeys A) as [|x r IH]; [exact NDAB|]; cbn [app] in NDAB; apply NoDup_cons_iff in NDAB; tauto).
    set (Q := if Nat.eqb (length Qs) (length (t_dests ti)) then Qs else insert (DPublic, excl) Qs) in *.
    set (f := to_lower A).
    assert (KQ : Permutation (keys Q) (map DTag (dkeys A) ++ match B with [] => [] | _ => [DPublic] end)).
    { rewrite (Permutation_map (@fst dest_index Z) PQ), map_app. apply Permutation_app; [|destruct B; reflexivity]. rewrite !map_map. reflexivity. }
    assert (IQ : forall k, In (DTag k) (keys Q) <-> In k (dkeys A)).
    { intros k. split; intros H.
      - apply (Permutation_in _ KQ) in H. apply in_app_or in H. destruct H as [H|H]; [|destruct B; [destruct H|destruct H as [H|[]]; discriminate]].
        apply in_map_iff in H. destruct H as (k' & X1 & X2). injection X1 as ->. exact X2.
      - apply (Permutation_in _ (Permutation_sym KQ)). apply in_or_app. left. apply in_map, H. }
    assert (IP : In DPublic (keys Q) <-> B <> []).
    { split; intros H.
      - apply (Permutation_in _ KQ) in H. apply in_app_or in H. destruct H as [H|H]; [apply in_map_iff in H; destruct H as (? & X & _); discriminate|]. destruct B; [destruct H|discriminate].
      - apply (Permutation_in _ (Permutation_sym KQ)). apply in_or_app. right. destruct B; [contradiction|left; reflexivity]. }
    assert (QNE : Q <> []).
    { intros X. rewrite X in PQ. apply Permutation_length in PQ. destruct A; [contradiction|]. cbn [map app length] in PQ. discriminate. }
    assert (QND : NoDup (keys Q)).
    { eapply Permutation_NoDup; [apply Permutation_sym, KQ|]. assert (ND1 : NoDup (map DTag (dkeys A))) by (apply FinFun.Injective_map_NoDup; [intros x y X; injection X; auto|exact NDA]).
      destruct B; [rewrite app_nil_r; exact ND1|]. eapply Permutation_NoDup; [apply Permutation_cons_append|]. constructor; [|exact ND1]. intros H. apply in_map_iff in H. destruct H as (? & X & _). discriminate. }
    assert (QNO : forall i, ~ In (DNoOp i) (keys Q)).
    { intros i H. apply (Permutation_in _ KQ) in H. apply in_app_or in H. destruct H as [H|H]; [apply in_map_iff in H; destruct H as (? & X & _); discriminate|]. destruct B; [destruct H|destruct H as [H|[]]; discriminate]. }
    assert (CP : forall kd, In kd (A ++ B) -> 1 <= d_count (snd kd)).
    { intros [k d] H. cbn [snd]. apply find_dest_some in H; [|exact NDAB]. rewrite <- (find_dest_perm k l (A ++ B) PL NDl), FE in H. specialize (ROW k d H). lia. }
    assert (RS : forall (x : dests), (forall kd, In kd x -> 1 <= d_count (snd kd)) -> 0 <= row_sum x /\ (x <> [] -> 1 <= row_sum x)).
    { intros x. induction x as [|[k d] x IHx]; intros H; [cbn; split; [lia|congruence]|]. cbn [row_sum fold_right snd]. fold (row_sum x). pose proof (H (k, d) (or_introl eq_refl)) as H0. cbn [snd] in H0.
      destruct (IHx (fun kd Hk => H kd (or_intror Hk))) as [X _]. split; [lia|intros; lia]. }
    assert (QP : Forall (fun e : entry => 1 <= snd e) Q).
    { eapply Permutation_Forall; [apply Permutation_sym, PQ|]. apply Forall_app. split.
      - apply Forall_forall. intros e He. apply in_map_iff in He. destruct He as (kd & <- & Hkd). cbn [entry_of snd]. apply CP, in_or_app. auto.
      - destruct B as [|b B0] eqn:EB; [constructor|]. constructor; [|constructor]. cbn [snd]. rewrite <- EB in *. destruct (RS B) as [_ X]; [intros kd H; apply CP, in_or_app; auto|]. apply X. rewrite EB; discriminate. }
    assert (SUM : sum Q = row_sum (t_dests ti)).
    { rewrite (sum_perm _ _ PQ). assert (SA : forall x y, sum (map entry_of x ++ y) = row_sum x + sum y).
      { intros x y. induction x as [|[k d] x IHx]; [cbn [map app row_sum fold_right]; lia|]. cbn [map app sum fold_right row_sum snd entry_of fst]. fold (sum (map entry_of x ++ y)). fold (row_sum x). lia. }
      rewrite SA. assert (SB : sum (public_entry B) = row_sum B) by (destruct B; [reflexivity|cbn [public_entry sum fold_right snd]; lia]). rewrite SB.
      assert (RP : forall x y, Permutation x y -> row_sum x = row_sum y) by (unfold row_sum; induction 1; cbn [fold_right]; lia).
      rewrite <- (RP _ _ OP). fold l. rewrite (RP _ _ PL). clear. induction A as [|[k d] x IHx]; [cbn [app]; change (row_sum []) with 0; lia|]. cbn [app row_sum fold_right snd]. fold (row_sum x). fold (row_sum (x ++ B)). lia. }
    assert (SMALL : sum Q < 2 ^ 63).
    { rewrite SUM. pose proof (v_rows _ _ _ _ _ C) as X. assert (Y : row_sum_of ti <= rows_sum row_sum_of T).
      { apply (rows_sum_one row_sum_of T id ti); [|assumption]. intros t0 ti0 H0. unfold row_sum_of. apply RS. intros [k d] H. cbn [snd]. destruct (v_row _ _ _ _ _ C t0 ti0 H0) as [Z1 Z2].
        apply find_dest_some in H; [|assumption]. apply (Z2 k d H). }
      unfold row_sum_of at 1 in Y. lia. }
    destruct LW as [LW1 LW2].
    destruct (update_total (set_base (length machine)) T2 id) as [T3 E3]; [lia|]. destruct (update_spec _ _ _ _ E3) as (U1 & U2 & U3 & (t2 & U4 & U5)).
    rewrite (LW2 id ti Et) in U4. injection U4 as <-. fold f in U5.
    set (ti3 := set_base (length machine) (set_incoming (t_incoming ti - f id) ti)) in *.
    assert (D3 : t_dests ti3 = t_dests ti) by reflexivity.
    destruct (create_list_ok mt (Some id) Q machine T3 noops mt_big QNE QND QNO) as (new & T4 & noops4 & ht & CE & LN & LN1 & SEG & KIN & PT).
    { exists ti3. split; [assumption|]. intros k H. rewrite D3. apply IQ in H. apply find_dest_key. rewrite FAB. apply find_dest_key in H. destruct H as [d ->]. exists d; reflexivity. }
    { exact QP. } { exact SQ. } { exact SMALL. }
    exists (machine ++ new), T4, noops4. split; cycle 1.
    { intros m. destruct q as [|e q0]; [contradiction|]. rewrite E2. fold Q. rewrite E3, CE. reflexivity. }
    destruct PT as (P1 & P2 & P3). destruct (P3 ti3 U5) as (ti4 & W1 & W2 & W3 & W4 & W5 & W6 & W7 & W8). clear P3. cbn [ti3 set_base set_incoming t_incoming t_state t_base t_noop] in W2, W3, W4, W8. fold ti3 in W5, W6. rewrite D3 in W5, W6.
    set (lo := length machine) in *. set (hi := (lo + length new)%nat) in *.
    assert (FND : forall k d, find_dest k (t_dests ti) = Some d -> (find_dest k A = Some d /\ exists q, find_dest k (t_dests ti4) = Some {| d_pos := Some q; d_count := d_count d |} /\ tag_in (machine ++ new) lo hi q k) \/
       (find_dest k A = None /\ d_pos d = None /\ B <> [] /\ find_dest k (t_dests ti4) = Some d)).
    { intros k d Hd. destruct (W6 k d Hd) as [X1 X2]. rewrite FAB in Hd. destruct (find_dest k A) as [d'|] eqn:Ea.
      - injection Hd as ->. left. split; [reflexivity|]. apply X1, IQ, find_dest_key. exists d; assumption.
      - right. split; [reflexivity|]. apply find_dest_some in Hd as HB; [|assumption]. rewrite Forall_forall in BN. split; [apply (BN (k, d) HB)|]. split; [intros X; rewrite X in HB; destruct HB|].
        apply X2. rewrite IQ, find_dest_key. intros (d0 & X). congruence. }
    assert (PR : privatized id f T T4).
    { constructor.
      - lia.
      - intros k tk Nk H. rewrite P2, U3 by assumption. apply LW2; assumption.
      - exists ti, ti4. split; [assumption|]. split; [assumption|]. split; [rewrite W2; reflexivity|]. split; [assumption|]. split.
        + intros k H. unfold f, to_lower. destruct (find_dest k A) as [d|] eqn:Ea; [|reflexivity]. exfalso. apply H, find_dest_key. rewrite FAB, Ea. exists d; reflexivity.
        + intros k d Hd. destruct (FND k d Hd) as [(Ea & q0 & Q1 & Q2)|(Ea & Q1 & Q2 & Q3)].
          * exists {| d_pos := Some q0; d_count := d_count d |}. split; [assumption|]. split; [reflexivity|]. unfold f, to_lower. rewrite Ea. cbn [d_pos]. destruct (d_pos d) eqn:Ed; [left; split; [reflexivity|split; discriminate]|].
            right. split; [reflexivity|]. split; [reflexivity|discriminate].
          * exists d. split; [assumption|]. split; [reflexivity|]. left. unfold f, to_lower. rewrite Ea. tauto. }
    assert (NOI : exists x, noops4 = noops ++ x /\ (x = [] \/ exists q0, x = [(id, q0)] /\ t_noop ti4 = Some q0 /\ bare_in (machine ++ new) lo hi q0)).
    { destruct B as [|b B0] eqn:EB.
      - exists []. rewrite app_nil_r. split; [|auto]. apply W8. rewrite IP. congruence.
      - destruct W7 as (q0 & X1 & X2 & X3); [apply IP; discriminate|]. exists [(id, q0)]. split; [assumption|]. right. exists q0. auto. }
    destruct NOI as (xn & NO1 & NO2).
    assert (NI : forall x, In x noops -> In x noops4) by (intros x H; rewrite NO1; apply in_or_app; auto).
    assert (LNN : length (machine ++ new) = hi) by (rewrite app_length; reflexivity).
    assert (EXT : extends machine (machine ++ new)) by apply extends_app.
    assert (PL4 : placed (machine ++ new) noops4 id ti4).
    { right. exists lo, hi, ht. split; [assumption|]. split; [assumption|]. split; [|split].
      - intros k d4 H4. assert (IK : In k (dkeys (t_dests ti))) by (rewrite <- W5; apply find_dest_key; exists d4; assumption). apply find_dest_key in IK. destruct IK as [d Hd].
        destruct (FND k d Hd) as [(Ea & q0 & Q1 & Q2)|(Ea & Q1 & Q2 & Q3)].
        + rewrite Q1 in H4. injection H4 as <-. cbn [d_pos]. exact Q2.
        + rewrite Q3 in H4. injection H4 as <-. rewrite Q1. destruct W7 as (q0 & X1 & _); [apply IP; assumption|]. congruence.
      - intros q0 Hq0. destruct B as [|b B0] eqn:EB; [exfalso; destruct W8 as [X _]; [rewrite IP; congruence|]; congruence|]. rewrite <- EB in *.
        destruct W7 as (q1 & X1 & (X2 & s & S1 & S2 & S3) & X3); [apply IP; rewrite EB; discriminate|]. rewrite X1 in Hq0. injection Hq0 as <-. split; [assumption|]. split; [exists s; auto|]. split; [rewrite X3; apply in_or_app; right; left; reflexivity|].
        destruct b as [k d]. exists k, d. assert (HB : find_dest k B = Some d) by (apply find_dest_some; [assumption|rewrite EB; left; reflexivity]).
        assert (HA : find_dest k A = None).
        { destruct (find_dest k A) as [d'|] eqn:Ea; [|reflexivity]. exfalso. rewrite map_app in NDAB. assert (In k (dkeys A)) by (apply find_dest_key; exists d'; assumption). assert (In k (dkeys B)) by (apply find_dest_key; exists d; assumption).
          clear - NDAB H H0. induction (dkeys A) as [|x r IH]; [destruct H|]. cbn [app] in NDAB. apply NoDup_cons_iff in NDAB. destruct NDAB as [Y1 Y2]. destruct H as [->|H]; [apply Y1, in_or_app; auto|auto]. }
        assert (Hd : find_dest k (t_dests ti) = Some d) by (rewrite FAB, HA; exact HB).
        destruct (FND k d Hd) as [(Ea & _)|(_ & Q1 & Q2 & Q3)]; [congruence|]. auto.
      - intros L1. assert (Lti : length (t_dests ti) = 1%nat) by (rewrite <- (map_length fst), <- W5, map_length; exact L1).
        assert (LAB : length (A ++ B) = 1%nat) by (rewrite <- (Permutation_length PL), (Permutation_length OP); exact Lti). rewrite app_length in LAB.
        assert (LA : length A = 1%nat) by (destruct A; [contradiction|cbn [length] in *; lia]). assert (EB : B = []) by (destruct B; [reflexivity|cbn [length] in LAB; lia]).
        assert (LQ : length Q = 1%nat) by (rewrite (Permutation_length PQ), app_length, map_length, EB; cbn [public_entry length]; lia). specialize (LN1 LQ).
        destruct A as [|[k d] [|? ?]] eqn:EA; cbn [length] in LA; try discriminate. exists k.
        assert (Hd : find_dest k (t_dests ti) = Some d) by (rewrite FAB; cbn [find_dest]; rewrite Nat.eqb_refl; reflexivity).
        destruct (FND k d Hd) as [(_ & q0 & Q1 & Q2)|(Ea & _)]; [|cbn [find_dest] in Ea; rewrite Nat.eqb_refl in Ea; discriminate].
        eexists. split; [exact Q1|]. assert (q0 = lo) as -> by (destruct Q2 as [X _]; unfold hi in X; lia). exact Q2. }
    constructor.
    + eapply privatized_counted; eassumption.
    + intros t tt Ht. destruct (Nat.eq_dec t id) as [->|Nt].
      * rewrite W1 in Ht. injection Ht as <-. split; [congruence|]. split; [intros _; exact PL4|lia].
      * rewrite P2, U3 in Ht by assumption. destruct (nth_error T t) as [t0|] eqn:E0; [|apply nth_error_None in E0; assert (t < length T2)%nat by (apply nth_error_Some; congruence); lia].
        rewrite (LW2 t t0 E0) in Ht. injection Ht as <-. destruct (R t t0 E0) as (X1 & X2 & X3). split; [exact X1|]. split; [|intros H; apply X3; lia].
        intros H. apply (placed_extends machine (machine ++ new) noops noops4 t t0 (X2 ltac:(lia)) EXT NI).
    + intros t q0 Hq. rewrite NO1 in Hq. apply in_app_or in Hq. rewrite LNN. destruct Hq as [Hq|Hq].
      * destruct (UN t q0 Hq) as (X1 & X2 & t0 & X3 & X4). split; [lia|]. split; [unfold hi; lia|]. exists (set_incoming (t_incoming t0 - f t) t0). rewrite P2, U3 by lia. split; [apply LW2, X3|exact X4].
      * destruct NO2 as [->|(q1 & -> & X1 & X2 & X3)]; [destruct Hq|]. destruct Hq as [Hq|[]]. injection Hq as <- <-. split; [lia|]. split; [lia|]. exists ti4. auto.
    + rewrite NO1, map_app. destruct NO2 as [->|(q1 & -> & X1 & X2 & X3)]; [rewrite app_nil_r; exact UD|]. cbn [map snd]. eapply Permutation_NoDup; [apply Permutation_cons_append|]. constructor; [|exact UD].
      intros H. apply in_map_iff in H. destruct H as ([t q2] & Y1 & Y2). cbn [snd] in Y1. subst q2. destruct (UN t q1 Y2) as (_ & Y3 & _). unfold lo in X2. lia.
    + intros q0 s Hs. rewrite LNN. destruct (Nat.lt_ge_cases q0 lo) as [H|H].
      * rewrite nth_error_app1 in Hs by exact H. specialize (UK q0 s Hs). destruct (s_tag s); [exact UK|]. destruct UK as [(b & X1 & X2)|(X1 & t & X2)]; [left; exists b; split; [assumption|unfold hi; lia]|right; split; [assumption|exists t; auto]].
      * assert (H2 : (q0 < hi)%nat) by (rewrite <- LNN; apply nth_error_Some; congruence). specialize (KIN q0 s ltac:(lia) Hs). destruct (s_tag s) as [k|].
        -- apply IQ in KIN. apply find_dest_key in KIN. destruct KIN as [d Hd]. assert (Hd' : find_dest k (t_dests ti) = Some d) by (rewrite FAB, Hd; reflexivity). apply (ROW k d Hd').
        -- destruct KIN as [(b & X1 & X2)|(X1 & t & _ & X2)]; [left; exists b; split; [assumption|lia]|right; split; [assumption|exists t; exact X2]].
    + intros q0 s c0 Hs Hc. destruct (Nat.lt_ge_cases q0 lo) as [H|H].
      * rewrite nth_error_app1 in Hs by exact H. destruct (US q0 s c0 Hs Hc) as (s' & X1 & X2). destruct (EXT c0 s' X1) as (s2 & Y1 & Y2 & _). exists s2. split; [assumption|congruence].
      * assert (H2 : (q0 < hi)%nat) by (rewrite <- LNN; apply nth_error_Some; congruence). pose proof (g_state _ _ _ _ _ SEG q0 s ltac:(lia) Hs) as X. rewrite Hc in X.
        destruct X as (_ & b & _ & _ & (sc & Y1 & Y2 & _) & _). exists sc. auto.
    + rewrite LNN, (firstn_concat id _ KID), map_length. unfold hi.
      assert (LQ : (length Q <= length (t_dests ti))%nat).
      { rewrite (Permutation_length PQ), app_length, map_length. rewrite <- (Permutation_length OP). fold l. rewrite (Permutation_length PL), app_length.
        destruct B as [|b1 [|b2 B0]]; cbn [public_entry length] in *; lia. }
      clear - UZ LN LQ. clearbody Q lo. change (@length (dest_index * Z) Q) with (@length entry Q) in *. lia.
    + intros t q0 Hq. rewrite NO1 in Hq. apply in_app_or in Hq. destruct Hq as [Hq|Hq].
      * destruct (UB t q0 Hq) as (s & S1 & S2). exists s. split; [|exact S2]. rewrite nth_error_app1; [exact S1|]. apply nth_error_Some. congruence.
      * destruct NO2 as [->|(q1 & -> & X1 & X2 & X3)]; [destruct Hq|]. destruct Hq as [Hq|[]]. injection Hq as <- <-. exact X3.
Qed.
Lemma private_lists_ok : forall m id machine T noops, (id + m = n)%nat -> built id machine T noops ->
  exists machine' T' noops', private_lists order mt m id machine T noops = Some (machine', T', noops') /\ built n machine' T' noops'.
Proof.
  induction m as [|m IH]; intros id machine T noops H B.
  - exists machine, T, noops. split; [reflexivity|]. replace n with id by lia. exact B.
  - destruct (private_step id machine T noops ltac:(lia) B) as (m1 & T1 & n1 & B1 & E). rewrite E. apply IH; [lia|exact B1].
Qed.
End Private.
