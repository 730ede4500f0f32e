(** Programs with several CompactStrings. *)
From Verif Require Import Base.Bytes Model.CompactString Spec.CompactStringSpec Proof.CompactStringBase Proof.CompactStringOps.
From Coq Require Import Permutation.
Notation limit := CompactStringBase.limit.

Lemma env_of E h : platform_ok E -> zlen h <= max_strings -> env_at E h.
Proof.
  intros P M n N. destruct (P h n M N) as (A & B). split; [|exact B]. apply find_none. intros I. unfold keys in I. apply in_map_iff in I. destruct I as ((k & l) & K & I). cbn in K. subst k. exact (A l I).
Qed.

(** ** Lists *)
Section Lists.
Context {A B : Type}.
Lemma len_set i x (l : list A) : length (set_nth i x l) = length l.
Proof. revert i. induction l as [|y l IH]; intros [|i]; cbn; auto. Qed.
Lemma nth_same i x (l : list A) d : (i < length l)%nat -> nth i (set_nth i x l) d = x.
Proof. revert i. induction l as [|y l IH]; intros [|i] H; cbn in *; auto; try lia. apply IH. lia. Qed.
Lemma nth_other i j x (l : list A) d : i <> j -> nth j (set_nth i x l) d = nth j l d.
Proof. revert i j. induction l as [|y l IH]; intros [|i] [|j] H; cbn; auto; try congruence. Qed.
Lemma map_set (f : A -> B) i x l : map f (set_nth i x l) = set_nth i (f x) (map f l).
Proof. revert i. induction l as [|y l IH]; intros [|i]; cbn; auto. now rewrite IH. Qed.
Lemma set_same i (l : list A) d : set_nth i (nth i l d) l = l.
Proof. revert i. induction l as [|y l IH]; intros [|i]; cbn; auto. now rewrite IH. Qed.
Lemma set_set i x y (l : list A) : set_nth i x (set_nth i y l) = set_nth i x l.
Proof. revert i. induction l as [|z l IH]; intros [|i]; cbn; auto. now rewrite IH. Qed.
Lemma set_comm i j x y (l : list A) : i <> j -> set_nth i x (set_nth j y l) = set_nth j y (set_nth i x l).
Proof. revert i j. induction l as [|z l IH]; intros [|i] [|j] H; cbn; auto; try congruence. f_equal. apply IH. congruence. Qed.
End Lists.

Definition others (i : nat) (l : list Z) : list Z := flat_map blocks (set_nth i kInlineTag l).
Lemma blocks_inline : blocks kInlineTag = []. Proof. reflexivity. Qed.
Lemma blocks_set i r l : (i < length l)%nat -> Permutation (flat_map blocks (set_nth i r l)) (blocks r ++ others i l).
Proof.
  unfold others. revert i. induction l as [|y l IH]; intros [|i] H; cbn [set_nth flat_map] in *; [cbn in H; lia|cbn in H; lia|reflexivity|].
  rewrite IH by (cbn in H; lia). rewrite !app_assoc. apply Permutation_app_tail, Permutation_app_comm.
Qed.
Lemma in_others i k l b : i <> k -> (k < length l)%nat -> In b (blocks (nth k l kInlineTag)) -> In b (others i l).
Proof.
  intros N K I. unfold others. apply in_flat_map. exists (nth k l kInlineTag). split; [|exact I]. rewrite <- (nth_other i k kInlineTag l kInlineTag N). apply nth_In. now rewrite len_set.
Qed.

Definition ok_repr (h : heap) (r : Z) : Prop := exists n full, rep h r n full /\ n <= limit.
Definition WI (w : world) : Prop := NoDup (keys (wheap w)) /\ Permutation (keys (wheap w)) (flat_map blocks (reprs w)) /\ Forall (ok_repr (wheap w)) (reprs w) /\ zlen (reprs w) <= max_strings.

Lemma view_rep h r n full : rep h r n full -> view h r = ztake n full. Proof. intros R. unfold view. now rewrite (view_ok _ _ _ _ R). Qed.
Lemma rep_inline h : rep h kInlineTag 0 (zeros 7).
Proof. split; [apply bytes_zeros|]. split; [change (zlen (zeros 7)) with 7; lia|left]. split; reflexivity. Qed.
Lemma view_inline h : view h kInlineTag = []. Proof. rewrite (view_rep _ _ _ _ (rep_inline h)). reflexivity. Qed.

Section World.
Variables (w : world) (i : nat).
Hypothesis (H : WI w) (I : there w i).
Lemma WI_rep : exists n full, rep (wheap w) (get w i) n full /\ n <= limit /\ str (strings_of w) i = ztake n full /\ zlen (str (strings_of w) i) = n.
Proof using H I.
  destruct H as (_ & _ & F & _). rewrite Forall_forall in F. destruct (F (get w i)) as (n & full & R & L); [apply nth_In; exact I|]. exists n, full. split; [exact R|]. split; [exact L|].
  assert (X : str (strings_of w) i = ztake n full). { rewrite <- (view_rep _ _ _ _ R). unfold str, strings_of, get. rewrite <- (view_inline (wheap w)). apply map_nth. } split; [exact X|]. rewrite X, zlen_ztake. destruct R as (_ & N & _). lia.
Qed.
Lemma WI_owns : owns (wheap w) (get w i) (others i (reprs w)).
Proof using H I. destruct H as (ND & PM & _). split; [exact ND|]. rewrite PM. rewrite <- (set_same i (reprs w) kInlineTag) at 1. now apply blocks_set. Qed.
Lemma rest_ok h' r' : frame (wheap w) h' r' (others i (reprs w)) -> forall k, (k < length (reprs w))%nat -> k <> i -> ok_repr h' (nth k (reprs w) kInlineTag) /\ view h' (nth k (reprs w) kInlineTag) = view (wheap w) (nth k (reprs w) kInlineTag).
Proof using H I.
  intros (_ & _ & F) k K N. destruct H as (_ & _ & FA & _). rewrite Forall_forall in FA. destruct (FA (nth k (reprs w) kInlineTag)) as (n & full & R & L); [now apply nth_In|].
  assert (R' : rep h' (nth k (reprs w) kInlineTag) n full). { eapply rep_frame; [exact R|]. intros b B. apply F. apply (in_others i k); [congruence|exact K|exact B]. } split; [now exists n, full|]. now rewrite (view_rep _ _ _ _ R'), (view_rep _ _ _ _ R).
Qed.
Lemma put_ok h' r' n' full' : rep h' r' n' full' -> n' <= limit -> frame (wheap w) h' r' (others i (reprs w)) -> WI (put w i (h', r')) /\ strings_of (put w i (h', r')) = set_nth i (ztake n' full') (strings_of w).
Proof using H I.
  intros R L F. pose proof (rest_ok h' r' F) as RO. split.
  - unfold WI, put. cbn [fst snd wheap reprs]. pose proof F as (K & ND & _). split; [exact ND|]. split; [rewrite K; symmetry; now apply blocks_set|]. split; [|unfold zlen; rewrite len_set; apply H]. apply Forall_forall. intros x X. apply (In_nth _ _ kInlineTag) in X. destruct X as (k & K1 & <-). rewrite len_set in K1.
    destruct (Nat.eq_dec k i) as [->|N]; [rewrite nth_same by exact I; now exists n', full'|]. rewrite nth_other by congruence. now apply RO.
  - unfold strings_of, put. cbn [fst snd wheap reprs]. apply (nth_ext _ _ (view h' kInlineTag) []); [now rewrite len_set, !map_length, len_set|]. intros k K. rewrite map_length, len_set in K. rewrite map_nth.
    destruct (Nat.eq_dec k i) as [->|N]; [rewrite !nth_same by (rewrite ?map_length; exact I); now apply view_rep|]. rewrite !nth_other by congruence. rewrite (proj2 (RO k K N)).
    rewrite <- (view_inline (wheap w)). symmetry. apply map_nth.
Qed.
Lemma gives_ok x s : gives (wheap w) (others i (reprs w)) x s -> zlen s <= limit -> exists w', option_map (put w i) x = Some w' /\ WI w' /\ strings_of w' = set_nth i s (strings_of w).
Proof using H I. intros (h' & r' & f & -> & R & T & F) L. exists (put w i (h', r')). destruct (put_ok h' r' _ f R L F) as (P & Q). rewrite T in Q. split; [reflexivity|]. now split. Qed.
End World.

Lemma add_ok w h' r' n' full' : WI w -> zlen (reprs w) < max_strings -> rep h' r' n' full' -> n' <= limit -> frame (wheap w) h' r' (keys (wheap w)) -> WI (add w (h', r')) /\ strings_of (add w (h', r')) = strings_of w ++ [ztake n' full'].
Proof.
  intros (ND & PM & FA & _) LM R L (K & N & F). rewrite Forall_forall in FA.
  assert (RO : forall r, In r (reprs w) -> ok_repr h' r /\ view h' r = view (wheap w) r).
  { intros r IR. destruct (FA r IR) as (n & full & R0 & L0). assert (R' : rep h' r n full). { eapply rep_frame; [exact R0|]. intros b B. apply F. eapply rep_in_keys; eauto. } split; [now exists n, full|]. now rewrite (view_rep _ _ _ _ R'), (view_rep _ _ _ _ R0). }
  unfold WI, strings_of, add. cbn [fst snd wheap reprs]. split.
  - split; [exact N|]. split; [rewrite flat_map_app; cbn [flat_map]; rewrite app_nil_r, K, PM; apply Permutation_app_comm|]. split; [|rewrite zlen_app; change (zlen [r']) with 1; lia]. apply Forall_app. split; [apply Forall_forall; intros r IR; now apply RO|]. constructor; [now exists n', full'|constructor].
  - rewrite map_app. cbn [map]. rewrite (view_rep _ _ _ _ R). f_equal. apply map_ext_in. intros r IR. now apply RO.
Qed.

Lemma bytes_val h r n full : rep h r n full -> bytes (ztake n full). Proof. intros (B & _). now apply bytes_ztake. Qed.

Lemma WI_heap w : WI w -> zlen (wheap w) <= max_strings.
Proof.
  intros (_ & PM & _ & L). apply Permutation_length in PM. unfold keys in PM. rewrite map_length in PM.
  assert (X : forall l, (length (flat_map blocks l) <= length l)%nat). { induction l as [|r l IH]; cbn [flat_map length]; [lia|]. rewrite app_length. unfold blocks at 1. destruct (tag r =? kInlineTag); cbn [length]; lia. }
  specialize (X (reprs w)). unfold zlen in *. lia.
Qed.
Section Exec.
Variables (E : env) (PO : platform_ok E).
Lemma exec_ok w o : WI w -> allowed w o -> exists w', exec E w o = Some w' /\ WI w' /\ strings_of w' = effect o (strings_of w).
Proof using PO.
  intros W A. pose proof (env_of E (wheap w) PO (WI_heap w W)) as EO. assert (ND : NoDup (keys (wheap w))) by apply W. assert (LE : CompactStringSpec.limit = limit) by reflexivity.
  assert (FR0 : frame (wheap w) (wheap w) kInlineTag (keys (wheap w))) by (split; [reflexivity|split; [exact ND|reflexivity]]).
  destruct o as [|s|s|s|j|i|i s|i off n|i j|i j|i n s|i n s|i n used s|i n|i|i s|i s|i off n|i|i k b]; cbn [allowed exec effect] in *; unfold fits in A; rewrite ?LE in A.
  - destruct (add_ok w (wheap w) kInlineTag 0 (zeros 7) W A (rep_inline _) ltac:(cbv; discriminate) FR0) as (X & Y). eauto.
  - destruct A as (LM & BY & L). unfold limit in L. destruct (make_frame E (wheap w) EO (zlen s) (zlen s) ND ltac:(lia) ltac:(lia)) as (h1 & r1 & f1 & X & R1 & _ & LF & F1).
    destruct (fill_ok (wheap w) (keys (wheap w)) (MakeRepr E (wheap w) (zlen s) (zlen s)) (zlen s) 0 f1 0 s) as (h2 & r2 & f2 & -> & R2 & T2 & F2); [exists h1, r1, f1; pose proof (zlen_nonneg f1); auto|lia|apply zlen_nonneg|lia|exact BY|].
    rewrite (ztake_nonpos 0 f1) in * by lia. cbn [app] in *. destruct (add_ok w h2 r2 (zlen s) f2 W LM R2 ltac:(unfold limit; lia) F2) as (P & Q). rewrite T2 in Q. eexists; split; [reflexivity|]; split; [exact P|exact Q].
  - destruct A as (LM & BY & L). unfold limit in L. destruct (make_from_ok E (wheap w) EO 0 0 0 [] (Elsewhere s) s (zlen s) ND) as (h2 & r2 & f2 & -> & R2 & T2 & _ & F2); [split; [exact BY|now left]|lia|].
    destruct (add_ok w h2 r2 (zlen s) f2 W LM R2 ltac:(unfold limit; lia) F2) as (P & Q). rewrite T2 in Q. eexists; split; [reflexivity|]; split; [exact P|exact Q].
  - destruct A as (LM & BY & L). unfold limit in L. destruct (make_from_ok E (wheap w) EO 0 0 0 [] (Elsewhere s) s (zlen s + 1) ND) as (h2 & r2 & f2 & -> & R2 & T2 & _ & F2); [split; [exact BY|now left]|lia|].
    destruct (add_ok w h2 r2 (zlen s) f2 W LM R2 ltac:(unfold limit; lia) F2) as (P & Q). rewrite T2 in Q. eexists; split; [reflexivity|]; split; [exact P|exact Q].
  - destruct A as (LM & A). destruct (WI_rep w j W A) as (n & full & R & L & S & _). destruct (copy_ok E _ EO _ _ _ ND R L) as (h2 & r2 & f2 & -> & R2 & T2 & F2). destruct (add_ok w h2 r2 n f2 W LM R2 L F2) as (P & Q). rewrite T2, <- S in Q. eexists; split; [reflexivity|]; split; [exact P|exact Q].
  - destruct (WI_rep w i W A) as (n & full & R & L & _). destruct (delete_ok _ _ _ _ _ (WI_owns w i W A) R) as (h2 & -> & K2 & N2 & F2).
    destruct (put_ok w i W A h2 kInlineTag 0 (zeros 7) (rep_inline _) ltac:(cbv; discriminate)) as (P & Q); [split; [exact K2|split; [exact N2|exact F2]]|]. eexists; split; [reflexivity|]; split; [exact P|exact Q].
  - destruct A as (T & BY & L). destruct (WI_rep w i W T) as (n & full & R & L0 & S & LN). apply (gives_ok w i W T); [|lia]. eapply (assign_ok E _ EO _ n full); eauto using WI_owns; [split; [exact BY|now left]|lia].
  - destruct A as (T & O & N0 & ON). destruct (WI_rep w i W T) as (n0 & full & R & L0 & S & LN). pose proof R as (BYF & NN & _). rewrite (data_ok _ _ _ _ R). rewrite LN in ON.
    assert (ZE : zslice off n (str (strings_of w) i) = zslice off n full). { rewrite S. unfold zslice. rewrite zdrop_ztake by lia. rewrite ztake_ztake. f_equal. lia. } rewrite ZE.
    assert (LZ : zlen (zslice off n full) = n) by (apply zlen_zslice; lia). apply (gives_ok w i W T); [|rewrite LZ; lia].
    eapply (assign_ok E _ EO _ n0 full); eauto using WI_owns; [|lia]. split; [now apply bytes_zslice|]. right. split; [exact R|]. exists off, n. repeat split; lia.
  - destruct A as (T & T'). destruct (WI_rep w i W T) as (n0 & full & R & L0 & S & LN). destruct (WI_rep w j W T') as (n2 & full2 & R2 & L2 & S2 & LN2). rewrite S2. apply (gives_ok w i W T); [|rewrite <- S2, LN2; exact L2].
    eapply (assign_copy_ok E _ EO _ n0 full); eauto using WI_owns. destruct (Nat.eq_dec i j) as [<-|N].
    + left. split; [reflexivity|]. pose proof (size_ok _ _ _ _ R) as A1. pose proof (size_ok _ _ _ _ R2) as A2. rewrite A1 in A2. split; [congruence|]. injection A2 as <-.
      pose proof (read_ok _ _ _ _ 0 (zlen full) R ltac:(lia) (zlen_nonneg _) ltac:(lia)) as B1. pose proof (capacity_ok _ _ _ _ R) as C1. pose proof (capacity_ok _ _ _ _ R2) as C2. rewrite C1 in C2. injection C2 as C2.
      pose proof (read_ok _ _ _ _ 0 (zlen full) R2 ltac:(lia) (zlen_nonneg _) ltac:(lia)) as B2. rewrite B1 in B2. injection B2 as B2. unfold zslice in B2. rewrite !zdrop_nonpos in B2 by lia. rewrite !ztake_all in B2 by lia. congruence.
    + right. intros b B. apply (in_others i j); auto.
  - destruct A as (T & T'). destruct (Nat.eq_dec i j) as [<-|N].
    + exists w. unfold put, get. cbn [fst snd wheap reprs]. rewrite nth_same by exact T. cbn [DeleteRepr tag kInlineTag]. change (DeleteRepr (wheap w) kInlineTag) with (Some (wheap w)). rewrite set_set, set_same. destruct w as [h rs]. split; [reflexivity|]. split; [exact W|]. rewrite set_set. symmetry. apply set_same.
    + assert (GI : get (put w j (wheap w, kInlineTag)) i = get w i) by (unfold get, put; cbn [reprs snd]; apply nth_other; congruence). rewrite GI.
      destruct (WI_rep w i W T) as (n0 & full & R & L0 & S & LN). destruct (delete_ok _ _ _ _ _ (WI_owns w i W T) R) as (h2 & -> & K2 & N2 & F2).
      destruct (put_ok w i W T h2 kInlineTag 0 (zeros 7) (rep_inline _) ltac:(cbv; discriminate)) as (P & Q); [split; [exact K2|split; [exact N2|exact F2]]|]. eexists. split; [reflexivity|]. unfold put in *. cbn [fst snd wheap reprs] in *.
      set (l := reprs w) in *. assert (EQ : set_nth i (get w j) (set_nth j kInlineTag l) = set_nth i (get w j) (set_nth j kInlineTag (set_nth i kInlineTag l))) by (rewrite (set_comm j i) by congruence; now rewrite set_set).
      assert (Lj : (j < length (set_nth i kInlineTag l))%nat) by (rewrite len_set; exact T'). assert (GJ : get w j = nth j (set_nth i kInlineTag l) kInlineTag) by (unfold get; symmetry; now apply nth_other).
      rewrite EQ. destruct P as (P1 & P2 & P3 & P4). cbn [wheap reprs] in *. split.
      * split; [exact P1|]. split; [|split]; cbn [wheap reprs].
        -- rewrite P2. rewrite (blocks_set i (get w j) (set_nth j kInlineTag (set_nth i kInlineTag l))) by (now rewrite !len_set). unfold others. rewrite (set_comm i j) by congruence. rewrite !set_set. rewrite GJ.
           rewrite <- (blocks_set j (nth j (set_nth i kInlineTag l) kInlineTag) (set_nth i kInlineTag l) Lj). now rewrite set_same.
        -- rewrite Forall_forall in *. intros x X. apply (In_nth _ _ kInlineTag) in X. destruct X as (k & K1 & <-). rewrite !len_set in K1. destruct (Nat.eq_dec k i) as [->|Nk]; [rewrite nth_same by (now rewrite !len_set); rewrite GJ; apply P3, nth_In; now rewrite len_set|].
           rewrite nth_other by congruence. destruct (Nat.eq_dec k j) as [->|Nj]; [rewrite nth_same by exact Lj; exists 0, (zeros 7); split; [apply rep_inline|cbv; discriminate]|]. rewrite nth_other by congruence. apply P3, nth_In. now rewrite len_set.
        -- unfold zlen in *. rewrite !len_set in *. exact P4.
      * unfold strings_of in *. cbn [wheap reprs] in *. rewrite (map_set (view h2) i (get w j)), (map_set (view h2) j). rewrite Q. cbn [ztake] in *. change (ztake 0 (zeros 7)) with (@nil Z). rewrite view_inline. rewrite (set_comm j i) by congruence. rewrite set_set. f_equal.
        rewrite GJ. rewrite <- (map_nth (view h2)). rewrite view_inline, Q. unfold str. now apply nth_other.
  - destruct A as (T & L & C & BY & LF). destruct (WI_rep w i W T) as (n0 & full & R & L0 & S & LN). pose proof R as (_ & NN & _). rewrite (size_ok _ _ _ _ R). rewrite LN in LF. unfold capacity_of in C. rewrite (capacity_ok _ _ _ _ R) in C.
    replace (ztake n (str (strings_of w) i)) with (ztake (Z.min n n0) full) by (rewrite S, ztake_ztake; reflexivity). apply (gives_ok w i W T).
    + eapply fill_ok; [eapply (set_size_keeps _ _ n0 full); eauto using WI_owns; lia|lia|lia|lia|exact BY].
    + rewrite zlen_app, zlen_ztake. lia.
  - destruct A as (T & L & BY & LF). destruct (WI_rep w i W T) as (n0 & full & R & L0 & S & LN). pose proof R as (_ & NN & _). rewrite (size_ok _ _ _ _ R). rewrite LN in LF.
    replace (ztake n (str (strings_of w) i)) with (ztake (Z.min n n0) full) by (rewrite S, ztake_ztake; reflexivity). apply (gives_ok w i W T).
    + eapply fill_ok; [eapply (resize_ok E _ EO _ n0 full); eauto using WI_owns; lia|lia|lia|lia|exact BY].
    + rewrite zlen_app, zlen_ztake. lia.
  - destruct A as (T & L & U & U1 & BY & LF). destruct (WI_rep w i W T) as (n0 & full & R & L0 & S & LN). pose proof R as (_ & NN & _). rewrite LN in U.
    replace (ztake used (str (strings_of w) i)) with (ztake used full) by (rewrite S, ztake_ztake; f_equal; lia). apply (gives_ok w i W T).
    + eapply fill_ok; [eapply (resize_used_ok E _ EO _ n0 full); eauto using WI_owns; lia|lia|lia|lia|exact BY].
    + rewrite zlen_app, zlen_ztake. lia.
  - destruct A as (T & L). destruct (WI_rep w i W T) as (n0 & full & R & L0 & S & LN). destruct (reserve_ok E _ EO _ n0 full _ n (WI_owns w i W T) R ltac:(lia)) as (h2 & r2 & f2 & -> & R2 & T2 & _ & F2).
    destruct (put_ok w i W T h2 r2 n0 f2 R2 L0 F2) as (P & Q). eexists. split; [reflexivity|]. split; [exact P|]. rewrite Q, T2, <- S. apply set_same.
  - destruct (WI_rep w i W A) as (n0 & full & R & L0 & S & LN). pose proof (shrink_ok E _ EO _ n0 full _ (WI_owns w i W A) R L0) as G. destruct (gives_ok w i W A _ _ G) as (w' & P & Q & V); [rewrite <- S; lia|]. exists w'. split; [exact P|]. split; [exact Q|]. rewrite V, <- S. apply set_same.
  - destruct A as (T & BY & L). destruct (WI_rep w i W T) as (n0 & full & R & L0 & S & LN). pose proof R as (_ & NN & _). rewrite (size_ok _ _ _ _ R). rewrite LN in L. rewrite S. pose proof (zlen_nonneg s). apply (gives_ok w i W T).
    + eapply fill_ok; [eapply (append_length_ok E _ EO _ n0 full); eauto using WI_owns; lia|lia|lia|lia|exact BY].
    + rewrite zlen_app, zlen_ztake. lia.
  - destruct A as (T & BY & L). destruct (WI_rep w i W T) as (n0 & full & R & L0 & S & LN). pose proof R as (_ & NN & _). rewrite LN in L. rewrite S. apply (gives_ok w i W T); [|rewrite zlen_app, zlen_ztake; lia].
    eapply (append_ok E _ EO _ n0 full); eauto using WI_owns; [split; [exact BY|now left]|discriminate|lia].
  - destruct A as (T & O & N0 & ON & L). destruct (WI_rep w i W T) as (n0 & full & R & L0 & S & LN). pose proof R as (BYF & NN & _). rewrite (data_ok _ _ _ _ R). rewrite LN in *.
    assert (ZE : zslice off n (str (strings_of w) i) = zslice off n full). { rewrite S. unfold zslice. rewrite zdrop_ztake by lia. rewrite ztake_ztake. f_equal. lia. } rewrite ZE, S.
    assert (LZ : zlen (zslice off n full) = n) by (apply zlen_zslice; lia). apply (gives_ok w i W T); [|rewrite zlen_app, zlen_ztake, LZ; lia].
    eapply (append_ok E _ EO _ n0 full); eauto using WI_owns; [|intros p k [= <- <-]; exists off; repeat split; lia|lia]. split; [now apply bytes_zslice|]. right. split; [exact R|]. exists off, n. repeat split; lia.
  - destruct (WI_rep w i W A) as (n0 & full & R & L0 & S & LN). destruct (c_str_ok E _ EO _ n0 full _ (WI_owns w i W A) R L0) as (h2 & r2 & f2 & -> & R2 & T2 & F2).
    destruct (put_ok w i W A h2 r2 n0 f2 R2 L0 F2) as (P & Q). eexists. split; [reflexivity|]. split; [exact P|]. rewrite Q, T2, <- S. apply set_same.
  - destruct A as (T & K & BB). destruct (WI_rep w i W T) as (n0 & full & R & L0 & S & LN). pose proof R as (BYF & NN & _). rewrite LN in K. rewrite (size_ok _ _ _ _ R). unfold check. replace (k <? n0) with true by (symmetry; apply Z.ltb_lt; lia).
    cbn [fill_at]. rewrite (data_ok _ _ _ _ R). destruct (write_ok _ _ n0 full _ k [b] (WI_owns w i W T) R ltac:(lia)) as (h2 & r2 & -> & R2 & F2). { change (zlen [b]) with 1. lia. } { constructor; [exact BB|constructor]. }
    destruct (put_ok w i W T h2 r2 n0 _ R2 L0 F2) as (P & Q). eexists. split; [reflexivity|]. split; [exact P|]. rewrite Q. f_equal. rewrite S. unfold overwrite. change (zlen [b]) with 1.
    rewrite ztake_app_r by (rewrite zlen_ztake; lia). rewrite zlen_ztake, ztake_ztake. replace (Z.min k n0) with k by lia. f_equal. rewrite ztake_app_r by (change (zlen [b]) with 1; lia). f_equal. change (zlen [b]) with 1. rewrite zdrop_ztake by lia. f_equal. lia.
Qed.

Lemma WI_start : WI start. Proof. split; [constructor|]. split; [reflexivity|]. split; [constructor|cbv; discriminate]. Qed.
Lemma reachable_WI w : reachable E w -> WI w.
Proof using PO. induction 1 as [|w o w' _ IH A X]; [exact WI_start|]. destruct (exec_ok w o IH A) as (w2 & Y & Q & _). rewrite X in Y. injection Y as <-. exact Q. Qed.

Lemma there_len w w' : strings_of w' = strings_of w -> length (reprs w') = length (reprs w).
Proof. intros X. apply (f_equal (@length _)) in X. unfold strings_of in X. now rewrite !map_length in X. Qed.
Lemma destroy_all w k : WI w -> (k <= length (reprs w))%nat -> exists w', run E w (map Destroy (seq 0 k)) = Some w' /\ WI w' /\ length (reprs w') = length (reprs w) /\ forall i, (i < k)%nat -> get w' i = kInlineTag.
Proof using PO.
  intros W. induction k as [|k IH]; intros K; [exists w; split; [reflexivity|]; split; [exact W|]; split; [reflexivity|]; intros; lia|].
  destruct (IH ltac:(lia)) as (w1 & X & W1 & L1 & G1). rewrite seq_S, map_app. cbn [map Nat.add].
  assert (RA : forall ops1 ops2 x, run E x (ops1 ++ ops2) = match run E x ops1 with Some y => run E y ops2 | None => None end). { induction ops1 as [|o ops IHo]; intros ops2 x; cbn [run app]; [reflexivity|]. destruct (exec E x o); [apply IHo|reflexivity]. }
  rewrite RA, X. cbn [run]. destruct (exec_ok w1 (Destroy k) W1) as (w2 & Y & W2 & _). { cbn. unfold there. lia. } rewrite Y. exists w2. split; [reflexivity|]. split; [exact W2|]. cbn [exec] in Y. destruct (DeleteRepr (wheap w1) (get w1 k)) as [h2|]; [|discriminate]. injection Y as <-.
  unfold put, get. cbn [fst snd reprs]. rewrite len_set. split; [exact L1|]. intros i Hi. destruct (Nat.eq_dec i k) as [->|N]; [apply nth_same; lia|]. rewrite nth_other by congruence. apply G1. lia.
Qed.
Lemma all_inline_empty w : WI w -> (forall i, (i < length (reprs w))%nat -> get w i = kInlineTag) -> wheap w = [].
Proof.
  intros (_ & PM & _) A. assert (X : flat_map blocks (reprs w) = []). { assert (Y : forall l, (forall r, In r l -> r = kInlineTag) -> flat_map blocks l = []). { induction l as [|r l IH]; intros Q; [reflexivity|]. cbn [flat_map]. rewrite (Q r) by now left. rewrite blocks_inline. cbn [app]. apply IH. intros x IX. apply Q. now right. }
    apply Y. intros r IR. apply (In_nth _ _ kInlineTag) in IR. destruct IR as (k & K & <-). now apply A. }
  rewrite X in PM. apply Permutation_sym, Permutation_nil in PM. unfold keys in PM. now apply map_eq_nil in PM.
Qed.
End Exec.
