(** The invariant of BackgroundCleaner. *)
From Coq Require Import Sorting.Sorted Sorting.Permutation.
From Verif Require Import Base.Bytes Model.Cleaner Spec.CleanerSpec Proof.CleanerList.
Arguments deref : simpl never.
Arguments erase : simpl never.
Arguments set_deadline : simpl never.

Definition Srt : list entry -> Prop := StronglySorted (fun a b => dl a <= dl b).
Definition lists (l : list entry) (nxt : option Z) (idle pend : list entry) : Prop :=
  l = idle ++ pend /\ Forall (fun e => deadline e = None) idle /\ Forall (fun e => deadline e <> None) pend /\ Srt pend /\ nxt = begin pend.
Definition due (pend : list entry) (d : option Z) : Prop := match pend, d with [], _ => True | e :: _, Some x => x <= dl e | _ :: _, None => False end.
Record Inv (s : st) : Prop := {
  i_lists : exists idle pend, lists (entries s) (next s) idle pend /\ (pend <> [] -> no_thread s = false) /\ (forall d, thread s = TWaiting d -> reduced s = true \/ due pend d);
  i_nodup : NoDup (ids (entries s));
  i_fresh : Forall (fun e => eid e < fresh s) (entries s);
  i_thread : no_thread s = true <-> thread s = TNone;
  i_current : current s <> None <-> thread s = TCleaning;
  i_cleanee : forall c, current s = Some c -> exists e, In e (entries s) /\ cleanee e = c;
  i_dying : dying s = true -> entries s = [] /\ (forall d, thread s = TWaiting d -> reduced s = true) }.
Lemma init_inv : Inv init.
Proof.
  constructor; cbn; try (split; intros; congruence); try constructor; try discriminate; try reflexivity.
  exists [], []. split; [repeat split; constructor|]. split; [congruence|discriminate].
Qed.
Lemma Srt_app a b : Srt (a ++ b) <-> Srt a /\ Srt b /\ (forall x y, In x a -> In y b -> dl x <= dl y).
Proof.
  unfold Srt. induction a as [|x a IH]; cbn [app].
  - split; [intros S; repeat split; [constructor|exact S|intros ? ? []]|intros (_ & S & _); exact S].
  - split.
    + intros S. inversion S as [|? ? S1 F]; subst. apply IH in S1. destruct S1 as (A & B & C). apply Forall_app in F. destruct F as (F1 & F2). split; [constructor; assumption|]. split; [exact B|]. intros u v [->|U] V; [rewrite Forall_forall in F2; now apply F2|now apply C].
    + intros (S & B & C). inversion S as [|? ? S1 F]; subst. constructor; [apply IH; split; [exact S1|split; [exact B|intros u v U V; apply C; [now right|exact V]]]|]. apply Forall_app. split; [exact F|]. apply Forall_forall. intros v V. apply C; [now left|exact V].
Qed.
Lemma Srt_cons e b : Srt (e :: b) <-> Srt b /\ (forall y, In y b -> dl e <= dl y).
Proof. unfold Srt. split; [intros S; inversion S as [|? ? S1 F]; subst; split; [exact S1|now rewrite Forall_forall in F]|intros (A & B); constructor; [exact A|now apply Forall_forall]]. Qed.

Definition step_ok (s : st) (r : result) : Prop :=
  match r with Fail => False | Blocked => True | Done s' evs => Inv s' /\ spec_run (abs_of s) evs (abs_of s') end.
Lemma run1 a ev a' : spec_step a ev a' -> spec_run a [ev] a'. Proof. intros S. eapply spec_cons; [exact S|]. constructor; reflexivity. Qed.

Lemma register_ok s c : Inv s -> dying s = false -> step_ok s (Register s c).
Proof.
  intros [(idle & pend & (L & FI & FP & SP & NX) & TH & W) ND FR T C CL DY] D. unfold Register. split.
  - constructor; cbn; auto.
    + exists (Entry (fresh s) c None :: idle), pend. split; [|split; auto]. split; [now rewrite L|]. split; [constructor; [reflexivity|exact FI]|]. auto.
    + constructor; [|exact ND]. intros I. apply in_map_iff in I. destruct I as (e & E & I). rewrite Forall_forall in FR. specialize (FR e I). lia.
    + constructor; [cbn; lia|]. eapply Forall_impl; [|exact FR]. cbn. intros; lia.
    + intros c' E. destruct (CL c' E) as (e & I & X). exists e. split; [now right|exact X].
    + congruence.
  - apply run1. split; [|split; [|reflexivity]].
    + cbn. rewrite deref_not; [reflexivity|]. intros I. apply in_map_iff in I. destruct I as (e & E & I). rewrite Forall_forall in FR. specialize (FR e I). lia.
    + intros j. cbn. rewrite deref_cons. cbn [eid]. destruct (j =? fresh s); reflexivity.
Qed.
Lemma not_current_ne s e : not_current s e = true -> current s <> Some (cleanee e).
Proof. unfold not_current. intros N E. rewrite E, it_eqb_refl in N. discriminate. Qed.
Lemma due_incl pend pend' d : Srt pend -> (pend' = [] \/ exists x p, pend' = x :: p /\ exists y, In y pend /\ dl y = dl x) -> due pend d -> due pend' d.
Proof.
  intros S [->|(x & p & -> & y & I & E)] D; [exact Logic.I|]. destruct pend as [|e pend]; [destruct I|]. cbn in *. destruct d; [|exact D]. apply Srt_cons in S. destruct S as (_ & S). destruct I as [->|I]; [lia|]. specialize (S y I). lia.
Qed.
Lemma cleanees l1 e l2 c : c <> cleanee e -> (exists x, In x (l1 ++ e :: l2) /\ cleanee x = c) -> exists x, In x (l1 ++ l2) /\ cleanee x = c.
Proof. intros N (x & I & E). exists x. split; [|exact E]. apply in_app_or in I. apply in_or_app. destruct I as [I|[->|I]]; auto. congruence. Qed.

Lemma unregister_ok s i : Inv s -> dying s = false -> reg (abs_of s) i <> None -> step_ok s (Unregister s i).
Proof.
  intros [(idle & pend & (L & FI & FP & SP & NX) & TH & W) ND FR T C CL DY] D R. unfold Unregister. cbn in R. destruct (deref (entries s) i) as [e|] eqn:E; [|rewrite ?E in R; destruct R; reflexivity]. destruct (not_current s e) eqn:NC; [|exact Logic.I]. apply not_current_ne in NC.
  apply deref_some in E. destruct E as (I & <-).
  assert (X : exists l1 l2 idle' pend', entries s = l1 ++ e :: l2 /\ l1 ++ l2 = idle' ++ pend' /\ Forall (fun e => deadline e = None) idle' /\ Forall (fun e => deadline e <> None) pend' /\ Srt pend' /\ (pend' <> [] -> pend <> []) /\ (forall d, due pend d -> due pend' d) /\
    (if it_eqb (next s) (Some (eid e)) then after (entries s) (eid e) else Some (next s)) = Some (begin pend')).
  { rewrite L in I. apply in_app_or in I. destruct I as [I|I].
    - apply in_split in I. destruct I as (i1 & i2 & EI). exists i1, (i2 ++ pend), (i1 ++ i2), pend. subst idle. rewrite <- !app_assoc in *. cbn [app] in *. split; [exact L|]. split; [reflexivity|].
      apply Forall_app in FI. destruct FI as (F1 & F2). inversion F2; subst. split; [now apply Forall_app|]. split; [exact FP|]. split; [exact SP|]. split; [auto|]. split; [auto|]. rewrite it_eqb_ne; [now rewrite NX|]. rewrite NX. intros B. apply begin_in in B. rewrite L in ND. destruct (mid _ _ _ ND) as (_ & Q & _). apply Q. rewrite ids_app. apply in_or_app. now right.
    - apply in_split in I. destruct I as (p1 & p2 & EP). exists (idle ++ p1), p2, idle, (p1 ++ p2). subst pend. rewrite <- !app_assoc. split; [exact L|]. split; [reflexivity|]. split; [exact FI|].
      pose proof FP as FP0. apply Forall_app in FP. destruct FP as (F1 & F2). inversion F2; subst. split; [now apply Forall_app|]. pose proof SP as SP0. apply Srt_app in SP. destruct SP as (S1 & S2 & S3). apply Srt_cons in S2. destruct S2 as (S2 & S4).
      split; [apply Srt_app; split; [exact S1|split; [exact S2|intros x y A B; apply S3; [exact A|now right]]]|]. split; [intros _; destruct p1; discriminate|]. split.
      + intros d. apply due_incl; [exact SP0|]. destruct (p1 ++ p2) as [|x p] eqn:Q; [now left|]. right. exists x, p. split; [reflexivity|]. exists x. split; [|reflexivity]. assert (In x (p1 ++ p2)) by (rewrite Q; now left). apply in_app_or in H. apply in_or_app. destruct H; [now left|right; now right].
      + rewrite NX. destruct p1 as [|x p1]; cbn [app begin].
        * rewrite it_eqb_refl. rewrite L in *. cbn [app] in *. now rewrite after_mid.
        * rewrite it_eqb_ne; [reflexivity|]. intros [= Q]. rewrite L in ND. rewrite app_assoc in ND. destruct (mid _ _ _ ND) as (A & _). apply A. rewrite ids_app. apply in_or_app. right. left. exact Q. }
  destruct X as (l1 & l2 & idle' & pend' & EL & E2 & FI' & FP' & SP' & PN & PD & ->). rewrite EL in ND. pose proof (mid _ _ _ ND) as (M1 & M2 & M3). split.
  - constructor; cbn; rewrite ?EL, ?(erase_mid _ _ _ ND); auto.
    + exists idle', pend'. split; [repeat split; auto|]. split; [auto|]. intros d Q. destruct (W d Q); auto.
    + rewrite EL in FR. apply Forall_app in FR. destruct FR as (A & B). inversion B; subst. now apply Forall_app.
    + intros c Q. apply (cleanees l1 e l2); [congruence|]. rewrite <- EL. now apply CL.
    + congruence.
  - apply run1. exists (cleanee e), (deadline e). cbn. rewrite EL. rewrite (deref_in _ e ND) by (apply in_or_app; right; now left). split; [reflexivity|]. split; [exact NC|]. split; [|reflexivity]. intros j. cbn. rewrite EL, (erase_mid _ _ _ ND), (deref_mid _ _ _ j ND). destruct (Z.eqb_spec j (eid e)) as [->|]; [|reflexivity]. rewrite deref_not; [reflexivity|]. rewrite ids_app. intros A. apply in_app_or in A. destruct A; auto.
Qed.
(** A change of the deadline of one entry, whose place may change *)
Lemma upd_abs s s' l1 e l2 d : NoDup (ids (entries s)) -> entries s = l1 ++ e :: l2 -> Permutation (entries s') (Entry (eid e) (cleanee e) d :: l1 ++ l2) -> NoDup (ids (entries s')) /\ updated (abs_of s) (abs_of s') (eid e) (Some (cleanee e, d)).
Proof.
  intros ND EL P. rewrite EL in ND. pose proof (mid _ _ _ ND) as (M1 & M2 & M3).
  assert (N : NoDup (ids (Entry (eid e) (cleanee e) d :: l1 ++ l2))) by (cbn; constructor; [rewrite map_app; intros A; apply in_app_or in A; destruct A; auto|exact M3]).
  split; [eapply NoDup_perm; [exact N|now apply Permutation_sym]|]. intros j. cbn. rewrite (deref_perm _ _ j N (Permutation_sym P)), deref_cons, EL, (deref_mid _ _ _ j ND). cbn [eid]. destruct (j =? eid e); reflexivity.
Qed.
Lemma fresh_perm l l1 e l2 d f : Forall (fun x => eid x < f) (l1 ++ e :: l2) -> Permutation l (Entry (eid e) (cleanee e) d :: l1 ++ l2) -> Forall (fun x => eid x < f) l.
Proof.
  intros F P. eapply Permutation_Forall; [apply Permutation_sym; exact P|]. apply Forall_app in F. destruct F as (A & B). inversion B; subst. constructor; [assumption|]. now apply Forall_app.
Qed.
Lemma cleanee_perm l l1 e l2 d c : Permutation l (Entry (eid e) (cleanee e) d :: l1 ++ l2) -> (exists x, In x (l1 ++ e :: l2) /\ cleanee x = c) -> exists x, In x l /\ cleanee x = c.
Proof.
  intros P (x & I & E). apply in_app_or in I. destruct I as [I|[->|I]].
  - exists x. split; [|exact E]. eapply Permutation_in; [apply Permutation_sym; exact P|]. right. apply in_or_app. now left.
  - eexists. split; [eapply Permutation_in; [apply Permutation_sym; exact P|now left]|exact E].
  - exists x. split; [|exact E]. eapply Permutation_in; [apply Permutation_sym; exact P|]. right. apply in_or_app. now right.
Qed.
Lemma pend_split idle pend e l : l = idle ++ pend -> Forall (fun e => deadline e = None) idle -> In e l -> deadline e <> None -> exists p1 p2, pend = p1 ++ e :: p2.
Proof. intros -> F I D. apply in_app_or in I. destruct I as [I|I]; [rewrite Forall_forall in F; destruct (D (F e I))|now apply in_split]. Qed.
Lemma idle_split idle pend e l : l = idle ++ pend -> Forall (fun e => deadline e <> None) pend -> In e l -> deadline e = None -> exists p1 p2, idle = p1 ++ e :: p2.
Proof. intros -> F I D. apply in_app_or in I. destruct I as [I|I]; [now apply in_split|rewrite Forall_forall in F; destruct (F e I D)]. Qed.

Lemma cancel_ok s i : Inv s -> dying s = false -> reg (abs_of s) i <> None -> step_ok s (CancelCleaning s i).
Proof.
  intros [(idle & pend & (L & FI & FP & SP & NX) & TH & W) ND FR T C CL DY] D R. unfold CancelCleaning. cbn in R. destruct (deref (entries s) i) as [e|] eqn:E; [|rewrite ?E in R; destruct R; reflexivity]. destruct (not_current s e) eqn:NC; [|exact Logic.I]. apply not_current_ne in NC. pose proof E as E0.
  apply deref_some in E. destruct E as (I & <-). destruct (deadline e) as [d|] eqn:DE.
  2:{ split; [constructor; auto; exists idle, pend; repeat split; auto|]. apply run1. exists (cleanee e), (deadline e). cbn. rewrite E0. split; [reflexivity|]. split; [exact NC|]. split; [|reflexivity]. intros j. cbn. destruct (Z.eqb_spec j (eid e)) as [->|]; [|reflexivity]. rewrite E0. cbn. now rewrite DE. }
  destruct (pend_split idle pend e _ L FI I ltac:(congruence)) as (p1 & p2 & EP).
  assert (EL : entries s = (idle ++ p1) ++ e :: p2) by (rewrite L, EP, <- app_assoc; reflexivity).
  set (e' := Entry (eid e) (cleanee e) None).
  assert (X : exists l n, (if it_eqb (next s) (Some (eid e)) then match after (entries s) (eid e) with Some n => Done (St (set_deadline (entries s) (eid e) None) n (current s) (reduced s) (no_thread s) (thread s) (fresh s) (dying s)) [EvCancel (eid e)] | None => Fail end
      else match splice (entries s) (next s) (eid e) with Some l => Done (St (set_deadline l (eid e) None) (next s) (current s) (reduced s) (no_thread s) (thread s) (fresh s) (dying s)) [EvCancel (eid e)] | None => Fail end)
      = Done (St l n (current s) (reduced s) (no_thread s) (thread s) (fresh s) (dying s)) [EvCancel (eid e)] /\ l = (idle ++ [e']) ++ p1 ++ p2 /\ n = begin (p1 ++ p2)).
  { rewrite NX, EP. destruct p1 as [|x p1].
    - cbn [app begin]. rewrite it_eqb_refl. rewrite EL, app_nil_r in *. rewrite (after_mid _ _ _ ND), (set_mid _ _ _ _ ND). eexists _, _. split; [reflexivity|]. split; [now rewrite <- app_assoc|reflexivity].
    - assert (N1 : NoDup (ids (idle ++ (x :: p1) ++ e :: p2))) by (rewrite EL, <- app_assoc in ND; exact ND). rewrite it_eqb_ne.
      + rewrite L, EP. rewrite (splice_back _ _ _ _ N1). rewrite set_mid.
        * eexists _, _. split; [reflexivity|]. split; [now rewrite <- app_assoc|reflexivity].
        * eapply NoDup_perm; [exact N1|]. apply Permutation_app_head. apply Permutation_sym, (Permutation_middle (x :: p1) p2 e).
      + cbn. intros [= Q]. rewrite EL in ND. destruct (mid _ _ _ ND) as (A & _). apply A. rewrite ids_app. apply in_or_app. right. left. exact Q. }
  destruct X as (l & n & -> & El & En). set (s' := St l n (current s) (reduced s) (no_thread s) (thread s) (fresh s) (dying s)).
  assert (P : Permutation (entries s') (e' :: (idle ++ p1) ++ p2)). { cbn. rewrite El. rewrite <- !app_assoc. cbn [app]. apply Permutation_sym, Permutation_middle. }
  destruct (upd_abs s s' _ e _ None ND EL P) as (ND' & U). pose proof SP as SP0. rewrite EP in SP, FP. apply Srt_app in SP. destruct SP as (S1 & S2 & S3). apply Srt_cons in S2. destruct S2 as (S2 & S4). apply Forall_app in FP. destruct FP as (F1 & F2). inversion F2; subst x l0. split.
  - constructor; cbn; auto.
    + exists (idle ++ [e']), (p1 ++ p2). split; [split; [exact El|]|].
      * split; [apply Forall_app; split; [exact FI|constructor; [reflexivity|constructor]]|]. split; [now apply Forall_app|]. split; [|exact En]. apply Srt_app. split; [exact S1|split; [exact S2|intros x y A B; apply S3; [exact A|now right]]].
      * split; [intros _; apply TH; rewrite EP; destruct p1; discriminate|]. intros d' Q. destruct (W d' Q) as [?|DU]; [now left|]. right. revert DU. apply due_incl; [exact SP0|]. destruct (p1 ++ p2) as [|x p] eqn:Q2; [now left|]. right. exists x, p. split; [reflexivity|]. exists x. split; [|reflexivity]. assert (A : In x (p1 ++ p2)) by (rewrite Q2; now left). rewrite EP. apply in_app_or in A. apply in_or_app. destruct A; [now left|right; now right].
    + rewrite EL in FR. eapply fresh_perm; [exact FR|exact P].
    + intros c Q. eapply cleanee_perm; [exact P|]. rewrite <- EL. now apply CL.
    + congruence.
  - apply run1. exists (cleanee e), (deadline e). cbn. rewrite E0. split; [reflexivity|]. split; [exact NC|]. split; [exact U|reflexivity].
Qed.
