From Verif Require Import Base.Bytes Spec.PosixFile.

Lemma write_at_nil c p : write_at c p [] = c.
Proof. reflexivity. Qed.
(** The content with the gap (if any) filled *)
Definition pad (c : list Z) (p : Z) : list Z := c ++ zeros (p - zlen c).
Lemma zlen_pad c p : zlen (pad c p) = Z.max (zlen c) p.
Proof. unfold pad. rewrite zlen_app, zlen_zeros. lia. Qed.
Lemma write_at_pad c p d : 0 <= p -> d <> [] -> write_at c p d = ztake p (pad c p) ++ d ++ zdrop (p + zlen d) (pad c p).
Proof.
  intros P D. unfold write_at, pad. destruct d as [|x d]; [contradiction|]. set (d' := x :: d). pose proof (zlen_nonneg d'). pose proof (zlen_nonneg c).
  destruct (Z.le_gt_cases p (zlen c)) as [L|L].
  - rewrite zeros_nonpos by lia. rewrite app_nil_r. reflexivity.
  - rewrite (ztake_all p c), (ztake_all p (c ++ _)) by (rewrite ?zlen_app, ?zlen_zeros; lia).
    rewrite (zdrop_all _ c), (zdrop_all _ (c ++ _)) by (rewrite ?zlen_app, ?zlen_zeros; lia). rewrite <- !app_assoc. reflexivity.
Qed.
Lemma zlen_write_at c p d : 0 <= p -> d <> [] -> zlen (write_at c p d) = Z.max (zlen c) (p + zlen d).
Proof.
  intros P D. rewrite write_at_pad by assumption. rewrite !zlen_app, zlen_ztake, zlen_zdrop, zlen_pad. pose proof (zlen_nonneg c). pose proof (zlen_nonneg d). lia.
Qed.
Lemma zlen_write_at_ge c p d : 0 <= p -> zlen c <= zlen (write_at c p d).
Proof. intros P. destruct d as [|x d]; [rewrite write_at_nil; lia|]. rewrite zlen_write_at by (auto; discriminate). lia. Qed.
Lemma write_at_overlay c p x i d : 0 <= p -> 0 <= i <= zlen x ->
  write_at (write_at c p x) (p + i) d = write_at c p (ztake i x ++ d ++ zdrop (i + zlen d) x).
Proof.
  intros P H. destruct d as [|y d]; [rewrite write_at_nil; change (zlen (@nil Z)) with 0; rewrite Z.add_0_r; cbn [app]; rewrite ztake_zdrop; reflexivity|].
  set (d' := y :: d). assert (D : d' <> []) by discriminate. assert (D0 : 0 < zlen d') by (unfold d'; rewrite zlen_cons; pose proof (zlen_nonneg d); lia).
  pose proof (zlen_nonneg c) as C0. clearbody d'. clear y d. destruct x as [|z x].
  - change (zlen (@nil Z)) with 0 in H. replace i with 0 by lia. rewrite write_at_nil, Z.add_0_r, ztake_nil, zdrop_nil, app_nil_r. reflexivity.
  - set (x' := z :: x) in *. assert (X : x' <> []) by discriminate. clearbody x'. clear z x. pose proof (zlen_nonneg x') as X0.
    assert (N : ztake i x' ++ d' ++ zdrop (i + zlen d') x' <> []) by (intro E; apply app_eq_nil in E as [_ E]; apply app_eq_nil in E as [E _]; contradiction).
    assert (PI : 0 <= p + i) by lia. rewrite (write_at_pad c p _ P N), (write_at_pad _ (p + i) d' PI D), (write_at_pad c p x' P X).
    set (b := pad c p). assert (B : p <= zlen b) by (unfold b; rewrite zlen_pad; lia).
    assert (T : zlen (ztake p b) = p) by (rewrite zlen_ztake; lia). unfold pad at 1 2. rewrite zeros_nonpos by (rewrite !zlen_app, T; pose proof (zlen_nonneg (zdrop (p + zlen x') b)); lia).
    rewrite app_nil_r. rewrite !(zlen_app _ (d' ++ _)), (zlen_app d'), zlen_ztake, zlen_zdrop.
    rewrite (ztake_app_r (p + i)) by lia. rewrite T. replace (p + i - p) with i by lia. rewrite (ztake_app_l i) by lia.
    rewrite (zdrop_app_r (p + i + zlen d')) by lia. rewrite T. replace (p + i + zlen d' - p) with (i + zlen d') by lia.
    rewrite <- !app_assoc. do 3 f_equal.
    destruct (Z.le_gt_cases (i + zlen d') (zlen x')) as [L|L].
    + rewrite (zdrop_app_l (i + zlen d')) by lia. do 2 f_equal. lia.
    + rewrite (zdrop_app_r (i + zlen d')) by lia. rewrite (zdrop_all _ x') by lia. rewrite zdrop_zdrop by lia. cbn [app]. f_equal. lia.
Qed.
Lemma write_at_app c p a b : 0 <= p -> write_at (write_at c p a) (p + zlen a) b = write_at c p (a ++ b).
Proof.
  intros P. pose proof (zlen_nonneg a). pose proof (zlen_nonneg b). rewrite write_at_overlay by lia. rewrite ztake_all, zdrop_all by lia. rewrite app_nil_r. reflexivity.
Qed.
Lemma write_at_end c d : write_at c (zlen c) d = c ++ d.
Proof.
  destruct d as [|x d]; [rewrite app_nil_r; reflexivity|]. unfold write_at. rewrite ztake_all by lia. rewrite zdrop_all by (pose proof (zlen_nonneg (x :: d)); lia).
  rewrite zeros_nonpos by lia. rewrite app_nil_r. reflexivity.
Qed.
Lemma zlen_set_size c n : 0 <= n -> zlen (set_size c n) = n.
Proof. intros H. unfold set_size. rewrite zlen_app, zlen_ztake, zlen_zeros. pose proof (zlen_nonneg c). lia. Qed.
Lemma set_size_extend c s n : 0 <= s -> 0 < n -> zlen c <= s -> set_size c (s + n) = write_at c s (zeros n).
Proof.
  intros S1 N L. unfold set_size. rewrite ztake_all by lia. destruct (zeros n) as [|z l] eqn:E; [pose proof (zlen_zeros n) as Q; rewrite E in Q; change (zlen (@nil Z)) with 0 in Q; lia|].
  unfold write_at. rewrite <- E. rewrite zlen_zeros, ztake_all, zdrop_all by lia. rewrite app_nil_r, zeros_app by lia. do 2 f_equal. lia.
Qed.
Lemma set_size_cut_extend c s n : 0 <= s -> 0 < n -> s < zlen c <= s + n -> set_size (set_size c s) (s + n) = write_at c s (zeros n).
Proof.
  intros S1 N L. rewrite set_size_extend by (rewrite ?zlen_set_size by lia; lia). destruct (zeros n) as [|z l] eqn:E; [pose proof (zlen_zeros n) as Q; rewrite E in Q; change (zlen (@nil Z)) with 0 in Q; lia|].
  unfold write_at. rewrite <- E. rewrite zlen_zeros, zlen_set_size by lia. rewrite !zdrop_all by (rewrite ?zlen_set_size; lia). rewrite !app_nil_r.
  unfold set_size. rewrite !(zeros_nonpos (s - zlen c)) by lia. rewrite !zeros_nonpos by lia. rewrite app_nil_r, ztake_ztake. do 2 f_equal. lia.
Qed.
