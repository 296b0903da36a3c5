(** Proofs about splitPath (property C07). *)
From Verif Require Import Base GoStrings M_Tree S_Route S_Path P_TreeFind.

Lemma bv_slash : bv "/"%char = 47%N. Proof. reflexivity. Qed.

Ltac nb := unfold space1, space2, space3 in *;
  repeat (rewrite ?andb_true_iff, ?orb_true_iff, ?N.leb_le, ?N.eqb_eq in *).

(** lead bytes and continuation bytes *)
Lemma space1_lt a : space1 a = true -> (bv a < 128)%N.
Proof. nb. lia. Qed.
Lemma space2_lead a b : space2 a b = true -> (192 <= bv a)%N /\ (128 <= bv b < 192)%N.
Proof. nb. lia. Qed.
Lemma space3_lead a b c : space3 a b c = true ->
  (192 <= bv a)%N /\ (128 <= bv b < 192)%N /\ (128 <= bv c < 192)%N.
Proof. nb. lia. Qed.

Lemma not_space1 a : (128 <= bv a)%N -> space1 a = false.
Proof. intros H. destruct (space1 a) eqn:E; [|reflexivity]. apply space1_lt in E. lia. Qed.

(** ** left trimming *)
Lemma ltrim_rune r s : space_rune r -> ltrim_space (r ++ s) = ltrim_space s.
Proof.
  intros H. destruct H as [a H|a b H|a b c H]; simpl.
  - rewrite H. reflexivity.
  - rewrite not_space1 by (apply space2_lead in H; lia). rewrite H. reflexivity.
  - pose proof (space3_lead _ _ _ H) as L. rewrite not_space1 by lia.
    replace (space2 a b) with false; [rewrite H; reflexivity|].
    symmetry. destruct (space2 a b) eqn:E; [|reflexivity]. exfalso. nb. lia.
Qed.

Lemma ltrim_blank w s : blank w -> ltrim_space (w ++ s) = ltrim_space s.
Proof.
  induction 1 as [|r w Hr Hw IH]; [reflexivity|].
  rewrite <- app_assoc, ltrim_rune by exact Hr. exact IH.
Qed.

Lemma ltrim_stop s : ~ starts_blank s -> ltrim_space s = s.
Proof.
  intros H. destruct s as [|a [|b [|c s]]]; [reflexivity| | |]; simpl.
  - destruct (space1 a) eqn:E; [|reflexivity].
    exfalso. apply H. exists [a], []. split; [constructor; exact E|reflexivity].
  - destruct (space1 a) eqn:E.
    { exfalso. apply H. exists [a], [b]. split; [constructor; exact E|reflexivity]. }
    destruct (space2 a b) eqn:E2; [|reflexivity].
    exfalso. apply H. exists [a; b], []. split; [constructor; exact E2|reflexivity].
  - destruct (space1 a) eqn:E.
    { exfalso. apply H. exists [a], (b :: c :: s). split; [constructor; exact E|reflexivity]. }
    destruct (space2 a b) eqn:E2.
    { exfalso. apply H. exists [a; b], (c :: s). split; [constructor; exact E2|reflexivity]. }
    destruct (space3 a b c) eqn:E3; [|reflexivity].
    exfalso. apply H. exists [a; b; c], s. split; [constructor; exact E3|reflexivity].
Qed.

(** ** right trimming *)
Lemma ltrim_rev_rune r s : space_rune r -> ltrim_space_rev (rev r ++ s) = ltrim_space_rev s.
Proof.
  intros H. destruct H as [a H|a b H|a b c H]; simpl.
  - rewrite H. reflexivity.
  - rewrite not_space1 by (apply space2_lead in H; lia). rewrite H. reflexivity.
  - pose proof (space3_lead _ _ _ H) as L. rewrite not_space1 by lia.
    replace (space2 b c) with false; [rewrite H; reflexivity|].
    symmetry. destruct (space2 b c) eqn:E; [|reflexivity]. exfalso. nb. lia.
Qed.

Lemma rtrim_rune r s : space_rune r -> rtrim_space (s ++ r) = rtrim_space s.
Proof. intros H. unfold rtrim_space. rewrite rev_app_distr, ltrim_rev_rune by exact H. reflexivity. Qed.

Lemma rtrim_blank w : blank w -> forall s, rtrim_space (s ++ w) = rtrim_space s.
Proof.
  induction 1 as [|r w Hr Hw IH]; intros s; [rewrite app_nil_r; reflexivity|].
  rewrite app_assoc, IH. apply rtrim_rune. exact Hr.
Qed.

Lemma rtrim_stop s : ~ ends_blank s -> rtrim_space s = s.
Proof.
  intros H. unfold rtrim_space. rewrite <- (rev_involutive s) at 2. f_equal.
  assert (K : forall r t, space_rune r -> rev s = rev r ++ t -> False).
  { intros r t Hr E. apply H. exists (rev t), r. split; [exact Hr|].
    rewrite <- (rev_involutive s), E, rev_app_distr, rev_involutive. reflexivity. }
  clear H. revert K. generalize (rev s). intros q K.
  destruct q as [|a [|b [|c q]]]; [reflexivity| | |]; simpl.
  - destruct (space1 a) eqn:E; [|reflexivity].
    exfalso. exact (K [a] [] (SR1 _ E) eq_refl).
  - destruct (space1 a) eqn:E; [exfalso; exact (K [a] [b] (SR1 _ E) eq_refl)|].
    destruct (space2 b a) eqn:E2; [|reflexivity].
    exfalso; exact (K [b; a] [] (SR2 _ _ E2) eq_refl).
  - destruct (space1 a) eqn:E; [exfalso; exact (K [a] (b :: c :: q) (SR1 _ E) eq_refl)|].
    destruct (space2 b a) eqn:E2; [exfalso; exact (K [b; a] (c :: q) (SR2 _ _ E2) eq_refl)|].
    destruct (space3 c b a) eqn:E3; [|reflexivity].
    exfalso; exact (K [c; b; a] q (SR3 _ _ _ E3) eq_refl).
Qed.

Lemma slash_not_starts_blank s : ~ starts_blank ("/"%char :: s).
Proof.
  intros (r & t & Hr & E). destruct Hr as [a H|a b H|a b c H]; injection E as <- _.
  - discriminate.
  - apply space2_lead in H. rewrite bv_slash in H. lia.
  - apply space3_lead in H. rewrite bv_slash in H. lia.
Qed.

Lemma slash_not_ends_blank s : ~ ends_blank (s ++ ["/"%char]).
Proof.
  intros (t & r & Hr & E). destruct Hr as [a H|a b H|a b c H].
  - apply app_inj_tail in E as [_ <-]. discriminate.
  - change [a; b] with ([a] ++ [b]) in E. rewrite app_assoc in E.
    apply app_inj_tail in E as [_ <-]. apply space2_lead in H. rewrite bv_slash in H. lia.
  - change [a; b; c] with ([a; b] ++ [c]) in E. rewrite app_assoc in E.
    apply app_inj_tail in E as [_ <-]. apply space3_lead in H. rewrite bv_slash in H. lia.
Qed.

(** a string that may follow without completing a character *)
Definition fresh_start (t : bytes) : Prop :=
  match t with [] => True | c :: _ => (bv c < 128)%N \/ (192 <= bv c)%N end.

Lemma starts_blank_app s t : s <> [] -> fresh_start t -> starts_blank (s ++ t) -> starts_blank s.
Proof.
  intros Hne Hf (r & u & Hr & E).
  destruct s as [|x s]; [contradiction|]. simpl in E.
  destruct Hr as [a H|a b H|a b c H]; simpl in E.
  - injection E as -> _. exists [a], s. split; [constructor; exact H|reflexivity].
  - injection E as -> E. destruct s as [|y s].
    + simpl in E. subst t. simpl in Hf. apply space2_lead in H. lia.
    + injection E as -> _. exists [a; b], s. split; [constructor; exact H|reflexivity].
  - injection E as -> E. pose proof (space3_lead _ _ _ H) as L. destruct s as [|y s].
    + simpl in E. subst t. simpl in Hf. lia.
    + injection E as -> E. destruct s as [|z s].
      * simpl in E. subst t. simpl in Hf. lia.
      * injection E as -> _. exists [a; b; c], s. split; [constructor; exact H|reflexivity].
Qed.

Lemma blank_fresh w : blank w -> fresh_start w.
Proof.
  destruct 1 as [|r w Hr _]; [exact I|].
  destruct Hr as [a H|a b H|a b c H]; simpl.
  - left. apply space1_lt. exact H.
  - right. apply space2_lead in H. lia.
  - right. apply space3_lead in H. lia.
Qed.

Lemma ends_blank_app s t :
  t <> [] -> ends_blank (s ++ "/"%char :: t) -> ends_blank t.
Proof.
  intros Hne (u & r & Hr & E).
  assert (Hlen : length r <= 3 /\ Forall (fun c => c <> "/"%char) r).
  { destruct Hr as [a H|a b H|a b c H]; split; simpl; try lia; repeat constructor;
      intros ->.
    - discriminate.
    - apply space2_lead in H. rewrite bv_slash in H. lia.
    - apply space2_lead in H. rewrite bv_slash in H. lia.
    - apply space3_lead in H. rewrite bv_slash in H. lia.
    - apply space3_lead in H. rewrite bv_slash in H. lia.
    - apply space3_lead in H. rewrite bv_slash in H. lia. }
  destruct Hlen as [_ Hs].
  assert (exists v, t = v ++ r) as [v ->]; [|exists v, r; auto].
  clear Hr Hne. revert t E. induction r as [|c r IH] using rev_ind; intros t E.
  - exists t. rewrite app_nil_r. reflexivity.
  - apply Forall_app in Hs as [Hs1 Hs2]. inversion Hs2 as [|? ? Hc _]; subst.
    destruct t as [|d t _] using rev_ind.
    + rewrite app_assoc in E. apply app_inj_tail in E as [_ E]. congruence.
    + rewrite app_assoc in E.
      change (s ++ "/"%char :: t ++ [d]) with (s ++ ("/"%char :: t) ++ [d]) in E.
      rewrite app_assoc in E. apply app_inj_tail in E as [E ->].
      destruct (IH Hs1 t E) as [v ->]. exists v. rewrite app_assoc. reflexivity.
Qed.

(** ** trimming slashes *)
Lemma trim_left_slashes k s :
  match s with "/"%char :: _ => False | _ => True end ->
  trim_left "/"%char (slashes k ++ s) = s.
Proof.
  intros H. induction k as [|k IH]; [|exact IH].
  simpl. destruct s as [|c s]; [reflexivity|].
  unfold trim_left. cbn [drop_while]. destruct (Ascii.eqb_spec "/" c) as [<-|]; [contradiction|reflexivity].
Qed.

Lemma trim_left_slashes_only k : trim_left "/"%char (slashes k) = [].
Proof. induction k; [reflexivity|exact IHk]. Qed.

Lemma rev_slashes k : rev (slashes k) = slashes k.
Proof.
  induction k as [|k IH]; [reflexivity|]. unfold slashes in *. simpl. rewrite IH.
  clear. induction k; simpl; [reflexivity|]. f_equal. exact IHk.
Qed.

Lemma trim_right_slashes k s d :
  d <> "/"%char -> trim_right "/"%char (s ++ [d] ++ slashes k) = s ++ [d].
Proof.
  intros H. unfold trim_right. rewrite app_assoc, rev_app_distr, rev_slashes.
  rewrite rev_app_distr. simpl app. rewrite trim_left_slashes.
  - simpl. rewrite rev_involutive. reflexivity.
  - destruct d as [[] [] [] [] [] [] [] []]; try exact I; apply H; reflexivity.
Qed.

(** ** split and join *)
Lemma split_no_slash s : no_slash s -> split "/"%char s = [s].
Proof.
  induction s as [|c s IH]; intros H; [reflexivity|]. simpl.
  destruct (Ascii.eqb_spec c "/") as [->|Hc].
  - exfalso. apply H. left. reflexivity.
  - rewrite IH; [reflexivity|]. intros Hin. apply H. right. exact Hin.
Qed.

Lemma split_app s t : no_slash s ->
  split "/"%char (s ++ "/"%char :: t) = s :: split "/"%char t.
Proof.
  induction s as [|c s IH]; intros H; [reflexivity|]. simpl.
  destruct (Ascii.eqb_spec c "/") as [->|Hc].
  - exfalso. apply H. left. reflexivity.
  - rewrite IH; [reflexivity|]. intros Hin. apply H. right. exact Hin.
Qed.

Lemma split_join segs :
  segs <> [] -> Forall no_slash segs -> split "/"%char (join "/"%char segs) = segs.
Proof.
  induction segs as [|s segs IH]; [contradiction|]. intros _ H. inversion H; subst.
  destruct segs as [|s' segs].
  - simpl. apply split_no_slash. assumption.
  - change (join "/"%char (s :: s' :: segs)) with (s ++ "/"%char :: join "/"%char (s' :: segs)).
    rewrite split_app by assumption. f_equal. apply IH; [discriminate|assumption].
Qed.

Lemma split_no_slash_elem s : Forall no_slash (split "/"%char s).
Proof.
  induction s as [|c s IH]; simpl; [repeat constructor; intros []|].
  destruct (Ascii.eqb_spec c "/") as [->|Hc].
  - constructor; [intros []|exact IH].
  - destruct (split "/"%char s) as [|w ws]; inversion IH; subst.
    + repeat constructor. intros [E|[]]; congruence.
    + constructor; [|assumption]. intros [E|Hin]; [congruence|contradiction].
Qed.

Lemma segments_no_slash p : Forall no_slash (segments p).
Proof.
  unfold segments, split_path.
  destruct (beq _ (B"/") || is_empty _); [constructor|].
  destruct (split "/" _) as [|w ws] eqn:E; [constructor|].
  pose proof (split_no_slash_elem (trim_space ("/"%char :: trim "/" (trim_space p)))) as H.
  rewrite E in H. inversion H; subst. assumption.
Qed.

(** shape of a joined list of non-empty slash-free segments *)
Lemma join_first (s : bytes) (segs : list bytes) : exists t, join "/"%char (s :: segs) = s ++ t
  /\ (t = [] \/ exists u, t = "/"%char :: u).
Proof.
  destruct segs as [|s' segs].
  - exists []. simpl. rewrite app_nil_r. auto.
  - eexists. split; [reflexivity|]. right. eexists. reflexivity.
Qed.

Lemma join_last (segs : list bytes) (l : bytes) : exists t, join "/"%char (segs ++ [l]) = t ++ l
  /\ (t = [] \/ exists u, t = u ++ ["/"%char]).
Proof.
  induction segs as [|s segs IH].
  - exists []. simpl. auto.
  - destruct IH as (t & E & Ht). exists (s ++ "/"%char :: t).
    destruct segs as [|s' segs].
    + simpl in *. split; [|right; exists s].
      * rewrite <- app_assoc. simpl. rewrite <- E. reflexivity.
      * destruct Ht as [->|[u ->]]; [reflexivity|].
        exfalso. assert (length l = length ((u ++ ["/"%char]) ++ l)) as L by congruence.
        rewrite !app_length in L. simpl in L. lia.
    + change (join "/"%char ((s :: s' :: segs) ++ [l]))
        with (s ++ "/"%char :: join "/"%char ((s' :: segs) ++ [l])).
      rewrite E. split; [rewrite <- app_assoc; reflexivity|].
      right. destruct Ht as [->|[u ->]].
      * exists s. reflexivity.
      * exists (s ++ "/"%char :: u). rewrite <- app_assoc. reflexivity.
Qed.

Theorem split_path_normal (w1 : bytes) (k1 : nat) (segs : list bytes) (k2 : nat) (w2 : bytes) :
  segs <> [] -> Forall (fun s => s <> [] /\ no_slash s) segs ->
  blank w1 -> blank w2 ->
  (k1 <> 0 \/ ~ starts_blank (hd [] segs)) -> ~ ends_blank (last segs []) ->
  split_path (w1 ++ slashes k1 ++ join "/"%char segs ++ slashes k2 ++ w2)
  = B"/" :: segs.
Proof.
  intros Hne Hsegs Hw1 Hw2 Hst Hen.
  assert (exists s0 rest, segs = s0 :: rest) as (s0 & rest & Es)
    by (destruct segs as [|s0 rest]; [contradiction|exists s0, rest; reflexivity]).
  destruct (exists_last Hne) as (init & l & El).
  assert (Hl : l <> [] /\ no_slash l).
  { rewrite El in Hsegs. apply Forall_app in Hsegs as [_ H]. inversion H; subst; assumption. }
  assert (H0 : s0 <> [] /\ no_slash s0) by (rewrite Es in Hsegs; inversion Hsegs; assumption).
  assert (Hhd : hd [] segs = s0) by (rewrite Es; reflexivity).
  assert (Hla : last segs [] = l) by (rewrite El; apply last_last).
  rewrite Hhd in Hst. rewrite Hla in Hen.
  destruct (join_first s0 rest) as (t0 & J0 & Ht0). rewrite <- Es in J0.
  destruct (join_last init l) as (t1 & J1 & Ht1). rewrite <- El in J1.
  assert (HJne : join "/"%char segs <> []).
  { rewrite J0. destruct s0; [tauto|discriminate]. }
  (* end of the joined string is not blank *)
  assert (HJend : forall pre, (pre = [] \/ exists u, pre = u ++ ["/"%char]) ->
                    ~ ends_blank (pre ++ join "/"%char segs)).
  { intros pre Hpre He. rewrite J1, app_assoc in He.
    assert (exists v, (pre ++ t1 = [] \/ pre ++ t1 = v ++ ["/"%char])) as [v Hv].
    { destruct Ht1 as [->|[u ->]].
      - rewrite app_nil_r. destruct Hpre as [->|[u ->]]; [exists []; auto|exists u; auto].
      - exists (pre ++ u). right. rewrite app_assoc. reflexivity. }
    destruct Hv as [Hv|Hv]; rewrite Hv in He; [exact (Hen He)|].
    rewrite <- app_assoc in He. apply (ends_blank_app v l) in He; [exact (Hen He)|tauto]. }
  (* first TrimSpace *)
  assert (T1 : trim_space (w1 ++ slashes k1 ++ join "/"%char segs ++ slashes k2 ++ w2)
               = slashes k1 ++ join "/"%char segs ++ slashes k2).
  { unfold trim_space. rewrite ltrim_blank by exact Hw1.
    assert (NS : ~ starts_blank (slashes k1 ++ join "/"%char segs ++ slashes k2 ++ w2)).
    { destruct k1 as [|k1]; [|exact (slash_not_starts_blank _)].
      destruct Hst as [Hst|Hst]; [lia|]. intros Hb. apply Hst.
      simpl app in Hb. rewrite J0, <- app_assoc in Hb.
      apply starts_blank_app in Hb; [exact Hb|tauto|].
      destruct Ht0 as [->|[u ->]]; [|left; reflexivity].
      destruct k2 as [|k2]; [exact (blank_fresh _ Hw2)|left; reflexivity]. }
    rewrite ltrim_stop by exact NS.
    replace (slashes k1 ++ join "/"%char segs ++ slashes k2 ++ w2)
      with ((slashes k1 ++ join "/"%char segs ++ slashes k2) ++ w2)
      by (rewrite <- !app_assoc; reflexivity).
    rewrite rtrim_blank by exact Hw2. apply rtrim_stop.
    destruct k2 as [|k2].
    - unfold slashes at 2. simpl. rewrite app_nil_r. apply HJend.
      destruct k1 as [|k1]; [left; reflexivity|right]. exists (slashes k1).
      rewrite <- rev_slashes. simpl. rewrite rev_slashes. reflexivity.
    - replace (slashes (S k2)) with (slashes k2 ++ ["/"%char]).
      + rewrite !app_assoc. apply slash_not_ends_blank.
      + rewrite <- (rev_slashes (S k2)). simpl. rewrite rev_slashes. reflexivity. }
  (* Trim "/" *)
  assert (T2 : trim "/"%char (slashes k1 ++ join "/"%char segs ++ slashes k2)
               = join "/"%char segs).
  { unfold trim. rewrite trim_left_slashes.
    - destruct (exists_last (proj1 Hl)) as (l' & d & Ed).
      assert (d <> "/"%char) as Hd.
      { intros ->. destruct Hl as [_ Hl]. apply Hl. rewrite Ed. apply in_app_iff. right. left. reflexivity. }
      rewrite J1, Ed. rewrite <- !app_assoc. rewrite (app_assoc t1 l').
      rewrite trim_right_slashes by exact Hd. rewrite <- app_assoc. reflexivity.
    - rewrite J0. destruct s0 as [|c s0]; [tauto|]. simpl.
      destruct H0 as [_ H0].
      destruct c as [[] [] [] [] [] [] [] []]; try exact I; apply H0; left; reflexivity. }
  unfold split_path. rewrite T1, T2.
  assert (T3 : trim_space ("/"%char :: join "/"%char segs) = "/"%char :: join "/"%char segs).
  { unfold trim_space. rewrite ltrim_stop by apply slash_not_starts_blank.
    apply rtrim_stop. apply (HJend ["/"%char]). right. exists []. reflexivity. }
  rewrite T3.
  replace (beq ("/"%char :: join "/"%char segs) (B"/")) with false.
  2:{ symmetry. apply beq_neq. intros E. injection E as E. contradiction. }
  cbn [orb is_empty].
  change (split "/"%char ("/"%char :: join "/"%char segs))
    with ([] :: split "/"%char (join "/"%char segs)).
  rewrite split_join.
  - reflexivity.
  - exact Hne.
  - eapply Forall_impl; [|exact Hsegs]. simpl. tauto.
Qed.

Theorem split_path_root w1 k w2 :
  blank w1 -> blank w2 -> split_path (w1 ++ slashes k ++ w2) = [B"/"].
Proof.
  intros H1 H2. unfold split_path.
  assert (T : trim "/"%char (trim_space (w1 ++ slashes k ++ w2)) = []).
  { destruct k as [|k].
    - simpl app. replace (w1 ++ w2) with ((w1 ++ w2) ++ []) by apply app_nil_r.
      unfold trim_space.
      rewrite <- app_assoc, ltrim_blank, ltrim_blank by assumption. reflexivity.
    - unfold trim_space. rewrite ltrim_blank by assumption.
      rewrite ltrim_stop by apply slash_not_starts_blank.
      rewrite rtrim_blank by exact H2.
      rewrite rtrim_stop.
      + unfold trim. rewrite trim_left_slashes_only. reflexivity.
      + rewrite <- rev_slashes. simpl. apply slash_not_ends_blank. }
  rewrite T. reflexivity.
Qed.
