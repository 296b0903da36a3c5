(** Lemmas about paths. *)
From Verif Require Import Base GoStrings GoPath S_Static P_Range.

Definition ns (e : bytes) : Prop := ~ In "/"%char e.
Lemma split_ns s : Forall ns (split "/" s).
Proof.
  induction s as [|c s IH]; cbn [split]; [repeat constructor; intros []|].
  destruct (Ascii.eqb_spec c "/") as [->|N]; [constructor; [intros []|exact IH]|].
  destruct (split "/" s) as [|w ws]; [repeat constructor; intros [X|[]]; congruence|].
  inversion IH; subst. constructor; [|assumption]. intros [X|X]; [congruence|contradiction].
Qed.
Lemma split_nonempty s : split "/" s <> [].
Proof. destruct s as [|c s]; cbn [split]; [discriminate|]. destruct (Ascii.eqb c "/"); [discriminate|]. destruct (split "/" s); discriminate. Qed.
Lemma split_app_slash (a b : bytes) : split "/" (a ++ "/"%char :: b) = split "/" a ++ split "/" b.
Proof.
  induction a as [|c a IH]; cbn [app split]; [reflexivity|].
  destruct (Ascii.eqb c "/"); [rewrite IH; reflexivity|]. rewrite IH.
  pose proof (split_nonempty a). destruct (split "/" a) as [|w ws]; [congruence|]. reflexivity.
Qed.
Lemma split_join es : es <> [] -> Forall ns es -> split "/" (join "/" es) = es.
Proof.
  intros N H. induction H as [|e es He Hes IH]; [congruence|]. destruct es as [|f es].
  - cbn [join]. apply split_one. exact He.
  - change (join "/" (e :: f :: es)) with (e ++ "/"%char :: join "/" (f :: es)).
    rewrite split_app_slash, IH by discriminate. rewrite split_one by exact He. reflexivity.
Qed.
Lemma join_split s : join "/" (split "/" s) = s.
Proof.
  induction s as [|c s IH]; cbn [split]; [reflexivity|].
  pose proof (split_nonempty s). destruct (Ascii.eqb_spec c "/") as [->|N].
  - destruct (split "/" s) as [|w ws]; [congruence|]. change (join "/" ([] :: w :: ws)) with ("/"%char :: join "/" (w :: ws)).
    rewrite IH. reflexivity.
  - destruct (split "/" s) as [|w ws]; [congruence|]. rewrite <- IH. destruct ws; reflexivity.
Qed.
Lemma join_app es fs : es <> [] -> fs <> [] -> join "/" (es ++ fs) = join "/" es ++ "/"%char :: join "/" fs.
Proof.
  intros N M. induction es as [|e es IH]; [congruence|]. destruct es as [|e2 es].
  - cbn [app]. destruct fs; [congruence|]. reflexivity.
  - change (join "/" ((e :: e2 :: es) ++ fs)) with (e ++ "/"%char :: join "/" ((e2 :: es) ++ fs)).
    rewrite IH by discriminate. change (join "/" (e :: e2 :: es)) with (e ++ "/"%char :: join "/" (e2 :: es)).
    rewrite <- app_assoc. reflexivity.
Qed.
Lemma good_ns e : good e -> ns e.
Proof. intros (_ & _ & _ & H). exact H. Qed.
Lemma goods_ns es : Forall good es -> Forall ns es.
Proof. apply Forall_impl. exact good_ns. Qed.
Lemma good_step r acc e : good e -> clean_step r acc e = e :: acc.
Proof.
  intros (H1 & H2 & H3 & _). unfold clean_step, is_dot. rewrite (nonempty_is _ H1). cbn [orb].
  rewrite (proj2 (beq_neq e dot) H2), (proj2 (beq_neq e dotdot) H3). reflexivity.
Qed.
Lemma good_fold r es : Forall good es -> forall acc, fold_left (clean_step r) es acc = rev es ++ acc.
Proof.
  induction 1 as [|e es He _ IH]; intros acc; cbn [fold_left rev]; [reflexivity|].
  rewrite good_step by exact He. rewrite IH, <- app_assoc. reflexivity.
Qed.
Lemma clean_good r es : Forall good es -> clean_elems r es = es.
Proof. intros H. unfold clean_elems. rewrite good_fold by exact H. rewrite app_nil_r. apply rev_involutive. Qed.
Lemma clean_app r es fs : Forall good fs -> clean_elems r (es ++ fs) = clean_elems r es ++ fs.
Proof.
  intros H. unfold clean_elems. rewrite fold_left_app, good_fold by exact H. rewrite rev_app_distr, rev_involutive. reflexivity.
Qed.
Lemma clean_empty r es : clean_elems r (es ++ [[]]) = clean_elems r es.
Proof. unfold clean_elems. rewrite fold_left_app. reflexivity. Qed.
Lemma clean_cons_empty r es : clean_elems r ([] :: es) = clean_elems r es.
Proof. reflexivity. Qed.
Lemma step_good_root acc e : ns e -> Forall good acc -> Forall good (clean_step true acc e).
Proof.
  intros N H. unfold clean_step. destruct (is_dot e) eqn:D; [exact H|].
  apply orb_false_iff in D as [D1 D2]. apply is_empty_false in D1. apply beq_neq in D2.
  destruct (beq_spec e dotdot) as [->|D3].
  - destruct H as [|x acc Hx Ha]; [constructor|]. destruct Hx as (_ & _ & X & _).
    rewrite (proj2 (beq_neq x dotdot) X). exact Ha.
  - constructor; [|exact H]. repeat split; assumption.
Qed.
Lemma clean_root_good es : Forall ns es -> Forall good (clean_elems true es).
Proof.
  intros H. unfold clean_elems. apply Forall_rev.
  assert (G : forall acc, Forall good acc -> Forall good (fold_left (clean_step true) es acc)).
  { induction H as [|e es He _ IH]; intros acc Ha; cbn [fold_left]; [exact Ha|]. apply IH. apply step_good_root; assumption. }
  apply G. constructor.
Qed.
(** without ".." elements cleaning only drops empty and "." elements *)
Lemma clean_plain r es : ~ In dotdot es -> clean_elems r es = filter (fun e => negb (is_dot e)) es.
Proof.
  intros H. unfold clean_elems.
  assert (G : forall acc, fold_left (clean_step r) es acc = rev (filter (fun e => negb (is_dot e)) es) ++ acc).
  { induction es as [|e es IH]; intros acc; cbn [fold_left filter]; [reflexivity|].
    rewrite IH by (intros X; apply H; right; exact X). unfold clean_step.
    destruct (is_dot e) eqn:D; cbn [negb]; [reflexivity|].
    destruct (beq_spec e dotdot) as [->|D3]; [exfalso; apply H; left; reflexivity|].
    cbn [rev]. rewrite <- app_assoc. reflexivity. }
  rewrite G, app_nil_r. apply rev_involutive.
Qed.
Lemma filter_good es : Forall ns es -> ~ In dotdot es -> Forall good (filter (fun e => negb (is_dot e)) es).
Proof.
  intros H N. apply Forall_forall. intros e He. apply filter_In in He as [I D].
  apply negb_true_iff in D. apply orb_false_iff in D as [D1 D2]. apply is_empty_false in D1. apply beq_neq in D2.
  rewrite Forall_forall in H. repeat split; [exact D1|exact D2| |apply H; exact I]. intros ->. contradiction.
Qed.
Lemma split_rooted s : is_rooted s = true -> exists t, s = "/"%char :: t /\ split "/" s = [] :: split "/" t.
Proof.
  destruct s as [|c s]; cbn [is_rooted]; [discriminate|]. intros H. apply Ascii.eqb_eq in H. subst c.
  exists s. split; [reflexivity|]. cbn [split]. rewrite Ascii.eqb_refl. reflexivity.
Qed.
Lemma clean_rooted s : is_rooted s = true -> path_clean s = "/"%char :: join "/" (clean_elems true (split "/" s)) /\
  Forall good (clean_elems true (split "/" s)).
Proof.
  intros H. unfold path_clean. rewrite H. split; [reflexivity|]. apply clean_root_good, split_ns.
Qed.
Lemma join_nil es : Forall good es -> join "/" es = [] -> es = [].
Proof.
  intros H E. destruct H as [|e es (He & _) _]; [reflexivity|]. destruct es as [|f es].
  - cbn [join] in E. contradiction.
  - change (join "/" (e :: f :: es)) with (e ++ "/"%char :: join "/" (f :: es)) in E. destruct e; discriminate.
Qed.
Lemma join_not_rooted es : Forall good es -> es <> [] -> is_rooted (join "/" es) = false.
Proof.
  intros H N. destruct H as [|e es (He & _ & _ & Hs) _]; [congruence|]. destruct e as [|c e]; [congruence|].
  assert (X : Ascii.eqb c "/" = false) by (apply Ascii.eqb_neq; intros ->; apply Hs; left; reflexivity).
  destruct es; cbn [join app is_rooted]; exact X.
Qed.
Lemma clean_name es : Forall good es -> path_clean (name_of es) = name_of es.
Proof.
  intros H. destruct es as [|e es]; [reflexivity|]. cbn [name_of]. unfold path_clean.
  rewrite join_not_rooted by (try discriminate; exact H).
  rewrite split_join by (try discriminate; apply goods_ns; exact H). rewrite clean_good by exact H. reflexivity.
Qed.
Lemma clean_slash_name es : Forall good es -> path_clean ("/"%char :: join "/" es) = "/"%char :: join "/" es.
Proof.
  intros H. destruct (clean_rooted ("/"%char :: join "/" es) eq_refl) as [-> _].
  cbn [split]. rewrite Ascii.eqb_refl. rewrite clean_cons_empty. destruct es as [|e es]; [reflexivity|].
  rewrite split_join by (try discriminate; apply goods_ns; exact H). rewrite clean_good by exact H. reflexivity.
Qed.

(** ** Decoding *)
Lemma hex_iff c : hex_digit_byte c <-> hex_val c <> None.
Proof.
  assert (G : forallb (fun c => Bool.eqb (existsb (Ascii.eqb c) (B"0123456789abcdefABCDEF"))
                (match hex_val c with Some _ => true | None => false end)) (map ascii_of_nat (seq 0 256)) = true)
    by (vm_compute; reflexivity).
  rewrite forallb_forall in G.
  assert (I : In c (map ascii_of_nat (seq 0 256))).
  { rewrite <- (ascii_nat_embedding c). apply in_map. apply in_seq. pose proof (nat_ascii_bounded c). lia. }
  specialize (G c I). apply Bool.eqb_prop in G. unfold hex_digit_byte.
  assert (E : In c (B"0123456789abcdefABCDEF") <-> existsb (Ascii.eqb c) (B"0123456789abcdefABCDEF") = true).
  { rewrite existsb_exists. split; [intros H; exists c; split; [exact H|apply Ascii.eqb_refl]|].
    intros (x & Hx & E). apply Ascii.eqb_eq in E. subst x. exact Hx. }
  rewrite E, G. destruct (hex_val c); split; congruence.
Qed.
Lemma no_escape_tail a s : no_escape (a ++ s) -> no_escape s.
Proof. intros H x y z b E. apply (H (a ++ x) y z b). rewrite E, app_assoc. reflexivity. Qed.
Lemma decode_id s : no_escape s -> pct_decode s = s.
Proof.
  induction s as [|c s IH]; intros H; [reflexivity|].
  assert (IHs : pct_decode s = s) by (apply IH; exact (no_escape_tail [c] s H)).
  destruct s as [|x [|y s]]; [reflexivity|cbn [pct_decode] in *; f_equal; exact IHs|].
  cbn [pct_decode]. cbn [pct_decode] in IHs.
  destruct (Ascii.eqb_spec c "%") as [->|N].
  - destruct (hex_val x) as [vx|] eqn:Ex; [|f_equal; exact IHs].
    destruct (hex_val y) as [vy|] eqn:Ey; [|f_equal; exact IHs].
    exfalso. apply (H [] x y s eq_refl). split; apply hex_iff; congruence.
  - f_equal. exact IHs.
Qed.
Lemma slash_not_hex : ~ hex_digit_byte "/"%char.
Proof. intros H. apply hex_iff in H. apply H. reflexivity. Qed.
(** an escape does not cross a slash *)
Lemma app_split_at {A} (u v a : list A) x b : u ++ v = a ++ x :: b ->
  (exists b', u = a ++ x :: b' /\ b = b' ++ v) \/ (exists a', a = u ++ a' /\ v = a' ++ x :: b).
Proof.
  revert a; induction u as [|c u IH]; intros a E.
  - right. exists a. split; [reflexivity|exact E].
  - destruct a as [|d a]; cbn [app] in E.
    + injection E as <- E. left. exists u. split; [reflexivity|symmetry; exact E].
    + injection E as <- E. destruct (IH a E) as [(b' & -> & ->)|(a' & -> & ->)].
      * left. exists b'. split; reflexivity.
      * right. exists a'. split; reflexivity.
Qed.
Lemma no_escape_slash u v : no_escape u -> no_escape v -> no_escape (u ++ "/"%char :: v).
Proof.
  intros Hu Hv a x y b E [Hx Hy].
  assert (P : "%"%char <> "/"%char) by discriminate.
  destruct (app_split_at u ("/"%char :: v) a "%"%char (x :: y :: b) E) as [(b' & -> & Eb)|(a' & -> & Ev)].
  - destruct b' as [|x' [|y' b']]; cbn [app] in Eb.
    + injection Eb as -> _. exact (slash_not_hex Hx).
    + injection Eb as -> -> _. exact (slash_not_hex Hy).
    + injection Eb as -> -> ->. apply (Hu a x' y' b' eq_refl). split; assumption.
  - destruct a' as [|d a']; cbn [app] in Ev; [injection Ev as X _; congruence|].
    injection Ev as <- ->. apply (Hv a' x y b eq_refl). split; assumption.
Qed.
Lemma no_escape_nil : no_escape [].
Proof. intros a x y b E. destruct a; discriminate. Qed.
Lemma no_escape_join es : Forall no_escape es -> no_escape (join "/" es).
Proof.
  induction 1 as [|e es He Hes IH]; [exact no_escape_nil|]. destruct es as [|f es]; [exact He|].
  change (join "/" (e :: f :: es)) with (e ++ "/"%char :: join "/" (f :: es)). apply no_escape_slash; assumption.
Qed.
Lemma no_escape_app_inv u v : no_escape (u ++ v) -> no_escape u /\ no_escape v.
Proof.
  intros H. split; [|exact (no_escape_tail u v H)]. intros a x y b ->.
  apply (H a x y (b ++ v)). rewrite <- app_assoc. reflexivity.
Qed.
Lemma no_escape_split s : no_escape s -> Forall no_escape (split "/" s).
Proof.
  intros H. rewrite <- (join_split s) in H. revert H. generalize (split "/" s) as es.
  induction es as [|e es IH]; intros H; [constructor|]. destruct es as [|f es].
  - constructor; [exact H|constructor].
  - change (join "/" (e :: f :: es)) with (e ++ "/"%char :: join "/" (f :: es)) in H.
    apply no_escape_app_inv in H as [H1 H2]. constructor; [exact H1|]. apply IH.
    exact (no_escape_tail ["/"%char] _ H2).
Qed.

(** ** fasthttp paths *)
Lemma norm_good_step acc e : good e -> norm_step acc e = e :: acc.
Proof.
  intros (H1 & H2 & H3 & _). unfold norm_step, is_dot. rewrite (nonempty_is _ H1). cbn [orb].
  rewrite (proj2 (beq_neq e dot) H2), (proj2 (beq_neq e dotdot) H3). reflexivity.
Qed.
Lemma norm_good_fold es : Forall good es -> forall acc, fold_left norm_step es acc = rev es ++ acc.
Proof.
  induction 1 as [|e es He _ IH]; intros acc; cbn [fold_left rev]; [reflexivity|].
  rewrite norm_good_step by exact He. rewrite IH, <- app_assoc. reflexivity.
Qed.
Lemma norm_step_good acc e : ns e -> Forall good acc -> Forall good (norm_step acc e).
Proof.
  intros N H. unfold norm_step. destruct (is_dot e) eqn:D; [exact H|].
  apply orb_false_iff in D as [D1 D2]. apply is_empty_false in D1. apply beq_neq in D2.
  destruct (beq_spec e dotdot) as [->|D3].
  - destruct H; [constructor|assumption].
  - constructor; [|exact H]. repeat split; assumption.
Qed.
Lemma norm_fold_good es : Forall ns es -> forall acc, Forall good acc -> Forall good (fold_left norm_step es acc).
Proof. induction 1 as [|e es He _ IH]; intros acc Ha; cbn [fold_left]; [exact Ha|]. apply IH. apply norm_step_good; assumption. Qed.
(** the shape of a normalised path: proper elements, each followed by a slash, and a last
    element that is not ".." *)
Lemma normalize_shape src : exists es last, Forall good es /\ ns last /\ last <> dotdot /\
  normalize_path src = "/"%char :: with_slashes es ++ last.
Proof.
  unfold normalize_path. pose proof (split_ns (pct_decode (if is_rooted src then tl src else src))) as H.
  apply Forall_rev in H. destruct H as [|last inits Hl Hi].
  - exists [], []. repeat split; try constructor; [intros []|discriminate].
  - apply Forall_rev in Hi. pose proof (norm_fold_good _ Hi [] (Forall_nil _)) as G.
    destruct (beq_spec last dotdot) as [->|N].
    + exists (rev (tl (fold_left norm_step (rev inits) []))), []. split.
      * apply Forall_rev. destruct G; [constructor|assumption].
      * split; [intros []|]. split; [discriminate|]. rewrite app_nil_r. reflexivity.
    + exists (rev (fold_left norm_step (rev inits) [])), last. split; [apply Forall_rev; exact G|].
      split; [exact Hl|]. split; [exact N|reflexivity].
Qed.
Lemma with_slashes_join es last : with_slashes es ++ last = join "/" (es ++ [last]).
Proof.
  induction es as [|e es IH]; [reflexivity|]. change (with_slashes (e :: es)) with ((e ++ B"/") ++ with_slashes es).
  change ((e :: es) ++ [last]) with (e :: (es ++ [last])). rewrite <- app_assoc, IH, <- app_assoc.
  destruct (es ++ [last]) eqn:X; [destruct es; discriminate|]. reflexivity.
Qed.
Lemma normalize_fix es last : Forall good es -> ns last -> last <> dotdot ->
  no_escape ("/"%char :: with_slashes es ++ last) ->
  normalize_path ("/"%char :: with_slashes es ++ last) = "/"%char :: with_slashes es ++ last.
Proof.
  intros G N Nd Ne. unfold normalize_path. cbn [is_rooted tl]. rewrite Ascii.eqb_refl.
  rewrite decode_id by exact (no_escape_tail ["/"%char] _ Ne).
  rewrite with_slashes_join at 1. rewrite split_join.
  - rewrite rev_app_distr. cbn [rev app]. rewrite rev_involutive.
    rewrite norm_good_fold by exact G. rewrite app_nil_r, rev_involutive.
    rewrite (proj2 (beq_neq last dotdot) Nd). reflexivity.
  - destruct es; discriminate.
  - apply Forall_app. split; [apply goods_ns; exact G|constructor; [exact N|constructor]].
Qed.
Lemma normalize_name es : Forall good es -> Forall no_escape es ->
  normalize_path ("/"%char :: join "/" es) = "/"%char :: join "/" es /\
  normalize_path (join "/" es) = "/"%char :: join "/" es.
Proof.
  intros G Ne. assert (E : normalize_path ("/"%char :: join "/" es) = normalize_path (join "/" es)).
  { unfold normalize_path. cbn [is_rooted tl]. rewrite Ascii.eqb_refl. destruct es as [|e es]; [reflexivity|].
    rewrite join_not_rooted by (try discriminate; exact G). reflexivity. }
  rewrite <- E. enough (X : normalize_path ("/"%char :: join "/" es) = "/"%char :: join "/" es) by (split; exact X).
  clear E. destruct es as [|e es] using rev_ind; [reflexivity|]. clear IHes. apply Forall_app in G as [G1 G2]. inversion G2 as [|? ? (g1 & g2 & g3 & g4) _]; subst.
  rewrite <- with_slashes_join. apply normalize_fix; try assumption.
  rewrite with_slashes_join. apply (no_escape_slash [] _ no_escape_nil). apply no_escape_join. exact Ne.
Qed.
