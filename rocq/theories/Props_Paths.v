(** C07 for every path string. *)
From Verif Require Import Base GoStrings M_Tree S_Route S_Path S_Paths P_TreeFind P_Path.

Lemma trim_space_bare s t : bare s t -> trim_space s = t.
Proof.
  intros (w1 & w2 & H1 & H2 & -> & Hs & He). unfold trim_space. rewrite ltrim_blank by exact H1.
  destruct t as [|c t].
  - cbn [app]. rewrite <- (app_nil_r w2), ltrim_blank by exact H2. reflexivity.
  - rewrite ltrim_stop. 2:{ intros X. apply Hs. apply (starts_blank_app (c :: t) w2); [discriminate|apply blank_fresh; exact H2|exact X]. }
    rewrite rtrim_blank by exact H2. apply rtrim_stop. exact He.
Qed.
Lemma trim_unslashed s t : unslashed s t -> trim "/" s = t.
Proof.
  intros (j & k & -> & Hs & He). unfold trim.
  destruct t as [|c t].
  - cbn [app]. assert (E : slashes j ++ slashes k = slashes (j + k)) by (unfold slashes; rewrite repeat_app; reflexivity).
    rewrite E, trim_left_slashes_only. reflexivity.
  - rewrite trim_left_slashes.
    2:{ cbn [app]. destruct c as [[] [] [] [] [] [] [] []]; try exact I. apply Hs. exists t. reflexivity. }
    destruct (exists_last (l := c :: t)) as (t' & d & E); [discriminate|]. rewrite E, <- app_assoc.
    rewrite trim_right_slashes; [reflexivity|]. intros ->. apply He. exists t'. exact E.
Qed.
Lemma trim_unended s t : unended s t -> trim_space ("/"%char :: s) = "/"%char :: t.
Proof.
  intros (w & H & -> & He). unfold trim_space. rewrite ltrim_stop by apply slash_not_starts_blank.
  change ("/"%char :: t ++ w) with (("/"%char :: t) ++ w). rewrite rtrim_blank by exact H. apply rtrim_stop.
  destruct t as [|c t]; [exact (slash_not_ends_blank [])|]. intros X. apply He.
  apply (ends_blank_app [] (c :: t)); [discriminate|exact X].
Qed.

(** the segments a path is split into are the ones it consists of *)
Theorem C07_every_path : forall path ps, path_segments path ps -> split_path path = B"/" :: ps.
Proof.
  intros path ps (t & u & v & H1 & H2 & H3 & H4). unfold split_path.
  rewrite (trim_space_bare _ _ H1), (trim_unslashed _ _ H2), (trim_unended _ _ H3).
  destruct H4 as [[-> ->]|(Nv & Hp & Np & ->)]; [reflexivity|].
  replace (beq ("/"%char :: join "/" ps) (B"/")) with false.
  2:{ symmetry. apply beq_neq. intros E. injection E as E. contradiction. }
  cbn [orb is_empty]. change (split "/" ("/"%char :: join "/" ps)) with ([] :: split "/" (join "/" ps)).
  rewrite split_join by assumption. reflexivity.
Qed.

(** ** every path consists of segments *)
Lemma rune_dec s : starts_blank s \/ ~ starts_blank s.
Proof.
  destruct s as [|a s]; [right; intros (r & t & Hr & E); destruct Hr; discriminate|].
  destruct (space1 a) eqn:E1; [left; exists [a], s; split; [constructor; exact E1|reflexivity]|].
  destruct s as [|b s].
  { right. intros (r & t & Hr & E). destruct Hr as [x H|x y H|x y z H]; try discriminate. injection E as -> _. congruence. }
  destruct (space2 a b) eqn:E2; [left; exists [a; b], s; split; [constructor; exact E2|reflexivity]|].
  destruct s as [|c s].
  { right. intros (r & t & Hr & E). destruct Hr as [x H|x y H|x y z H]; try discriminate; injection E; intros; subst; congruence. }
  destruct (space3 a b c) eqn:E3; [left; exists [a; b; c], s; split; [constructor; exact E3|reflexivity]|].
  right. intros (r & t & Hr & E). destruct Hr as [x H|x y H|x y z H]; injection E; intros; subst; congruence.
Qed.
Lemma end_dec s : ends_blank s \/ ~ ends_blank s.
Proof.
  assert (K : forall a b c l, rev s = a :: b :: c :: l -> s = rev l ++ [c; b; a]).
  { intros a b c l E. rewrite <- (rev_involutive s), E. cbn [rev]. rewrite <- !app_assoc. reflexivity. }
  assert (K2 : forall a b l, rev s = a :: b :: l -> s = rev l ++ [b; a]).
  { intros a b l E. rewrite <- (rev_involutive s), E. cbn [rev]. rewrite <- !app_assoc. reflexivity. }
  assert (K1 : forall a l, rev s = a :: l -> s = rev l ++ [a]).
  { intros a l E. rewrite <- (rev_involutive s), E. reflexivity. }
  assert (R : forall t r, s = t ++ r -> rev s = rev r ++ rev t) by (intros t r ->; apply rev_app_distr).
  destruct (rev s) as [|a l] eqn:E.
  { right. intros (t & r & Hr & X). apply R in X. destruct Hr; discriminate. }
  destruct (space1 a) eqn:E1; [left; exists (rev l), [a]; split; [constructor; exact E1|apply K1; reflexivity]|].
  destruct l as [|b l].
  { right. intros (t & r & Hr & X). apply R in X. destruct Hr as [x H|x y H|x y z H]; try discriminate. injection X as -> _. congruence. }
  destruct (space2 b a) eqn:E2; [left; exists (rev l), [b; a]; split; [constructor; exact E2|apply K2; reflexivity]|].
  destruct l as [|c l].
  { right. intros (t & r & Hr & X). apply R in X. destruct Hr as [x H|x y H|x y z H]; try discriminate; injection X; intros; subst; congruence. }
  destruct (space3 c b a) eqn:E3; [left; exists (rev l), [c; b; a]; split; [constructor; exact E3|apply K; reflexivity]|].
  right. intros (t & r & Hr & X). apply R in X. destruct Hr as [x H|x y H|x y z H]; injection X; intros; subst; congruence.
Qed.
Lemma rune_nonempty r : space_rune r -> r <> [].
Proof. intros [] X; discriminate X. Qed.
Lemma blank_app w1 w2 : blank w1 -> blank w2 -> blank (w1 ++ w2).
Proof. intros H H2. induction H as [|r w Hr Hw IH]; [exact H2|]. rewrite <- app_assoc. constructor; assumption. Qed.
Lemma unended_exists s : exists t, unended s t.
Proof.
  remember (length s) as n eqn:En. revert s En. induction n as [n IH] using lt_wf_ind. intros s ->.
  destruct (end_dec s) as [(t & r & Hr & E)|N].
  - destruct (IH (length t)) with (s := t) as (v & w & Hw & Ew & Nv); [|reflexivity|].
    + rewrite E, app_length. pose proof (rune_nonempty r Hr). destruct r; [contradiction|cbn; lia].
    + exists v, (w ++ r). split; [apply blank_app; [exact Hw|]|].
      * rewrite <- (app_nil_r r). constructor; [exact Hr|constructor].
      * split; [rewrite E, Ew, <- app_assoc; reflexivity|exact Nv].
  - exists s, []. split; [constructor|]. rewrite app_nil_r. auto.
Qed.
Lemma front_exists s : exists w t, blank w /\ s = w ++ t /\ ~ starts_blank t.
Proof.
  remember (length s) as n eqn:En. revert s En. induction n as [n IH] using lt_wf_ind. intros s ->.
  destruct (rune_dec s) as [(r & t & Hr & E)|N].
  - destruct (IH (length t)) with (s := t) as (w & v & Hw & Ew & Nv); [|reflexivity|].
    + rewrite E, app_length. pose proof (rune_nonempty r Hr). destruct r; [contradiction|cbn; lia].
    + exists (r ++ w), v. split; [constructor; assumption|]. split; [rewrite E, Ew, app_assoc; reflexivity|exact Nv].
  - exists [], s. split; [constructor|]. auto.
Qed.
Lemma bare_exists s : exists t, bare s t.
Proof.
  destruct (front_exists s) as (w1 & u & H1 & E1 & N1). destruct (unended_exists u) as (t & w2 & H2 & E2 & N2).
  exists t, w1, w2. split; [exact H1|]. split; [exact H2|]. split; [congruence|]. split; [|exact N2].
  intros (r & x & Hr & X). apply N1. exists r, (x ++ w2). split; [exact Hr|]. rewrite E2, X, app_assoc. reflexivity.
Qed.
Lemma slashes_front s : exists j t, s = slashes j ++ t /\ ~ (exists u, t = "/"%char :: u).
Proof.
  induction s as [|c s (j & t & -> & N)]; [exists 0, []; split; [reflexivity|intros [u X]; discriminate X]|].
  destruct (ascii_dec c "/"%char) as [->|Nc]; [exists (S j), t; auto|].
  exists 0, (c :: slashes j ++ t). split; [reflexivity|]. intros [u X]. injection X as X _. contradiction.
Qed.
Lemma unslashed_exists s : exists t, unslashed s t.
Proof.
  destruct (slashes_front s) as (j & u & E & N). destruct (slashes_front (rev u)) as (k & v & Ev & Nv).
  assert (Eu : u = rev v ++ slashes k).
  { rewrite <- (rev_involutive u), Ev, rev_app_distr, rev_slashes. reflexivity. }
  exists (rev v), j, k. split; [rewrite E, Eu; reflexivity|]. split.
  - intros [x X]. apply N. exists (x ++ slashes k). rewrite Eu, X. reflexivity.
  - intros [x X]. apply Nv. exists (rev x). rewrite <- (rev_involutive v), X, rev_app_distr. reflexivity.
Qed.
Lemma join_split_slash s : join "/" (split "/" s) = s.
Proof.
  induction s as [|c s IH]; [reflexivity|]. cbn [split]. destruct (Ascii.eqb_spec c "/") as [->|N].
  - destruct (split "/" s) as [|x l] eqn:E; [destruct s as [|d s]; [discriminate|]; cbn [split] in E; destruct (Ascii.eqb d "/"); [discriminate|destruct (split "/" s); discriminate]|].
    rewrite <- IH. reflexivity.
  - destruct (split "/" s) as [|x l] eqn:E; [destruct s as [|d s]; [discriminate|]; cbn [split] in E; destruct (Ascii.eqb d "/"); [discriminate|destruct (split "/" s); discriminate]|].
    rewrite <- IH. destruct l; reflexivity.
Qed.
Theorem C07_every_path_has_segments : forall path, exists ps, path_segments path ps.
Proof.
  intros path. destruct (bare_exists path) as (t & Ht). destruct (unslashed_exists t) as (u & Hu). destruct (unended_exists u) as (v & Hv).
  destruct v as [|c v].
  - exists [], t, u, []. repeat split; try assumption. left. auto.
  - exists (split "/" (c :: v)), t, u, (c :: v). split; [exact Ht|]. split; [exact Hu|]. split; [exact Hv|]. right.
    split; [discriminate|]. split; [apply split_no_slash_elem|]. split; [|symmetry; apply join_split_slash].
    intros X. assert (Y := join_split_slash (c :: v)). rewrite X in Y. discriminate Y.
Qed.
(** so the segments that routing works with are exactly these *)
Theorem C07_segments_exactly : forall path ps, segments path = ps <-> path_segments path ps.
Proof.
  intros path ps. split.
  - intros <-. destruct (C07_every_path_has_segments path) as (qs & H). unfold segments. rewrite (C07_every_path path qs H). exact H.
  - intros H. unfold segments. rewrite (C07_every_path path ps H). reflexivity.
Qed.

Lemma no_blank_end c s : (33 <= bv c < 128)%N -> ~ ends_blank (s ++ [c]).
Proof.
  intros Hc (t & r & Hr & E). destruct Hr as [a H|a b H|a b d H].
  - apply app_inj_tail in E as [_ <-]. nb. lia.
  - change [a; b] with ([a] ++ [b]) in E. rewrite app_assoc in E. apply app_inj_tail in E as [_ <-]. apply space2_lead in H. lia.
  - change [a; b; d] with ([a; b] ++ [d]) in E. rewrite app_assoc in E. apply app_inj_tail in E as [_ <-]. apply space3_lead in H. lia.
Qed.
(** a path with an empty segment, a segment of blanks and a blank before the final slash *)
Example C07_odd_path : path_segments (B" /a// /b /") [B"a"; B""; B" "; B"b"] /\
  split_path (B" /a// /b /") = [B"/"; B"a"; B""; B" "; B"b"].
Proof.
  assert (H : path_segments (B" /a// /b /") [B"a"; B""; B" "; B"b"]); [|split; [exact H|apply C07_every_path; exact H]].
  assert (Sp : blank (B" ")) by (change (B" ") with (B" " ++ []); constructor; [constructor; reflexivity|constructor]).
  exists (B"/a// /b /"), (B"a// /b "), (B"a// /b"). split.
  { exists (B" "), []. split; [exact Sp|]. split; [constructor|]. split; [reflexivity|].
    split; [apply slash_not_starts_blank|]. exact (slash_not_ends_blank (B"/a// /b ")). }
  split. { exists 1, 1. split; [reflexivity|]. split; [intros [u X]; discriminate X|].
    intros [u X]. change (B"a// /b ") with (B"a// /b" ++ [" "%char]) in X. apply app_inj_tail in X as [_ X]. discriminate X. }
  split. { exists (B" "). split; [exact Sp|]. split; [reflexivity|]. apply (no_blank_end "b" (B"a// /")). split; [discriminate|reflexivity]. }
  right. split; [discriminate|]. split; [|split; [discriminate|reflexivity]].
  repeat constructor; unfold no_slash; cbn; intuition discriminate.
Qed.
Print Assumptions C07_every_path.
Print Assumptions C07_every_path_has_segments.
Print Assumptions C07_segments_exactly.

(** The white space of these statements is Unicode's. *)
Lemma bv_is a n : bv a = n -> a = ch n.
Proof. intros <-. symmetry. apply ascii_N_embedding. Qed.
Theorem C07_white_space : forall r, space_rune r <-> In r (map utf8 white_space_points).
Proof.
  intros r. split.
  - intros [a H|a b H|a b c H].
    + unfold space1 in H. assert (X : In (bv a) [9; 10; 11; 12; 13; 32]%N).
      { cbn [In]. apply orb_prop in H as [H|H]; [apply andb_prop in H as [H1 H2]; apply N.leb_le in H1, H2; lia|apply N.eqb_eq in H; lia]. }
      cbn [In] in X. repeat destruct X as [X|X]; try contradiction; symmetry in X; apply bv_is in X; subst a;
        apply in_map_iff; [exists 9%N|exists 10%N|exists 11%N|exists 12%N|exists 13%N|exists 32%N]; (split; [reflexivity|cbn [In white_space_points]; tauto]).
    + unfold space2 in H. apply andb_prop in H as [H1 H]. apply N.eqb_eq, bv_is in H1. subst a.
      apply orb_prop in H as [H|H]; apply N.eqb_eq, bv_is in H; subst b; apply in_map_iff;
        [exists 133%N|exists 160%N]; (split; [reflexivity|cbn [In white_space_points]; tauto]).
    + unfold space3 in H. repeat (apply orb_prop in H as [H|H]);
        apply andb_prop in H as [H1 H]; apply andb_prop in H1 as [H1 H2]; apply N.eqb_eq, bv_is in H1; apply N.eqb_eq, bv_is in H2; subst a b.
      * apply N.eqb_eq, bv_is in H. subst c. apply in_map_iff. exists 5760%N. split; [reflexivity|cbn [In white_space_points]; tauto].
      * assert (X : In (bv c) [128; 129; 130; 131; 132; 133; 134; 135; 136; 137; 138; 168; 169; 175]%N).
        { cbn [In]. repeat (apply orb_prop in H as [H|H]); try (apply N.eqb_eq in H; lia).
          apply andb_prop in H as [H1 H2]; apply N.leb_le in H1, H2. lia. }
        cbn [In] in X. repeat destruct X as [X|X]; try contradiction; symmetry in X; apply bv_is in X; subst c; apply in_map_iff;
        [exists 8192%N|exists 8193%N|exists 8194%N|exists 8195%N|exists 8196%N|exists 8197%N|exists 8198%N|exists 8199%N|exists 8200%N|exists 8201%N|exists 8202%N
        |exists 8232%N|exists 8233%N|exists 8239%N]; (split; [reflexivity|cbn [In white_space_points]; tauto]).
      * apply N.eqb_eq, bv_is in H. subst c. apply in_map_iff. exists 8287%N. split; [reflexivity|cbn [In white_space_points]; tauto].
      * apply N.eqb_eq, bv_is in H. subst c. apply in_map_iff. exists 12288%N. split; [reflexivity|cbn [In white_space_points]; tauto].
  - intros H. apply in_map_iff in H as (n & <- & H). cbn [In white_space_points] in H.
    repeat destruct H as [H|H]; try contradiction; subst n; first [apply SR1; reflexivity|apply SR2; reflexivity|apply SR3; reflexivity].
Qed.
Print Assumptions C07_white_space.
