(** C128-C130: which of several overlapping routes answers. *)
From Verif Require Import Base GoStrings M_Tree S_Path P_Path S_Route P_TreeSpec Props_Tree S_Choice P_Choice.
From Verif Require P_GoPath.

Lemma ltrim_rev_clean : forall n s, length s <= n -> forall r t, space_rune r -> ltrim_space_rev s = rev r ++ t -> False.
Proof.
  induction n as [|n IH]; intros s L r t Hr E.
  - destruct s; [|cbn in L; lia]. cbn in E. destruct Hr; discriminate.
  - destruct s as [|c1 s]; [cbn in E; destruct Hr; discriminate|]. cbn [ltrim_space_rev] in E. destruct (space1 c1) eqn:E1; [apply (IH s ltac:(cbn in L; lia) r t Hr E)|].
    destruct s as [|c2 s].
    { destruct Hr as [a H|a b H|a b c H]; cbn in E; inversion E; subst; congruence. }
    destruct (space2 c2 c1) eqn:E2; [apply (IH s ltac:(cbn in L; lia) r t Hr E)|].
    destruct s as [|c3 s].
    { destruct Hr as [a H|a b H|a b c H]; cbn in E; inversion E; subst; congruence. }
    destruct (space3 c3 c2 c1) eqn:E3; [apply (IH s ltac:(cbn in L; lia) r t Hr E)|].
    destruct Hr as [a H|a b H|a b c H]; cbn in E; inversion E; subst; congruence.
Qed.
Lemma rtrim_clean s : ~ ends_blank (rtrim_space s).
Proof.
  intros (t & r & Hr & E). unfold rtrim_space in E. apply (ltrim_rev_clean (length (rev s)) (rev s) (le_n _) r (rev t) Hr).
  rewrite <- rev_app_distr, <- E, rev_involutive. reflexivity.
Qed.
Lemma last_seg_clean route : segments route <> [] -> ~ ends_blank (last (segments route) []).
Proof.
  unfold segments, split_path. set (p := trim_space _). destruct (beq p (B"/") || is_empty p); [intros H; exfalso; apply H; reflexivity|].
  destruct (split "/"%char p) as [|x0 segs] eqn:E; [intros H; exfalso; apply H; reflexivity|]. cbn [tl]. intros Ne Eb.
  destruct (exists_last Ne) as (l1 & l & El). rewrite El, last_last in Eb. destruct (join_last (x0 :: l1) l) as (t & Ej & _).
  assert (Ep : p = t ++ l) by (rewrite <- Ej, <- (P_GoPath.join_split p), E, El; reflexivity).
  apply (rtrim_clean (ltrim_space ("/"%char :: trim "/"%char (trim_space route)))). fold (trim_space ("/"%char :: trim "/"%char (trim_space route))). fold p.
  destruct Eb as (u & r & Hr & ->). exists (t ++ u), r. split; [exact Hr|]. rewrite Ep, app_assoc. reflexivity.
Qed.

Lemma as_clean n : forall s, (forall c, In c s -> c = "a"%char) -> s = repeat "a"%char (S n) -> no_slash s /\ ~ starts_blank s /\ ~ ends_blank s.
Proof.
  intros s Ia _.
  assert (Nb : forall r, space_rune r -> (forall c, In c r -> c = "a"%char) -> False).
  { intros r Hr Hc. destruct Hr as [a Hs|a b Hs|a b c Hs]; rewrite ?(Hc a) in Hs by (cbn; auto); rewrite ?(Hc b) in Hs by (cbn; auto);
      rewrite ?(Hc c) in Hs by (cbn; auto); discriminate. }
  split; [|split].
  - intros X. apply Ia in X. discriminate.
  - intros (r & t & Hr & E). apply (Nb r Hr). intros c Hc. apply Ia. rewrite E. apply in_or_app. auto.
  - intros (t & r & Hr & E). apply (Nb r Hr). intros c Hc. apply Ia. rewrite E. apply in_or_app. auto.
Qed.
Definition seg_size (g : seg) : nat := match g with Lit a => length a | Par _ => 0 end.
Lemma fresh_seg (pats : list (list seg)) : exists z, (forall P a, In P pats -> In (Lit a) P -> a <> z) /\ z <> [] /\ no_slash z /\ ~ ends_blank z.
Proof.
  set (k := list_sum (map seg_size (concat pats))). exists (repeat "a"%char (S k)).
  destruct (as_clean k (repeat "a"%char (S k)) (fun c H => repeat_spec _ _ _ H) eq_refl) as (Hn & _ & He).
  split; [|split; [discriminate|split; [exact Hn|exact He]]].
  intros P a HP Ha E. assert (L : length a <= k).
  { subst k. clear E Hn He. assert (H : In (Lit a) (concat pats)) by (apply in_concat; eauto). induction (concat pats) as [|g l IH]; [destruct H|].
    change (list_sum (map seg_size (g :: l))) with (seg_size g + list_sum (map seg_size l)). destruct H as [->|H]; [cbn [seg_size]; lia|]. specialize (IH H). lia. }
  rewrite E, repeat_length in L. lia.
Qed.
(** Every well-formed route fits some request path whose parameters all take the value [z]. *)
Lemma sample_path z route : wf_routeb route = true -> z <> [] -> no_slash z -> ~ ends_blank z ->
  exists path : bytes, segments path = sample z (pattern_of route).
Proof.
  intros W Z1 Z2 Z3. unfold pattern_of. destruct (segments route) as [|s0 segs0] eqn:E.
  { exists (B"/"). reflexivity. }
  set (segs := sample z (map seg_of (s0 :: segs0))). exists (slashes 1 ++ join "/"%char segs). unfold segments.
  assert (Ne : segs <> []) by discriminate.
  assert (X : split_path ([] ++ slashes 1 ++ join "/"%char segs ++ slashes 0 ++ []) = B"/" :: segs).
  { apply split_path_normal; [exact Ne| |apply BlankNil|apply BlankNil|left; discriminate|].
    - subst segs. unfold sample. rewrite map_map. apply Forall_map, Forall_forall. intros x Hx. unfold wf_routeb in W. rewrite forallb_forall in W.
      rewrite <- E in Hx. specialize (W x Hx). pose proof (proj1 (Forall_forall _ _) (segments_no_slash route) x Hx) as Ns. unfold wf_segb in W.
      destruct (seg_of x) as [a|n] eqn:Es; [|split; assumption]. assert (a = x).
      { unfold seg_of in Es. destruct x as [|c x]; [congruence|]. revert Es. repeat match goal with |- context [match ?c with _ => _ end] => destruct c end; congruence. }
      subst a. split; [|exact Ns]. destruct x; [discriminate W|discriminate].
    - subst segs. assert (L : ~ ends_blank (last (segments route) [])) by (apply last_seg_clean; rewrite E; discriminate). rewrite E in L.
      destruct (exists_last (l := s0 :: segs0) ltac:(discriminate)) as (l1 & l & El). rewrite El in L |- *. rewrite last_last in L.
      unfold sample. rewrite !map_app. cbn [map]. rewrite last_last. destruct (seg_of l) as [a|n] eqn:Es; [|exact Z3].
      assert (a = l); [|subst; exact L].
      unfold seg_of in Es. destruct l as [|c x]; [congruence|]. revert Es. repeat match goal with |- context [match ?c with _ => _ end] => destruct c end; congruence. }
  cbn [app slashes] in X. rewrite !app_nil_r in X. cbn [app slashes]. rewrite X. reflexivity.
Qed.

(** ** C128: which of several overlapping routes answers, exactly *)
Theorem C128_who_answers : forall (HS : Type) (regs : list (reg HS)) (m path : bytes) (old : args),
  forallb (fun r => wf_routeb (r_route r)) regs = true ->
  forall s a, tree_find (routed regs) m path old = (TFound s, a) <->
    exists i r, nth_error regs i = Some r /\ r_set r = s /\ a = bindings (pattern_of (r_route r)) (segments path) /\ answers regs m (segments path) i.
Proof. intros HS regs m path old W s a. rewrite C05_reference_semantics by exact W. apply ref_choice. Qed.
Theorem C128_at_most_one : forall (HS : Type) (regs : list (reg HS)) m path i j, answers regs m path i -> answers regs m path j -> i = j.
Proof.
  intros HS regs m path i j (r & Hi & Ci & Fi & (Ri & Gi) & Li) (r' & Hj & Cj & Fj & (Rj & Gj) & Lj).
  pose proof (Forall2_length _ _ _ Fi) as Ni. pose proof (Forall2_length _ _ _ Fj) as Nj.
  assert (T : together (pattern_at regs) (length path) i j).
  { destruct (Gi j Rj) as [T|T]; [exact T|]. destruct (Gj i Ri) as [T'|T']; [apply together_sym; exact T'|].
    exfalso. apply (before_asym (pattern_at regs) (pattern_at_fn regs) i j T T'). }
  pose proof (Li j r' Hj T Nj Cj). pose proof (Lj i r Hi (together_sym _ _ _ _ T) Ni Ci). lia.
Qed.
Theorem C128_not_found : forall (HS : Type) (regs : list (reg HS)) (m path : bytes) (old : args),
  forallb (fun r => wf_routeb (r_route r)) regs = true ->
  (tree_find (routed regs) m path old = (TNotFound, []) <-> forall i, ~ answers regs m (segments path) i).
Proof.
  intros HS regs m path old W. split.
  - intros E i An. destruct An as (r & Hi & An). assert (X : tree_find (routed regs) m path old = (TFound (r_set r), bindings (pattern_of (r_route r)) (segments path))).
    { apply (C128_who_answers HS regs m path old W). exists i, r. repeat (split; [auto|]). exists r. auto. }
    congruence.
  - intros N. rewrite C05_reference_semantics by exact W. destruct (ref_find (map entry_of regs) m (segments path)) as [t a] eqn:E.
    assert (T : t = TNotFound /\ a = [] \/ exists s, t = TFound s).
    { unfold ref_find in E. destruct (endpoints (segments path) (map entry_of regs) []) as [|(hs & b) l]; [inversion E; auto|].
      destruct (answer m hs); inversion E; eauto. }
    destruct T as [[-> ->]|(s & ->)]; [reflexivity|]. apply ref_choice in E. destruct E as (i & r & _ & _ & _ & An). exfalso. exact (N i An).
Qed.

(** ** C129: what one more registration changes, exactly *)
Theorem C129_taking_over : forall (HS : Type) (regs : list (reg HS)) (r : reg HS) (m path : bytes) (old old' : args) s a i r0,
  forallb (fun r => wf_routeb (r_route r)) (regs ++ [r]) = true ->
  tree_find (routed regs) m path old = (TFound s, a) ->
  nth_error regs i = Some r0 -> answers regs m (segments path) i ->
  (r_set r0 = s /\ a = bindings (pattern_of (r_route r0)) (segments path)) /\
  (answers (regs ++ [r]) m (segments path) i <-> ~ takes_over regs r m (segments path) i) /\
  (~ takes_over regs r m (segments path) i -> tree_find (routed (regs ++ [r])) m path old' = (TFound s, a)).
Proof.
  intros HS regs r m path old old' s a i r0 W E Hi An. assert (W' : forallb (fun r => wf_routeb (r_route r)) regs = true) by (rewrite forallb_app in W; apply andb_prop in W; apply W).
  assert (X : r_set r0 = s /\ a = bindings (pattern_of (r_route r0)) (segments path)).
  { apply (C128_who_answers HS regs m path old W') in E. destruct E as (j & r1 & Hj & Es & Ea & Aj). pose proof (C128_at_most_one HS regs m _ i j An Aj). subst j.
    rewrite Hi in Hj. inversion Hj; subst. auto. }
  split; [exact X|]. pose proof (answers_app regs r m (segments path) i An) as Y. split; [exact Y|].
  intros N. apply (C128_who_answers HS (regs ++ [r]) m path old' W). exists i, r0. split; [rewrite nth_error_app1; [exact Hi|apply nth_error_Some; congruence]|].
  destruct X as [X1 X2]. split; [exact X1|]. split; [exact X2|]. apply Y. exact N.
Qed.
(** and then the newcomer answers, or nobody does. *)
Theorem C129_taken_over : forall (HS : Type) (regs : list (reg HS)) (r : reg HS) (m path : bytes) (old : args) i,
  forallb (fun r => wf_routeb (r_route r)) (regs ++ [r]) = true ->
  answers regs m (segments path) i -> takes_over regs r m (segments path) i ->
  (fits (pattern_of (r_route r)) (segments path) /\ covers (r_method r) m = true ->
     tree_find (routed (regs ++ [r])) m path old = (TFound (r_set r), bindings (pattern_of (r_route r)) (segments path))) /\
  (~ (fits (pattern_of (r_route r)) (segments path) /\ covers (r_method r) m = true) -> tree_find (routed (regs ++ [r])) m path old = (TNotFound, [])).
Proof.
  intros HS regs r m path old i W An To. split.
  - intros F. apply (C128_who_answers HS _ m path old W). exists (length regs), r. split; [rewrite nth_error_app2, Nat.sub_diag by lia; reflexivity|].
    split; [reflexivity|]. split; [reflexivity|]. apply (taken_answers regs r m _ i _ An To). auto.
  - intros N. apply (C128_not_found HS _ m path old W). intros j Aj. apply N. apply (taken_answers regs r m _ i j An To) in Aj. apply Aj.
Qed.
(** A request nobody answered is answered by the newcomer or still by nobody. *)
Theorem C129_still_nobody : forall (HS : Type) (regs : list (reg HS)) (r : reg HS) (m path : bytes) (old old' : args) s a,
  forallb (fun r => wf_routeb (r_route r)) (regs ++ [r]) = true ->
  tree_find (routed regs) m path old = (TNotFound, []) ->
  tree_find (routed (regs ++ [r])) m path old' = (TFound s, a) ->
  s = r_set r /\ a = bindings (pattern_of (r_route r)) (segments path) /\ answers (regs ++ [r]) m (segments path) (length regs).
Proof.
  intros HS regs r m path old old' s a W E E'. assert (W' : forallb (fun r => wf_routeb (r_route r)) regs = true) by (rewrite forallb_app in W; apply andb_prop in W; apply W).
  apply (C128_who_answers HS _ m path old' W) in E'. destruct E' as (i & r0 & Hi & Es & Ea & An). destruct (Nat.lt_ge_cases i (length regs)) as [L|L].
  - exfalso. apply (proj1 (C128_not_found HS regs m path old W') E i). apply (answers_drop regs r); assumption.
  - assert (Li : i < length (regs ++ [r])) by (apply nth_error_Some; congruence). rewrite app_length in Li. cbn in Li. assert (i = length regs) by lia. subst i.
    rewrite nth_error_app2, Nat.sub_diag in Hi by lia. cbn in Hi. inversion Hi; subst. auto.
Qed.

(** ** C130: which registrations can ever answer *)
Theorem C130_who_can_answer : forall (HS : Type) (regs : list (reg HS)) (i : nat) (r : reg HS) (m : bytes),
  forallb (fun r => wf_routeb (r_route r)) regs = true -> nth_error regs i = Some r -> covers (r_method r) m = true ->
  let P := pattern_of (r_route r) in
  ((exists path : bytes, answers regs m (segments path) i) <->
   (forall j r', nth_error regs j = Some r' -> as_general (pattern_of (r_route r')) P ->
      together (pattern_at regs) (length P) i j \/ before (pattern_at regs) i j) /\
   (forall j r', nth_error regs j = Some r' -> together (pattern_at regs) (length P) i j -> length (pattern_of (r_route r')) = length P ->
      covers (r_method r') m = true -> j <= i)).
Proof.
  intros HS regs i r m W Hi Cm P. split.
  - intros (path & r1 & Hi' & _ & F & (_ & G) & L). rewrite Hi in Hi'. inversion Hi'; subst r1. fold P in F. pose proof (Forall2_length _ _ _ F) as N. rewrite <- N in G, L. split; [|exact L].
    intros j r' Hj (P1 & Q & E & H). apply G. exists (pattern_of (r_route r')). split; [exists r'; auto|]. exists P1, Q. split; [exact E|]. apply (general_fits P1 P); assumption.
  - intros (G & L). destruct (fresh_seg (map (fun r => pattern_of (r_route r)) regs)) as (z & Z & Z1 & Z2 & Z3).
    assert (Wr : wf_routeb (r_route r) = true) by (rewrite forallb_forall in W; apply (W r), (nth_error_In regs i), Hi).
    destruct (sample_path z (r_route r) Wr Z1 Z2 Z3) as (path & Ep). exists path. rewrite Ep. fold P. pose proof (sample_fits z P) as F.
    pose proof (Forall2_length _ _ _ F) as N. exists r. split; [exact Hi|]. split; [exact Cm|]. split; [exact F|]. rewrite <- N. split; [|exact L].
    unfold goes_first. split.
    + exists P. split; [exists r; auto|]. exists P, []. rewrite app_nil_r. auto.
    + intros j (P' & (r' & Hj & ->) & P1 & Q & E & F1). rewrite <- N. apply (G j r' Hj). exists P1, Q. split; [exact E|]. apply (sample_general z P P1); [|exact F1].
      intros a Ha. apply (Z (pattern_of (r_route r'))).
      * apply (in_map (fun r => pattern_of (r_route r))), (nth_error_In regs j), Hj.
      * rewrite E. apply in_or_app. auto.
Qed.
(** The same in terms of requests: when no other registration carries the same handler set. *)
Theorem C130_who_is_ever_served : forall (HS : Type) (regs : list (reg HS)) (i : nat) (r : reg HS) (m : bytes),
  forallb (fun r => wf_routeb (r_route r)) regs = true -> nth_error regs i = Some r -> covers (r_method r) m = true ->
  (forall j r', nth_error regs j = Some r' -> r_set r' = r_set r -> j = i) ->
  let P := pattern_of (r_route r) in
  ((exists path a, tree_find (routed regs) m path [] = (TFound (r_set r), a)) <->
   (forall j r', nth_error regs j = Some r' -> as_general (pattern_of (r_route r')) P ->
      together (pattern_at regs) (length P) i j \/ before (pattern_at regs) i j) /\
   (forall j r', nth_error regs j = Some r' -> together (pattern_at regs) (length P) i j -> length (pattern_of (r_route r')) = length P ->
      covers (r_method r') m = true -> j <= i)).
Proof.
  intros HS regs i r m W Hi Cm U P. unfold P. rewrite <- (C130_who_can_answer HS regs i r m W Hi Cm). split.
  - intros (path & a & E). exists path. apply (C128_who_answers HS regs m path [] W) in E. destruct E as (j & r' & Hj & Es & _ & An). pose proof (U j r' Hj Es). subst j. exact An.
  - intros (path & An). exists path, (bindings (pattern_of (r_route r)) (segments path)). apply (C128_who_answers HS regs m path [] W). exists i, r. auto.
Qed.
Print Assumptions C128_who_answers.
Print Assumptions C128_at_most_one.
Print Assumptions C128_not_found.
Print Assumptions C129_taking_over.
Print Assumptions C129_taken_over.
Print Assumptions C129_still_nobody.
Print Assumptions C130_who_can_answer.
Print Assumptions C130_who_is_ever_served.

(** ** Concrete cases *)
(** The literal opens the first branch, so it answers even though the parametric route was registered between. *)
Definition ex_first := mk [G@"/a/x"#1; G@"/:u/:v"#2; G@"/a/:id"#3].
Example C128_instance : tree_find (routed ex_first) G (B"/a/b") [] = (TFound 3, [(B"id", B"b")]) /\ tree_find (routed ex_first) G (B"/c/b") [] = (TFound 2, [(B"u", B"c"); (B"v", B"b")]).
Proof. split; reflexivity. Qed.
Example C128_instance_answers : answers ex_first G (segments (B"/a/b")) 2.
Proof.
  destruct (proj1 (C128_who_answers nat ex_first G (B"/a/b") [] eq_refl 3 [(B"id", B"b")]) eq_refl) as (i & r & Hi & E & _ & An).
  destruct i as [|[|[|i]]]; try exact An; exfalso; cbn in Hi; try (destruct i; discriminate Hi); injection Hi as Hi; rewrite <- Hi in E; discriminate E.
Qed.
(** A later literal route takes over a request a parametric route answered, and then nobody answers it. *)
Definition ex_early := mk [G@"/a/x"#1; G@"/:u/:v"#2].
Definition ex_late := Reg G (B"/a/b/c") 3.
Example C129_instance_before : tree_find (routed ex_early) G (B"/a/b") [] = (TFound 2, [(B"u", B"a"); (B"v", B"b")]) /\
  tree_find (routed (ex_early ++ [ex_late])) G (B"/a/b") [] = (TNotFound, []).
Proof. split; reflexivity. Qed.
Example C129_instance_takes_over : answers ex_early G (segments (B"/a/b")) 1 /\ takes_over ex_early ex_late G (segments (B"/a/b")) 1.
Proof.
  assert (An : answers ex_early G (segments (B"/a/b")) 1).
  { destruct (proj1 (C128_who_answers nat ex_early G (B"/a/b") [] eq_refl 2 [(B"u", B"a"); (B"v", B"b")]) eq_refl) as (i & r & Hi & E & _ & An).
    destruct i as [|[|i]]; try exact An; exfalso; cbn in Hi; try (destruct i; discriminate Hi); injection Hi as Hi; rewrite <- Hi in E; discriminate E. }
  split; [exact An|]. split; [exists (map Lit [B"a"; B"b"]), [Lit (B"c")]; split; [reflexivity|]; repeat constructor|]. right.
  assert (P0 : pattern_at (ex_early ++ [ex_late]) 0 (map Lit [B"a"; B"x"])) by (eexists; split; reflexivity).
  assert (P1 : pattern_at (ex_early ++ [ex_late]) 1 [Par (B"u"); Par (B"v")]) by (eexists; split; reflexivity).
  assert (P2 : pattern_at (ex_early ++ [ex_late]) 2 (map Lit [B"a"; B"b"; B"c"])) by (eexists; split; reflexivity).
  split.
  - intros [Z|(p & X & Y & L & _ & H)]; [discriminate|]. pose proof (pattern_at_fn _ _ _ _ P1 H) as E. destruct p; [discriminate L|discriminate E].
  - exists 0, 0, 1. split; [right; exists [], (map Lit [B"a"; B"b"; B"c"]), [Par (B"u"); Par (B"v")]; auto|].
    split; [split; [right; exists [B"a"], (map Lit [B"x"]), (map Lit [B"b"; B"c"]); auto|lia]|]. split; [|lia]. split; [left; reflexivity|].
    intros u [->|(p & X & Y & L & _ & H)]; [lia|]. pose proof (pattern_at_fn _ _ _ _ P1 H) as E. destruct p; [discriminate L|discriminate E].
Qed.
(** A parametric route registered after an equally general one is never served. *)
Definition ex_dead := mk [G@"/:u/:v"#1; G@"/:a/b"#2; G@"/c/b"#3].
Example C130_dead : forall path a, tree_find (routed ex_dead) G path [] <> (TFound 2, a).
Proof.
  intros path a E. destruct (proj1 (C130_who_is_ever_served nat ex_dead 1 (Reg G (B"/:a/b") 2) G eq_refl eq_refl eq_refl ltac:(intros [|[|[|[|j]]]] r' H X; cbn in H; inversion H; subst; (reflexivity || discriminate X))) (ex_intro _ path (ex_intro _ a E))) as (H & _).
  assert (P0 : pattern_at ex_dead 0 [Par (B"u"); Par (B"v")]) by (eexists; split; reflexivity).
  destruct (H 0 _ eq_refl) as [T|T].
  - exists [Par (B"u"); Par (B"v")], []. split; [reflexivity|]. repeat constructor.
  - destruct T as [Z|(p & X & Y & L & _ & T)]; [discriminate|]. pose proof (pattern_at_fn _ _ _ _ P0 T) as Z. destruct p; [discriminate L|discriminate Z].
  - destruct T as (k & t & u & T & O1 & O2 & L). assert (u <= 0) by (apply (proj2 O2); left; reflexivity). lia.
Qed.
(** and one registered after it, on a literal branch of its own, is dead too, while the first is served. *)
Example C130_alive : tree_find (routed ex_dead) G (B"/c/b") [] = (TFound 1, [(B"u", B"c"); (B"v", B"b")]).
Proof. reflexivity. Qed.
