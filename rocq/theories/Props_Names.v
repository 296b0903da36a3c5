(** C143: levels of shared loggers, and the names of called handlers. *)
From Verif Require Import Base M_Clone S_Clone S_Names P_Slices Props_Clone.

Lemma level_snoc h i c l : level_now (h ++ [(i, c)]) l =
  match c with
  | CSetLoggerLevel v => if opt_is (logger_now i h) l then v else level_now h l
  | CNewLogger v => if l =? loggers h then v else level_now h l
  | _ => level_now h l
  end.
Proof.
  unfold level_now. assert (G : forall h past z, level_from past (h ++ [(i, c)]) l z =
    match c with
    | CSetLoggerLevel v => if opt_is (logger_now i (past ++ h)) l then v else level_from past h l z
    | CNewLogger v => if l =? loggers (past ++ h) then v else level_from past h l z
    | _ => level_from past h l z
    end).
  { clear h. induction h as [|[j d] h IH]; intros past z; cbn [app level_from].
    - rewrite app_nil_r. reflexivity.
    - rewrite IH, <- app_assoc. cbn [app]. reflexivity. }
  apply (G h []).
Qed.
Lemma names_snoc h j c i : names_now (h ++ [(j, c)]) i = names_now h i ++
  match c with CAddDebugHandleName n => if (j =? i) && debugging h i then [n] else [] | _ => [] end.
Proof.
  unfold names_now. assert (G : forall h past, names_from past (h ++ [(j, c)]) i = names_from past h i ++
    match c with CAddDebugHandleName n => if (j =? i) && debugging (past ++ h) i then [n] else [] | _ => [] end).
  { clear h. induction h as [|[k d] h IH]; intros past; cbn [app names_from].
    - rewrite !app_nil_r. reflexivity.
    - rewrite IH, <- !app_assoc. cbn [app]. reflexivity. }
  apply (G h []).
Qed.
Lemma loggers_snoc h i c : loggers (h ++ [(i, c)]) = match c with CNewLogger _ => S (loggers h) | _ => loggers h end.
Proof. unfold loggers. rewrite filter_app, app_length. destruct c; cbn [filter snd length]; lia. Qed.
Lemma known_snoc h i c : known_loggers (h ++ [(i, c)]) -> known_loggers h /\ forall l, c = CSetLogger (Some l) -> l < loggers h.
Proof.
  intros K. split.
  - intros h1 j l h2 E. apply (K h1 j l (h2 ++ [(i, c)])). rewrite E, <- app_assoc. reflexivity.
  - intros l ->. apply (K h i l []). reflexivity.
Qed.
Lemma logger_now_snoc h i j c : logger_now i (h ++ [(j, c)]) =
  if j =? i then match c with CSetLogger l => l | _ => logger_now i h end else logger_now i h.
Proof.
  unfold logger_now. rewrite calls_on_snoc. destruct (Nat.eqb_spec j i) as [->|N]; [rewrite Nat.eqb_refl || idtac|]; cbn [app].
  - rewrite fold_left_app. reflexivity.
  - rewrite app_nil_r. reflexivity.
Qed.
Lemma logger_bound h : known_loggers h -> forall i l, logger_now i h = Some l -> l < loggers h.
Proof.
  induction h as [|[j c] h IH] using rev_ind; intros K i l E.
  - unfold logger_now in E. cbn in E. destruct i; [|discriminate]. injection E as <-. cbn. lia.
  - apply known_snoc in K as [K Kc]. rewrite logger_now_snoc in E. rewrite loggers_snoc.
    assert (X : l < loggers h).
    { destruct (j =? i); [|exact (IH K i l E)]. destruct c; try exact (IH K i l E). subst. apply Kc. reflexivity. }
    destruct c; lia.
Qed.
Lemma run_levels uniq h : proper 1 h -> known_loggers h ->
  length (w_levels (call_run (new_world uniq) h)) = loggers h /\
  forall l, l < loggers h -> level_of (call_run (new_world uniq) h) l = level_now h l.
Proof.
  induction h as [|[i c] h IH] using rev_ind; intros P K.
  - split; [reflexivity|]. intros l L. destruct l as [|l]; [reflexivity|]. unfold loggers in L. cbn in L. lia.
  - apply proper_snoc in P as [P Li]. fold (contexts h) in Li. apply known_snoc in K as [K _].
    destruct (IH P K) as [IL IV]. clear IH. destruct (run_known uniq h P) as [Len Kn]. rewrite run_snoc. cbn [fst snd].
    set (w := call_run (new_world uniq) h) in *. rewrite loggers_snoc.
    destruct (nth_error (w_ctxs w) i) as [x|] eqn:Ex; [|apply nth_error_None in Ex; lia].
    destruct (Kn i x Ex) as (K1 & _).
    assert (Keep : w_levels (fst (call_step w i c)) = w_levels w -> (forall z, c <> CNewLogger z) -> (forall z, c <> CSetLoggerLevel z) ->
      length (w_levels (fst (call_step w i c))) = match c with CNewLogger _ => S (loggers h) | _ => loggers h end /\
      forall l, l < match c with CNewLogger _ => S (loggers h) | _ => loggers h end ->
        level_of (fst (call_step w i c)) l = level_now (h ++ [(i, c)]) l).
    { intros E N1 N2. unfold level_of. rewrite E. split; [destruct c; try exact IL; elim (N1 lvl eq_refl)|].
      intros l L. rewrite level_snoc. destruct c; try exact (IV l L); [elim (N1 lvl eq_refl)|elim (N2 lvl eq_refl)]. }
    destruct c; try (apply Keep; [unfold call_step; rewrite Ex; reflexivity|discriminate|discriminate]).
    + (* NewLogger *) unfold call_step. rewrite Ex. unfold level_of. cbn [fst w_levels]. rewrite app_length. cbn [length].
      split; [lia|]. intros l L. rewrite level_snoc. destruct (Nat.eqb_spec l (loggers h)) as [->|N].
      * rewrite app_nth2 by lia. rewrite IL, Nat.sub_diag. reflexivity.
      * rewrite app_nth1 by lia. apply IV. lia.
    + (* SetLoggerLevel *) unfold call_step. rewrite Ex, K1. destruct (logger_now i h) as [lg|] eqn:Lg; cbn [fst].
      * pose proof (logger_bound h K i lg Lg) as Lb. unfold level_of. cbn [w_levels]. rewrite <- (upd_splice lvl) by lia.
        split; [rewrite upd_nth_length; exact IL|]. intros l L. rewrite level_snoc, Lg. cbn [opt_is].
        rewrite Nat.eqb_sym. destruct (Nat.eqb_spec l lg) as [->|N].
        -- rewrite (nth_indep _ _ lvl) by (rewrite upd_nth_length; lia).
           erewrite nth_error_nth; [reflexivity|]. rewrite nth_error_upd_nth, Nat.eqb_refl.
           destruct (nth_error (w_levels w) lg) eqn:X; [reflexivity|apply nth_error_None in X; lia].
        -- rewrite <- (IV l L). unfold level_of.
           destruct (nth_error (w_levels w) l) as [v|] eqn:X; [|apply nth_error_None in X; lia].
           rewrite (nth_error_nth _ _ _ X). apply nth_error_nth. rewrite nth_error_upd_nth.
           destruct (Nat.eqb_spec l lg) as [Y|_]; [contradiction|exact X].
      * split; [exact IL|]. intros l L. rewrite level_snoc, Lg. cbn [opt_is]. exact (IV l L).
    + apply Keep; [|discriminate|discriminate]. unfold call_step. rewrite Ex. destruct (negb (c_request x)); reflexivity.
    + apply Keep; [|discriminate|discriminate]. unfold call_step. rewrite Ex.
      destruct (c_logger x) as [lg|]; [destruct (debug_level <=? level_of w lg)%Z|]; reflexivity.
Qed.
Lemma run_names uniq h : proper 1 h -> known_loggers h ->
  forall i x, nth_error (w_ctxs (call_run (new_world uniq) h)) i = Some x -> c_called x = names_now h i.
Proof.
  induction h as [|[j c] h IH] using rev_ind; intros P K.
  - intros [|[|i]] x E; try discriminate. injection E as <-. reflexivity.
  - pose proof P as P0. apply proper_snoc in P as [P Li]. fold (contexts h) in Li. apply known_snoc in K as [K _].
    specialize (IH P K). destruct (run_known uniq h P) as [Len Kn]. destruct (run_levels uniq h P K) as [_ Lv].
    rewrite run_snoc. cbn [fst snd]. set (w := call_run (new_world uniq) h) in *.
    destruct (nth_error (w_ctxs w) j) as [y|] eqn:Ey; [|apply nth_error_None in Ey; lia].
    destruct (Kn j y Ey) as (K1 & _).
    intros i x. rewrite (step_ctxs w j c y Ey), names_snoc.
    assert (Len' : length (upd_nth j (after_call c (level_of w)) (w_ctxs w)) = contexts h) by (rewrite upd_nth_length; exact Len).
    destruct (Nat.lt_ge_cases i (contexts h)) as [L|L].
    + rewrite nth_error_app1 by lia. rewrite nth_error_upd_nth. destruct (Nat.eqb_spec i j) as [->|N].
      * rewrite Ey. cbn [option_map]. intros E. injection E as <-. pose proof (IH j y Ey) as Y.
        rewrite Nat.eqb_refl. cbn [andb]. unfold debugging. rewrite <- K1.
        destruct c; cbn [after_call c_called]; rewrite ?app_nil_r; try exact Y.
        destruct (c_logger y) as [lg|] eqn:Lg; [|rewrite app_nil_r; exact Y].
        assert (Lb : lg < loggers h) by (apply (logger_bound h K j); rewrite <- K1; reflexivity).
        rewrite (Lv lg Lb). unfold debug_level. destruct (5 <=? level_now h lg)%Z; cbn [c_called]; [rewrite Y; reflexivity|rewrite app_nil_r; exact Y].
      * intros E. assert (F : (j =? i) = false) by (apply Nat.eqb_neq; congruence). rewrite F. cbn [andb].
        rewrite (IH i x E). destruct c; rewrite app_nil_r; reflexivity.
    + rewrite nth_error_app2 by lia. rewrite Len'. intros E. destruct (is_clone c) eqn:C; [|destruct (i - contexts h); discriminate].
      destruct c; try discriminate. destruct (i - contexts h) as [|[|k]] eqn:D; [|discriminate|discriminate].
      injection E as <-. cbn [clone_of c_called]. rewrite app_nil_r.
      assert (Ec : i = contexts h) by lia. clear - P Ec. unfold names_now.
      assert (G : forall h past n, proper n h -> n + length (filter (fun ic => is_clone (snd ic)) h) <= i -> names_from past h i = []).
      { clear. induction h as [|[j c] h IH]; intros past n P L; [reflexivity|]. cbn [names_from]. cbn [proper] in P. destruct P as [P1 P2].
        rewrite (IH (past ++ [(j, c)]) (if is_clone c then S n else n) P2).
        - rewrite app_nil_r. destruct c; try reflexivity. assert (F : (j =? i) = false) by (apply Nat.eqb_neq; lia). rewrite F. reflexivity.
        - cbn [filter snd] in L. destruct (is_clone c); cbn [length] in L; lia. }
      symmetry. apply (G h [] 1 P). unfold contexts in Ec. lia.
Qed.

(** * C143 Levels belong to loggers, names of called handlers to contexts *)
(** LoggerLevel answers the level last set on its logger, through whatever context; *)
Theorem C143_level : forall uniq h i l, proper 1 h -> known_loggers h -> i < contexts h -> logger_now i h = Some l ->
  snd (call_step (call_run (new_world uniq) h) i CLoggerLevel) = Ok (ALevel (level_now h l)).
Proof.
  intros uniq h i l P K Li E. destruct (run_known uniq h P) as [Len Kn].
  destruct (nth_error (w_ctxs (call_run (new_world uniq) h)) i) as [x|] eqn:Ex; [|apply nth_error_None in Ex; lia].
  destruct (Kn i x Ex) as (K1 & _). unfold call_step. rewrite Ex, K1, E. cbn [snd].
  rewrite (proj2 (run_levels uniq h P K)) by (apply (logger_bound h K i); exact E). reflexivity.
Qed.
(** CalledHandles answers, when the context is debugging, the names added to that very context
    while it was debugging, in order, and otherwise a fixed text. *)
Theorem C143_names : forall uniq h i, proper 1 h -> known_loggers h -> i < contexts h -> logger_now i h <> None ->
  snd (call_step (call_run (new_world uniq) h) i CCalledHandles) =
  Ok (ANames (if debugging h i then names_now h i else [B"available in debug mode only"])).
Proof.
  intros uniq h i P K Li E. destruct (run_known uniq h P) as [Len Kn].
  destruct (nth_error (w_ctxs (call_run (new_world uniq) h)) i) as [x|] eqn:Ex; [|apply nth_error_None in Ex; lia].
  destruct (Kn i x Ex) as (K1 & _). unfold call_step, debugging. rewrite Ex, K1. destruct (logger_now i h) as [l|] eqn:El; [|congruence]. cbn [snd].
  rewrite (proj2 (run_levels uniq h P K)) by (apply (logger_bound h K i); exact El). unfold debug_level.
  rewrite (run_names uniq h P K i x Ex). reflexivity.
Qed.
(** a fresh request's context is at debug level *)
Theorem C143_fresh : forall uniq, snd (call_step (new_world uniq) 0 CLoggerLevel) = Ok (ALevel 5).
Proof. reflexivity. Qed.

Example C143_example :
  let h := [(0, CAddDebugHandleName (B"a")); (0, CClone); (1, CSetLogger (Some 0)); (1, CAddDebugHandleName (B"b")); (1, CSetLoggerLevel 4);
            (0, CAddDebugHandleName (B"c")); (0, CNewLogger 6); (0, CSetLogger (Some 1)); (0, CAddDebugHandleName (B"d"))] in
  proper 1 h /\ known_loggers h /\ level_now h 0 = 4%Z /\ level_now h 1 = 6%Z /\ names_now h 0 = [B"a"; B"d"] /\ names_now h 1 = [B"b"] /\
  snd (call_step (call_run (new_world 1%N) h) 0 CCalledHandles) = Ok (ANames [B"a"; B"d"]) /\
  snd (call_step (call_run (new_world 1%N) h) 1 CCalledHandles) = Ok (ANames [B"available in debug mode only"]).
Proof.
  intros h. split; [cbn; repeat (split; [lia|]); exact I|]. split; [|repeat split; reflexivity].
  intros h1 i l h2 E. unfold h in E.
  do 9 (destruct h1 as [|? h1]; [cbn [app] in E; first [injection E as _ <- _; cbn; lia|discriminate E]|injection E as <- E]).
  destruct h1; discriminate.
Qed.
Print Assumptions C143_level.
Print Assumptions C143_names.
Print Assumptions C143_fresh.
