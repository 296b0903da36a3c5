(** C117, C118: contexts and their clones. *)
From Verif Require Import Base M_Clone S_Clone P_Slices.

(** ** what a call does to the contexts *)
Definition after_call (c : call) (lv : nat -> Z) (x : cctx) : cctx :=
  match c with
  | CSet k v => Cctx (aput k v (c_data x)) (c_same_site x) (c_stopped x) (c_aborted x) (c_skipped x) (c_logger x) (c_request x) (c_uniq x) (c_called x)
  | CSetSameSite m => Cctx (c_data x) m (c_stopped x) (c_aborted x) (c_skipped x) (c_logger x) (c_request x) (c_uniq x) (c_called x)
  | CSetLogger l => Cctx (c_data x) (c_same_site x) (c_stopped x) (c_aborted x) (c_skipped x) l (c_request x) (c_uniq x) (c_called x)
  | CStop => Cctx (c_data x) (c_same_site x) true (c_aborted x) (c_skipped x) (c_logger x) (c_request x) (c_uniq x) (c_called x)
  | CSkipMain => Cctx (c_data x) (c_same_site x) (c_stopped x) (c_aborted x) true (c_logger x) (c_request x) (c_uniq x) (c_called x)
  | CAbort => Cctx (c_data x) (c_same_site x) (c_stopped x) true (c_skipped x) (c_logger x) (c_request x) (c_uniq x) (c_called x)
  | CAddDebugHandleName n =>
      match c_logger x with
      | Some l => if (debug_level <=? lv l)%Z
                  then Cctx (c_data x) (c_same_site x) (c_stopped x) (c_aborted x) (c_skipped x) (c_logger x) (c_request x) (c_uniq x) (c_called x ++ [n])
                  else x
      | None => x
      end
  | _ => x
  end.
Definition clone_of (x : cctx) : cctx :=
  Cctx (fold_left (fun d kv => aput (fst kv) (snd kv) d) (c_data x) []) (c_same_site x) false false false None false 0%N [].
Lemma upd_nth_ext {A} (f g : A -> A) l : forall i, (forall x, nth_error l i = Some x -> f x = g x) -> upd_nth i f l = upd_nth i g l.
Proof.
  induction l as [|a l IH]; intros i H; [destruct i; reflexivity|]. destruct i as [|i]; cbn [upd_nth].
  - f_equal. apply H. reflexivity.
  - f_equal. apply IH. exact H.
Qed.
Lemma upd_nth_same {A} (l : list A) : forall i, upd_nth i (fun x => x) l = l.
Proof. induction l as [|a l IH]; intros [|i]; cbn [upd_nth]; try reflexivity. f_equal. apply IH. Qed.
Lemma step_ctxs w i c x : nth_error (w_ctxs w) i = Some x ->
  w_ctxs (fst (call_step w i c)) =
  upd_nth i (after_call c (level_of w)) (w_ctxs w) ++ (if is_clone c then [clone_of x] else []).
Proof.
  intros E. unfold call_step. rewrite E.
  assert (I : forall c0, (forall lv x0, after_call c0 lv x0 = x0) ->
    upd_nth i (after_call c0 (level_of w)) (w_ctxs w) = w_ctxs w).
  { intros c0 H. etransitivity; [|apply (upd_nth_same (w_ctxs w) i)]. apply upd_nth_ext. intros y _. apply H. }
  destruct c; cbn [is_clone]; rewrite ?app_nil_r;
    try (rewrite I by (intros ? ?; reflexivity); reflexivity); try reflexivity.
  - (* SetLoggerLevel *) rewrite I by (intros ? ?; reflexivity). destruct (c_logger x); reflexivity.
  - (* Abort *) destruct (negb (c_request x)); reflexivity.
  - (* AddDebugHandleName *)
    destruct (c_logger x) as [l|] eqn:L.
    + destruct (debug_level <=? level_of w l)%Z eqn:D; cbn [fst upd_ctx w_ctxs].
      * apply upd_nth_ext. intros y Ey. rewrite E in Ey. injection Ey as <-. cbn [after_call]. rewrite L, D. reflexivity.
      * symmetry. etransitivity; [|apply (upd_nth_same (w_ctxs w) i)]. apply upd_nth_ext. intros y Ey.
        rewrite E in Ey. injection Ey as <-. cbn [after_call]. rewrite L, D. reflexivity.
    + cbn [fst]. symmetry. etransitivity; [|apply (upd_nth_same (w_ctxs w) i)]. apply upd_nth_ext. intros y Ey.
      rewrite E in Ey. injection Ey as <-. cbn [after_call]. rewrite L. reflexivity.
Qed.
(** ** histories, from the end *)
Lemma proper_snoc h i c : forall n, proper n (h ++ [(i, c)]) <->
  proper n h /\ i < n + length (filter (fun ic => is_clone (snd ic)) h).
Proof.
  induction h as [|[j d] h IH]; intros n; cbn [app proper filter snd].
  - cbn [length]. rewrite Nat.add_0_r. tauto.
  - rewrite IH. destruct (is_clone d); cbn [length]; split; intros H; intuition lia.
Qed.
Lemma contexts_snoc h i c : contexts (h ++ [(i, c)]) = contexts h + (if is_clone c then 1 else 0).
Proof.
  unfold contexts. rewrite filter_app, app_length. cbn [filter snd]. destruct (is_clone c); cbn [length]; lia.
Qed.
Lemma calls_on_snoc j h i c : calls_on j (h ++ [(i, c)]) = calls_on j h ++ (if i =? j then [c] else []).
Proof.
  unfold calls_on. rewrite filter_app, map_app. cbn [filter fst]. destruct (i =? j); reflexivity.
Qed.
Lemma calls_on_later h : forall n, proper n h -> forall j, n + length (filter (fun ic => is_clone (snd ic)) h) <= j -> calls_on j h = [].
Proof.
  induction h as [|[i c] h IH]; intros n P j L; [reflexivity|]. cbn [proper] in P. destruct P as [Li P].
  unfold calls_on. cbn [filter fst snd] in *. destruct (Nat.eqb_spec i j) as [->|_]; [destruct (is_clone c); cbn [length] in L; lia|].
  apply (IH _ P). destruct (is_clone c); cbn [length] in L; lia.
Qed.
Lemma run_snoc w h ic : call_run w (h ++ [ic]) = fst (call_step (call_run w h) (fst ic) (snd ic)).
Proof. unfold call_run. rewrite fold_left_app. reflexivity. Qed.
Definition is_stop (c : call) : bool := match c with CStop => true | _ => false end.
Definition is_abort (c : call) : bool := match c with CAbort => true | _ => false end.
Definition is_skip (c : call) : bool := match c with CSkipMain => true | _ => false end.
Definition known (uniq : N) (h : list (nat * call)) (i : nat) (x : cctx) : Prop :=
  c_logger x = logger_now i h /\ c_request x = (i =? 0) /\ c_uniq x = (if i =? 0 then uniq else 0%N) /\
  c_stopped x = existsb is_stop (calls_on i h) /\ c_aborted x = existsb is_abort (calls_on i h) /\
  c_skipped x = existsb is_skip (calls_on i h).
Lemma run_known uniq h : proper 1 h ->
  length (w_ctxs (call_run (new_world uniq) h)) = contexts h /\
  forall i x, nth_error (w_ctxs (call_run (new_world uniq) h)) i = Some x -> known uniq h i x.
Proof.
  induction h as [|[i c] h IH] using rev_ind; intros P.
  - split; [reflexivity|]. intros [|[|i]] x E; try discriminate E. injection E as <-. repeat split.
  - apply proper_snoc in P as [P Li]. destruct (IH P) as [Len K]. fold (contexts h) in Li.
    rewrite run_snoc. cbn [fst snd]. set (w := call_run (new_world uniq) h) in *.
    destruct (nth_error (w_ctxs w) i) as [x|] eqn:Ex; [|apply nth_error_None in Ex; lia].
    rewrite (step_ctxs w i c x Ex). split.
    + rewrite app_length, upd_nth_length, Len, contexts_snoc. destruct (is_clone c); reflexivity.
    + intros j y Ey.
      destruct (Nat.lt_ge_cases j (contexts h)) as [Lj|Lj].
      * rewrite nth_error_app1 in Ey by (rewrite upd_nth_length; lia).
        rewrite nth_error_upd_nth in Ey. unfold known, logger_now. rewrite calls_on_snoc, (Nat.eqb_sym i j).
        destruct (Nat.eqb_spec j i) as [->|Nj].
        -- rewrite Ex in Ey. cbn [option_map] in Ey. injection Ey as <-.
           destruct (K i x Ex) as (K1 & K2 & K3 & K4 & K5 & K6).
           rewrite fold_left_app, !existsb_app. fold (logger_now i h).
           destruct c; cbn [after_call fold_left existsb is_stop is_abort is_skip orb c_logger c_request c_uniq c_stopped c_aborted c_skipped];
             rewrite ?orb_false_r, ?orb_true_r;
             try (repeat split; assumption || reflexivity); try (repeat split; try assumption; reflexivity).
           destruct (c_logger x) as [l|] eqn:L; [destruct (debug_level <=? level_of w l)%Z|];
             cbn [c_logger c_request c_uniq c_stopped c_aborted c_skipped]; repeat split; congruence.
        -- rewrite app_nil_r. exact (K j y Ey).
      * rewrite nth_error_app2 in Ey by (rewrite upd_nth_length; lia). rewrite upd_nth_length, Len in Ey.
        destruct (is_clone c) eqn:C.
        -- destruct (j - contexts h) as [|k] eqn:Ej; [|destruct k; discriminate Ey]. injection Ey as <-.
           assert (j = contexts h) by lia. subst j.
           unfold known, logger_now. rewrite calls_on_snoc, (calls_on_later h 1 P (contexts h)) by (unfold contexts; lia).
           destruct (Nat.eqb_spec i (contexts h)) as [|_]; [lia|]. cbn [app fold_left existsb].
           assert (Z0 : (contexts h =? 0) = false) by reflexivity. rewrite Z0. repeat split.
        -- destruct (j - contexts h); discriminate Ey.
Qed.

(** * C117 A clone can be used like the original *)
(** The claim: a method call on a fresh clone panics only if it would on the original. *)
Definition C117_claim : Prop := forall uniq h i c, proper 1 h -> i < contexts h -> is_clone c = false ->
  snd (call_step (call_run (new_world uniq) (h ++ [(i, CClone)])) (contexts h) c) = Panic ->
  snd (call_step (call_run (new_world uniq) h) i c) = Panic.
Theorem C117_usable_refuted : ~ C117_claim.
Proof.
  intros H. specialize (H 0%N [] 0 CStop I ltac:(cbn; lia) eq_refl eq_refl). discriminate H.
Qed.
(** Exactly the calls that panic, on every context at any time: those that use the logger of a
    context that has none, and Abort and the EG methods on every clone.  (So a clone works after
    SetLogger with a logger, except for Abort and the EG methods.) *)
Theorem C117_panics_exactly_partial : forall uniq h i c, proper 1 h -> i < contexts h ->
  (snd (call_step (call_run (new_world uniq) h) i c) = Panic <->
   (uses_logger c /\ logger_now i h = None) \/ (uses_group c /\ i <> 0)).
Proof.
  intros uniq h i c P Li. destruct (run_known uniq h P) as [Len K].
  destruct (nth_error (w_ctxs (call_run (new_world uniq) h)) i) as [x|] eqn:Ex; [|apply nth_error_None in Ex; lia].
  destruct (K i x Ex) as (K1 & K2 & _). rewrite <- K1.
  unfold call_step. rewrite Ex. rewrite K2.
  assert (Ci : (i =? 0) = true /\ i = 0 \/ (i =? 0) = false /\ i <> 0).
  { destruct (Nat.eqb_spec i 0); [left|right]; split; auto. }
  destruct Ci as [[Ei Hi]|[Ei Hi]]; rewrite Ei;
  destruct c; cbn [snd uses_logger uses_group negb]; destruct (c_logger x) as [lg|]; cbn [snd];
    (split; intros H; [try discriminate H; intuition congruence|intuition congruence]).
Qed.
(** and what a fresh clone answers: it has the data of the original, but no id, no request
    context and no logger, and it knows of no Stop or Abort *)
Theorem C117_fresh_clone_answers : forall uniq h i, proper 1 h -> i < contexts h ->
  let w := call_run (new_world uniq) h in
  let w' := call_run (new_world uniq) (h ++ [(i, CClone)]) in
  let ask c := snd (call_step w' (contexts h) c) in
  ask CUniqId = Ok (AId 0) /\ ask CCtx = Ok (ACtx true) /\ ask CLogger = Ok (ALogger None) /\
  ask CStopped = Ok (ABool false) /\ ask CAborted = Ok (ABool false) /\
  snd (call_step w 0 CUniqId) = Ok (AId uniq) /\ snd (call_step w 0 CCtx) = Ok (ACtx false).
Proof.
  intros uniq h i P Li w w' ask.
  assert (P' : proper 1 (h ++ [(i, CClone)])) by (apply proper_snoc; split; [exact P|exact Li]).
  destruct (run_known uniq _ P') as [Len' K']. rewrite contexts_snoc in Len'. cbn [is_clone] in Len'.
  destruct (nth_error (w_ctxs w') (contexts h)) as [y|] eqn:Ey;
    [|apply nth_error_None in Ey; unfold w' in Ey; lia].
  destruct (run_known uniq h P) as [Len K]. fold w in Len, K.
  destruct (nth_error (w_ctxs w) 0) as [x|] eqn:Ex; [|apply nth_error_None in Ex; unfold contexts in Len; lia].
  destruct (K 0 x Ex) as (_ & X2 & X3 & _).
  unfold ask, call_step. rewrite Ey, Ex. cbn [snd].
  destruct (K' _ y Ey) as (Y1 & Y2 & Y3 & Y4 & Y5 & _).
  assert (Z0 : (contexts h =? 0) = false) by reflexivity. rewrite Z0 in Y2, Y3.
  assert (Cn : calls_on (contexts h) (h ++ [(i, CClone)]) = []).
  { rewrite calls_on_snoc, (calls_on_later h 1 P (contexts h)) by (unfold contexts; lia).
    destruct (Nat.eqb_spec i (contexts h)) as [|_]; [lia|]. reflexivity. }
  unfold logger_now in Y1. rewrite Cn in Y1, Y4, Y5. rewrite Z0 in Y1. cbn in Y1, Y4, Y5.
  rewrite Y1, Y2, Y3, Y4, Y5, X2, X3. repeat split.
Qed.
Example C117_example : let h := [(0, CSet (B"user") 7); (0, CClone); (1, CSetLogger (Some 0))] in
  proper 1 h /\ contexts h = 2 /\
  snd (call_step (call_run (new_world 5%N) h) 1 CStop) = Ok ANone /\
  snd (call_step (call_run (new_world 5%N) h) 1 CAbort) = Panic /\
  snd (call_step (call_run (new_world 5%N) h) 1 (CGet (B"user"))) = Ok (AValue (Some 7)).
Proof. cbn [proper is_clone]. split; [lia|]. split; [reflexivity|]. split; [reflexivity|]. split; reflexivity. Qed.
Print Assumptions C117_usable_refuted.
Print Assumptions C117_panics_exactly_partial.
Print Assumptions C117_fresh_clone_answers.

(** * C118 Clones control themselves and share the response *)
(** Stopped and Aborted answer for the context they are asked of: true exactly if Stop or Abort
    was called on that very context (even if the call panicked), whatever was called on its
    original or its clones. *)
Theorem C118_own_flags : forall uniq h i, proper 1 h -> i < contexts h ->
  exists st ab, snd (call_step (call_run (new_world uniq) h) i CStopped) = Ok (ABool st) /\
    snd (call_step (call_run (new_world uniq) h) i CAborted) = Ok (ABool ab) /\
    (ab = true <-> In (i, CAbort) h) /\ (st = true <-> In (i, CAbort) h \/ In (i, CStop) h).
Proof.
  intros uniq h i P Li. destruct (run_known uniq h P) as [Len K].
  destruct (nth_error (w_ctxs (call_run (new_world uniq) h)) i) as [x|] eqn:Ex; [|apply nth_error_None in Ex; lia].
  destruct (K i x Ex) as (_ & _ & _ & K4 & K5 & _).
  assert (G : forall f d, (forall c, f c = true <-> c = d) -> (existsb f (calls_on i h) = true <-> In (i, d) h)).
  { intros f d F. rewrite existsb_exists. unfold calls_on. split.
    - intros (c & I & Fc). apply F in Fc as ->. apply in_map_iff in I as ((j, c) & E & I). cbn in E. subst c.
      apply filter_In in I as [I E]. cbn in E. apply Nat.eqb_eq in E as ->. exact I.
    - intros I. exists d. split; [|apply F; reflexivity]. apply in_map_iff. exists (i, d). split; [reflexivity|].
      apply filter_In. split; [exact I|]. cbn. apply Nat.eqb_refl. }
  exists (c_aborted x || c_stopped x), (c_aborted x). unfold call_step. rewrite Ex. cbn [snd].
  split; [reflexivity|]. split; [reflexivity|]. rewrite orb_true_iff, K4, K5.
  rewrite (G is_abort CAbort), (G is_stop CStop); [tauto| |]; intros []; cbn; split; intros X; try discriminate X; reflexivity.
Qed.
(** the request's context is cancelled exactly by Abort on the original *)
Theorem C118_cancelled : forall uniq h, proper 1 h ->
  (w_cancelled (call_run (new_world uniq) h) = true <-> In (0, CAbort) h).
Proof.
  intros uniq h. induction h as [|[i c] h IH] using rev_ind; intros P.
  - split; [discriminate|intros []].
  - apply proper_snoc in P as [P Li]. fold (contexts h) in Li. specialize (IH P).
    destruct (run_known uniq h P) as [Len K]. rewrite run_snoc. cbn [fst snd].
    set (w := call_run (new_world uniq) h) in *.
    destruct (nth_error (w_ctxs w) i) as [x|] eqn:Ex; [|apply nth_error_None in Ex; lia].
    destruct (K i x Ex) as (_ & K2 & _).
    assert (Keep : c <> CAbort -> w_cancelled (fst (call_step w i c)) = w_cancelled w).
    { intros N. unfold call_step. rewrite Ex. destruct c; try reflexivity; try contradiction.
      - destruct (c_logger x); reflexivity.
      - destruct (c_logger x) as [l|]; [destruct (debug_level <=? level_of w l)%Z|]; reflexivity. }
    assert (D : c = CAbort \/ c <> CAbort) by (destruct c; (left; reflexivity) || (right; discriminate)).
    rewrite in_app_iff. cbn [In]. destruct D as [->|N].
    + unfold call_step. rewrite Ex, K2. destruct (Nat.eqb_spec i 0) as [->|Ni]; cbn [negb].
      * cbn [fst w_cancelled]. split; [intros _; right; left; reflexivity|reflexivity].
      * cbn [fst upd_ctx w_cancelled]. rewrite IH. split; [intros H; left; exact H|].
        intros [H|[E|[]]]; [exact H|]. injection E as E. contradiction.
    + rewrite (Keep N), IH. split; [intros H; left; exact H|].
      intros [H|[E|[]]]; [exact H|]. injection E as _ E. contradiction.
Qed.
(** everything written through any of the contexts is in the response, in order *)
Theorem C118_one_body : forall uniq h, proper 1 h -> w_body (call_run (new_world uniq) h) = written h.
Proof.
  intros uniq h. induction h as [|[i c] h IH] using rev_ind; intros P; [reflexivity|].
  apply proper_snoc in P as [P Li]. fold (contexts h) in Li. specialize (IH P).
  destruct (run_known uniq h P) as [Len K]. rewrite run_snoc. cbn [fst snd].
  set (w := call_run (new_world uniq) h) in *.
  destruct (nth_error (w_ctxs w) i) as [x|] eqn:Ex; [|apply nth_error_None in Ex; lia].
  unfold written. rewrite map_app, concat_app. fold (written h). rewrite <- IH. cbn [map snd concat].
  unfold call_step. rewrite Ex. rewrite app_nil_r.
  destruct c; cbn [fst w_body upd_ctx]; rewrite ?app_nil_r; try reflexivity.
  - destruct (c_logger x); reflexivity.
  - destruct (negb (c_request x)); reflexivity.
  - destruct (c_logger x) as [l|]; [destruct (debug_level <=? level_of w l)%Z|]; reflexivity.
Qed.
(** cookies: all calls, each with the SameSite mode of the context it is called on; a clone
    starts with its original's mode and from then on has its own *)
Fixpoint cookies_sent (h : list (nat * call)) (ms : list nat) : list (bytes * nat) :=
  match h with
  | [] => []
  | (i, c) :: h' =>
      match c with CSetCookie n => [(n, nth i ms 0)] | _ => [] end ++ cookies_sent h' (mode_step ms (i, c))
  end.
Lemma cookies_sent_snoc h i c : forall ms, cookies_sent (h ++ [(i, c)]) ms =
  cookies_sent h ms ++ match c with CSetCookie n => [(n, nth i (fold_left mode_step h ms) 0)] | _ => [] end.
Proof.
  induction h as [|[j d] h IH]; intros ms.
  - cbn [app cookies_sent fold_left]. destruct c; reflexivity.
  - cbn [app cookies_sent fold_left]. rewrite IH, app_assoc. reflexivity.
Qed.
Lemma upd_splice {A} (v : A) l : forall i, i < length l -> upd_nth i (fun _ => v) l = firstn i l ++ v :: skipn (S i) l.
Proof.
  induction l as [|a l IH]; intros i L; [cbn in L; lia|]. destruct i as [|i]; [reflexivity|].
  cbn [upd_nth firstn app]. change (skipn (S (S i)) (a :: l)) with (skipn (S i) l). f_equal. apply IH. cbn in L. lia.
Qed.
Lemma map_upd {A B} (g : A -> B) (f : A -> A) l : forall i, map g (upd_nth i f l) =
  match nth_error l i with Some x => upd_nth i (fun _ => g (f x)) (map g l) | None => map g l end.
Proof.
  induction l as [|a l IH]; intros [|i]; cbn [upd_nth map nth_error]; try reflexivity.
  rewrite IH. destruct (nth_error l i); reflexivity.
Qed.
Lemma upd_nth_noop {A} (l : list A) : forall i x, nth_error l i = Some x -> upd_nth i (fun _ => x) l = l.
Proof.
  induction l as [|a l IH]; intros [|i] x E; try discriminate E; cbn [upd_nth].
  - injection E as ->. reflexivity.
  - f_equal. apply IH. exact E.
Qed.
Lemma run_modes uniq h : proper 1 h -> map c_same_site (w_ctxs (call_run (new_world uniq) h)) = modes h.
Proof.
  induction h as [|[i c] h IH] using rev_ind; intros P; [reflexivity|].
  apply proper_snoc in P as [P Li]. fold (contexts h) in Li. specialize (IH P).
  destruct (run_known uniq h P) as [Len K]. rewrite run_snoc. cbn [fst snd].
  set (w := call_run (new_world uniq) h) in *.
  destruct (nth_error (w_ctxs w) i) as [x|] eqn:Ex; [|apply nth_error_None in Ex; lia].
  rewrite (step_ctxs w i c x Ex), map_app. unfold modes. rewrite fold_left_app. fold (modes h). rewrite <- IH.
  cbn [fold_left]. unfold mode_step. cbn [fst snd].
  assert (Nx : nth i (map c_same_site (w_ctxs w)) 0 = c_same_site x).
  { erewrite nth_error_nth; [reflexivity|]. rewrite nth_error_map, Ex. reflexivity. }
  rewrite map_upd, Ex.
  assert (U : forall c0 lv, (forall m, c0 <> CSetSameSite m) -> c_same_site (after_call c0 lv x) = c_same_site x).
  { intros c0 lv N. destruct c0; try reflexivity; [contradiction (N m eq_refl)|].
    cbn [after_call]. destruct (c_logger x) as [l|]; [destruct (debug_level <=? lv l)%Z|]; reflexivity. }
  assert (V : forall c0 lv, (forall m, c0 <> CSetSameSite m) ->
    upd_nth i (fun _ => c_same_site (after_call c0 lv x)) (map c_same_site (w_ctxs w)) = map c_same_site (w_ctxs w)).
  { intros c0 lv N. rewrite (U c0 lv N). apply upd_nth_noop. rewrite nth_error_map, Ex. reflexivity. }
  destruct c; cbn [is_clone map]; rewrite ?app_nil_r; try (apply V; intros ?; discriminate).
  - apply (upd_splice m). rewrite map_length. lia.
  - f_equal; [apply V; intros ?; discriminate|]. cbn [clone_of c_same_site]. rewrite Nx. reflexivity.
Qed.
Theorem C118_cookies : forall uniq h, proper 1 h -> w_cookies (call_run (new_world uniq) h) = cookies_sent h [0].
Proof.
  intros uniq h. induction h as [|[i c] h IH] using rev_ind; intros P; [reflexivity|].
  apply proper_snoc in P as [P Li]. fold (contexts h) in Li. specialize (IH P).
  destruct (run_known uniq h P) as [Len K]. rewrite run_snoc, cookies_sent_snoc. cbn [fst snd].
  pose proof (run_modes uniq h P) as M. unfold modes in M. rewrite <- M, <- IH.
  set (w := call_run (new_world uniq) h) in *.
  destruct (nth_error (w_ctxs w) i) as [x|] eqn:Ex; [|apply nth_error_None in Ex; lia].
  assert (Nx : nth i (map c_same_site (w_ctxs w)) 0 = c_same_site x).
  { erewrite nth_error_nth; [reflexivity|]. rewrite nth_error_map, Ex. reflexivity. }
  unfold call_step. rewrite Ex. destruct c; cbn [fst w_cookies upd_ctx]; rewrite ?app_nil_r; try reflexivity.
  - rewrite Nx. reflexivity.
  - destruct (c_logger x); reflexivity.
  - destruct (negb (c_request x)); reflexivity.
  - destruct (c_logger x) as [l|]; [destruct (debug_level <=? level_of w l)%Z|]; reflexivity.
Qed.
Example C118_example : let h := [(0, CSetSameSite 2); (0, CClone); (1, CSetSameSite 3); (0, CSetCookie (B"a")); (1, CSetCookie (B"b"));
                                  (1, CStop); (1, CWrite (B"x")); (0, CWrite (B"y"))] in
  proper 1 h /\ w_body (call_run (new_world 1%N) h) = B"xy" /\
  w_cookies (call_run (new_world 1%N) h) = [(B"a", 2); (B"b", 3)] /\
  snd (call_step (call_run (new_world 1%N) h) 0 CStopped) = Ok (ABool false) /\
  snd (call_step (call_run (new_world 1%N) h) 1 CStopped) = Ok (ABool true).
Proof.
  cbn [proper is_clone]. split; [repeat (split; [lia|]); exact I|]. repeat split; reflexivity.
Qed.
Print Assumptions C118_own_flags.
Print Assumptions C118_cancelled.
Print Assumptions C118_one_body.
Print Assumptions C118_cookies.
