(** C149, C150: what requests leave in the standard log. *)
From Verif Require Import Base GoStrings GoErrors GoPath M_Pipeline S_Pipeline P_Pipeline M_Auth M_Report S_Report.

Definition part (w : who) : Prop := match w with WInit | WBefore _ | WMain | WAfter _ => True | _ => False end.
Definition fine (k : call) : Prop := k_out k = HRet None /\ part (k_who k).
Definition ends_in (ks : list call) (e : option err) : Prop :=
  exists ks0 k, ks = ks0 ++ [k] /\ k_out k = HRet e /\ part (k_who k).
Lemma after_call_ret b k c e : after_call b k c = Finish (RRet e) -> k_out k = HRet e.
Proof.
  unfold after_call. destruct (k_out k) as [[x|]|]; intros H; [injection H as <-; reflexivity| |discriminate H].
  destruct (b && stopped c); [injection H as <-; reflexivity|discriminate H].
Qed.
Lemma after_call_go b k c : after_call b k c = Continue -> k_out k = HRet None.
Proof. unfold after_call. destruct (k_out k) as [[x|]|]; intros H; [discriminate H|reflexivity|discriminate H]. Qed.
Lemma run1_who w n b c k c' : run1 w n b c = (k, c') -> k_who k = w.
Proof. unfold run1. destruct (b _) as [a o]. intros H. injection H as <- <-. reflexivity. Qed.
Lemma run_list_ends mkw (Hm : forall i, part (mkw i)) : forall hs i c ks c' r, run_list mkw i hs c = (ks, c', r) ->
  (r = Continue -> Forall fine ks) /\ (forall e, r = Finish (RRet e) -> ends_in ks e).
Proof.
  induction hs as [|h hs IH]; intros i c ks c' r H; cbn [run_list] in H.
  - injection H as <- <- <-. split; [constructor|discriminate].
  - destruct (run1 (mkw i) (h_name h) (h_run h) c) as [k c1] eqn:E1. pose proof (run1_who _ _ _ _ _ _ E1) as W.
    destruct (after_call true k c1) as [|r0] eqn:E2.
    + destruct (run_list mkw (S i) hs c1) as [[ks1 c2] r1] eqn:E3. injection H as <- <- <-. destruct (IH _ _ _ _ _ E3) as [I1 I2]. split.
      * intros E. constructor; [split; [exact (after_call_go _ _ _ E2)|rewrite W; apply Hm]|exact (I1 E)].
      * intros e E. destruct (I2 e E) as (ks0 & k0 & -> & O & P). exists (k :: ks0), k0. auto.
    + injection H as <- <- <-. split; [discriminate|]. intros e E. injection E as ->. exists [], k. split; [reflexivity|]. split; [exact (after_call_ret _ _ _ _ E2)|rewrite W; apply Hm].
Qed.
Lemma ends_after a b ks e : ks = a ++ b -> ends_in b e -> ends_in ks e.
Proof. intros -> (ks0 & k & -> & O & P). exists (a ++ ks0), k. split; [rewrite app_assoc; reflexivity|auto]. Qed.
Lemma fine_ends ks : ks <> [] -> Forall fine ks -> ends_in ks None.
Proof.
  intros N F. destruct ks as [|k ks _] using rev_ind; [congruence|]. apply Forall_app in F as [_ F]. inversion F as [|? ? [O P] _]; subst. exists ks, k. auto.
Qed.
Lemma run_set_ends s c ks c' e : run_set s c = (ks, c', RRet e) -> ends_in ks e.
Proof.
  unfold run_set. destruct (hs_main s) as [m|]; [|intros H; discriminate H].
  destruct (run1 WInit (m_name m) (m_init m) c) as [k0 c0] eqn:E0. pose proof (run1_who _ _ _ _ _ _ E0) as W0.
  destruct (after_call false k0 c0) as [|r0] eqn:A0.
  2:{ intros H. inversion H; subst. exists [], k0. split; [reflexivity|]. split; [exact (after_call_ret _ _ _ _ A0)|rewrite W0; exact I]. }
  assert (F0 : fine k0) by (split; [exact (after_call_go _ _ _ A0)|rewrite W0; exact I]).
  destruct (run_list WBefore 0 (hs_before s) c0) as [[kb c1] rb] eqn:Eb.
  destruct (run_list_ends WBefore (fun _ => I) _ _ _ _ _ _ Eb) as [Fb Gb].
  destruct rb as [|rb].
  2:{ intros H. inversion H; subst. apply (ends_after [k0] kb); [reflexivity|]. apply Gb. reflexivity. }
  specialize (Fb eq_refl).
  destruct (c_skip c1).
  - destruct (run_list WAfter 0 (hs_after s) c1) as [[ka c3] ra] eqn:Ea. destruct (run_list_ends WAfter (fun _ => I) _ _ _ _ _ _ Ea) as [Fa Ga].
    destruct ra as [|ra]; intros H; inversion H; subst.
    + apply fine_ends; [discriminate|]. constructor; [exact F0|]. apply Forall_app. split; [exact Fb|]. exact (Fa eq_refl).
    + apply (ends_after (k0 :: kb) ka); [reflexivity|]. apply Ga. reflexivity.
  - destruct (run1 WMain (m_name m) (m_run m) c1) as [km c2] eqn:Em. pose proof (run1_who _ _ _ _ _ _ Em) as Wm.
    destruct (after_call true km c2) as [|rm] eqn:Am.
    + assert (Fm : fine km) by (split; [exact (after_call_go _ _ _ Am)|rewrite Wm; exact I]).
      destruct (run_list WAfter 0 (hs_after s) c2) as [[ka c3] ra] eqn:Ea. destruct (run_list_ends WAfter (fun _ => I) _ _ _ _ _ _ Ea) as [Fa Ga].
      destruct ra as [|ra]; intros H; inversion H; subst.
      * apply fine_ends; [discriminate|]. constructor; [exact F0|]. apply Forall_app. split; [exact Fb|]. constructor; [exact Fm|exact (Fa eq_refl)].
      * apply (ends_after (k0 :: kb ++ [km]) ka); [cbn [app]; rewrite <- app_assoc; reflexivity|]. apply Ga. reflexivity.
    + intros H. inversion H; subst. exists (k0 :: kb), km. split; [reflexivity|]. split; [exact (after_call_ret _ _ _ _ Am)|rewrite Wm; exact I].
Qed.
Lemma part_final path ks k : part (k_who k) -> final_error path (ks ++ [k]) = told (returned k).
Proof. intros P. unfold final_error. rewrite rev_app_distr. cbn [rev app]. destruct (k_who k); try contradiction; reflexivity. Qed.

(** The error a request ends with is determined by the calls that were made. *)
Lemma run_http_error found ses path lvl sched e :
  x_result (run_http found ses path lvl sched) = RRet e -> told e = final_error path (x_calls (run_http found ses path lvl sched)).
Proof.
  unfold run_http. destruct found as [s|]; [|intros H; injection H as <-; reflexivity].
  destruct ses as [f|].
  - destruct (f new_ctx) as [acts out]. destruct out as [[e0|]|].
    + cbn [x_result x_calls]. intros H. injection H as <-. reflexivity.
    + destruct (run_set s _) as [[ks c2] [e1|]] eqn:Er; [|intros H; discriminate H].
      pose proof (run_set_ends _ _ _ _ _ Er) as (ks0 & k & -> & O & P).
      assert (R : returned k = e1) by (unfold returned; rewrite O; reflexivity).
      destruct (c_aborted c2).
      * cbn [x_result x_calls]. intros H. injection H as <-. rewrite app_assoc, (part_final _ _ _ P), R. reflexivity.
      * destruct (eg_wait sched c2) as [eg c3]. unfold run_last. destruct (hs_last s) as [l|].
        -- destruct (l_run l c3 _) as [a o]. cbn [x_result x_calls]. intros H. destruct o as [e2|]; [|discriminate H]. injection H as <-.
           unfold final_error. rewrite !rev_app_distr. cbn [rev app k_who]. reflexivity.
        -- cbn [x_result x_calls]. intros H. injection H as <-. unfold final_error. rewrite !rev_app_distr. cbn [rev app k_who]. rewrite R.
           unfold returned at 1. cbn [k_out]. destruct e1 as [e1|], eg as [eg|]; reflexivity.
    + intros H. discriminate H.
  - destruct (run_set s _) as [[ks c2] [e1|]] eqn:Er; [|intros H; discriminate H].
    pose proof (run_set_ends _ _ _ _ _ Er) as (ks0 & k & -> & O & P).
    assert (R : returned k = e1) by (unfold returned; rewrite O; reflexivity).
    destruct (c_aborted c2).
    + cbn [x_result x_calls]. intros H. injection H as <-. rewrite app_assoc, (part_final _ _ _ P), R. reflexivity.
    + destruct (eg_wait sched c2) as [eg c3]. unfold run_last. destruct (hs_last s) as [l|].
      * destruct (l_run l c3 _) as [a o]. cbn [x_result x_calls]. intros H. destruct o as [e2|]; [|discriminate H]. injection H as <-.
        unfold final_error. rewrite !rev_app_distr. cbn [rev app k_who]. reflexivity.
      * cbn [x_result x_calls]. intros H. injection H as <-. unfold final_error. rewrite !rev_app_distr. cbn [rev app k_who]. rewrite R.
        unfold returned at 1. cbn [k_out]. destruct e1 as [e1|], eg as [eg|]; reflexivity.
Qed.

(** ** C149 *)
(** A request adds to the log: nothing if it is refused or panics, otherwise the client's address and the text of the error it
    ends with, or nothing if it ends without error. *)
Theorem C149_report : forall uni stamp addr s rq ev r, serve_http uni s rq = (ev, r) ->
  ((forall h, ~ In (EvPipeline h) ev) /\ reports uni stamp addr s rq = []) \/
  exists lg h, ev = lg ++ [EvLookup (rq_method rq) (rq_path rq); EvPipeline h] /\ (forall h', ~ In (EvPipeline h') lg) /\
    reports uni stamp addr s rq =
      match r with
      | Panic => []
      | Ok _ => match final_error (rq_path rq) (x_calls h) with
                | Some text => stamp ++ B"[" ++ addr ++ B"] " ++ text ++ [ch 10]
                | None => []
                end
      end.
Proof.
  intros uni stamp addr s rq ev r H. unfold reports. rewrite H. cbn [fst].
  assert (Q : forall lg, (forall h', ~ In (EvPipeline h') lg) -> flat_map (report1 stamp addr) lg = []).
  { induction lg as [|e lg IH]; intros N; [reflexivity|]. cbn [flat_map]. rewrite IH by (intros h' I; apply (N h'); right; exact I).
    destruct e; try reflexivity. exfalso. apply (N h). left. reflexivity. }
  set (h := run_http (sv_find s (rq_method rq) (rq_path rq)) (sv_ses s) (rq_path rq) (sv_level s) (sv_sched s)).
  assert (Run : forall lg, (forall h', ~ In (EvPipeline h') lg) -> (lg ++ fst (run_request s rq), snd (run_request s rq)) = (ev, r) ->
    exists lg h, ev = lg ++ [EvLookup (rq_method rq) (rq_path rq); EvPipeline h] /\ (forall h', ~ In (EvPipeline h') lg) /\
      flat_map (report1 stamp addr) ev =
        match r with
        | Panic => []
        | Ok _ => match final_error (rq_path rq) (x_calls h) with
                  | Some text => stamp ++ B"[" ++ addr ++ B"] " ++ text ++ [ch 10]
                  | None => []
                  end
        end).
  { intros lg N E. unfold run_request in E. fold h in E. cbv zeta in E. cbn [fst snd] in E. exists lg, h. injection E as <- Er. split; [reflexivity|]. split; [exact N|].
    rewrite flat_map_app, (Q lg N). cbn [flat_map report1 app]. destruct (x_result h) as [e|] eqn:X; subst r; [|reflexivity].
    rewrite app_nil_r. pose proof (run_http_error _ _ _ _ _ _ X) as T. fold h in T. rewrite <- T. destruct e as [e|]; reflexivity. }
  unfold serve_http in H. destruct (sv_auth s) as [a|]; [|injection H as <- <-; left; split; [intros h0 []|reflexivity]].
  destruct (if a_use a then _ else _) as [[]|].
  - destruct (check uni a rq) as [lg [[]|]] eqn:C.
    + right. destruct (run_request s rq) as [ev2 r2] eqn:R. apply (Run lg); [|exact H].
      unfold check in C. destruct (negb (a_use a)); [injection C as <-; intros h' []|]. destruct (get_user_password uni (rq_auth rq)) as [u p].
      destruct (a_use_log a && a_log_nil a); [discriminate C|]. destruct (negb (is_empty u) && _); [|discriminate C]. injection C as <-.
      destruct (a_use_log a); [intros h' [E|[]]; discriminate E|intros h' []].
    + injection H as <- <-. left. assert (N : forall h', ~ In (EvPipeline h') lg); [|split; [exact N|apply Q; exact N]].
      unfold check in C. destruct (negb (a_use a)); [discriminate C|]. destruct (get_user_password uni (rq_auth rq)) as [u p].
      destruct (a_use_log a && a_log_nil a); [discriminate C|]. destruct (negb (is_empty u) && _); [discriminate C|]. injection C as <-.
      destruct (a_use_log a); cbn [app In]; intros h' I; intuition discriminate.
    + injection H as <- <-. left. assert (N : forall h', ~ In (EvPipeline h') lg); [|split; [exact N|apply Q; exact N]].
      unfold check in C. destruct (negb (a_use a)); [discriminate C|]. destruct (get_user_password uni (rq_auth rq)) as [u p].
      destruct (a_use_log a && a_log_nil a); [injection C as <-; intros h' []|]. destruct (negb (is_empty u) && _); discriminate C.
  - right. apply (Run []); [intros h' []|]. cbn [app]. rewrite <- H. symmetry. apply surjective_pairing.
  - injection H as <- <-. left. split; [intros h' []|reflexivity].
Qed.
(** In particular a request for which there is no route and that authentication does not look at. *)
Theorem C149_no_route : forall uni stamp addr s rq a, sv_auth s = Some a -> a_use a = false -> sv_find s (rq_method rq) (rq_path rq) = None ->
  reports uni stamp addr s rq = stamp ++ B"[" ++ addr ++ B"] path '" ++ rq_path rq ++ B"' not found" ++ [ch 10].
Proof.
  intros uni stamp addr s rq a Ha U F. unfold reports, serve_http. rewrite Ha, U. unfold run_request. rewrite F. cbn [fst flat_map report1 run_http x_result print_error new_err err_text app]. unfold newline.
  rewrite app_nil_r, <- !app_assoc. reflexivity.
Qed.
(** Requests that end without error leave nothing, the others exactly one report. *)
Theorem C149_silent_iff : forall uni stamp addr s rq lg h,
  serve_http uni s rq = (lg ++ [EvLookup (rq_method rq) (rq_path rq); EvPipeline h], Ok tt) ->
  (forall h', ~ In (EvPipeline h') lg) ->
  (reports uni stamp addr s rq = [] <-> final_error (rq_path rq) (x_calls h) = None).
Proof.
  intros uni stamp addr s rq lg h H N. destruct (C149_report uni stamp addr s rq _ _ H) as [[X _]|(lg' & h' & E & _ & R)].
  - exfalso. apply (X h). apply in_or_app. right. right. left. reflexivity.
  - assert (h = h') as <-.
    { change [EvLookup (rq_method rq) (rq_path rq); EvPipeline h] with ([EvLookup (rq_method rq) (rq_path rq)] ++ [EvPipeline h]) in E.
      change [EvLookup (rq_method rq) (rq_path rq); EvPipeline h'] with ([EvLookup (rq_method rq) (rq_path rq)] ++ [EvPipeline h']) in E.
      rewrite !app_assoc in E. apply app_inj_tail in E as [_ E]. injection E as <-. reflexivity. }
    rewrite R. destruct (final_error (rq_path rq) (x_calls h)) as [t|]; [|split; reflexivity]. split; [|discriminate].
    intros X. exfalso. destruct stamp; discriminate X.
Qed.

(** ** C150 *)
Definition lf : ascii := ch 10.
(** Every line of the log starts with the time and the address of a client. *)
Definition C150_claim : Prop := forall uni stamp addr s rq target,
  ~ In lf stamp -> ~ In lf addr -> ~ In lf target -> rq_path rq = normalize_path target ->
  Forall (begins_with (stamp ++ B"[" ++ addr ++ B"] ")) (lines (reports uni stamp addr s rq)).
Lemma lines_app t s : ~ In lf t -> lines (t ++ lf :: s) = t :: lines s.
Proof.
  induction t as [|c t IH]; intros N; [reflexivity|]. cbn [app lines]. destruct (Ascii.eqb_spec c (ch 10)) as [->|_]; [exfalso; apply N; left; reflexivity|].
  rewrite IH by (intros X; apply N; right; exact X). reflexivity.
Qed.
Lemma decode_lf x : ~ In "%"%char x -> pct_decode (B"%0A" ++ x) = lf :: x.
Proof.
  intros N. change (B"%0A" ++ x) with ("%"%char :: "0"%char :: "A"%char :: x). transitivity (lf :: pct_decode x); [reflexivity|]. f_equal.
  clear - N. assert (H : forall n y, length y <= n -> ~ In "%"%char y -> pct_decode y = y).
  { induction n as [|n IH]; intros y L Ny; (destruct y as [|c t]; [reflexivity|]); [cbn in L; lia|].
    assert (Nc : Ascii.eqb c "%" = false) by (apply Ascii.eqb_neq; intros ->; apply Ny; left; reflexivity).
    assert (It : pct_decode t = t) by (apply IH; [cbn in L; lia|intros X; apply Ny; right; exact X]).
    destruct t as [|a [|b t]]; cbn [pct_decode] in It |- *; [reflexivity|reflexivity|]. rewrite Nc. f_equal. exact It. }
  apply (H (length x)); [lia|exact N].
Qed.
Lemma split_plain x : ~ In "/"%char x -> split "/" x = [x].
Proof.
  induction x as [|c x IH]; intros N; [reflexivity|]. cbn [split]. destruct (Ascii.eqb_spec c "/") as [->|_]; [exfalso; apply N; left; reflexivity|].
  rewrite IH by (intros X; apply N; right; exact X). reflexivity.
Qed.
Lemma target_path x : ~ In "%"%char x -> ~ In "/"%char x -> normalize_path (B"/%0A" ++ x) = "/"%char :: lf :: x.
Proof.
  intros N1 N2. unfold normalize_path. change (B"/%0A" ++ x) with ("/"%char :: (B"%0A" ++ x)). cbn [is_rooted tl]. rewrite Ascii.eqb_refl.
  rewrite (decode_lf x N1). rewrite split_plain by (intros [X|X]; [discriminate X|exact (N2 X)]). cbn [rev app fold_left].
  destruct (beq_spec (lf :: x) dotdot) as [X|_]; [discriminate X|]. reflexivity.
Qed.
(** Anybody can write lines of their choice into the log, with one request that needs no route. *)
Theorem C150_forged_line : forall uni stamp addr s rq a x, ~ In lf stamp -> ~ In lf addr -> ~ In lf x -> ~ In "%"%char x -> ~ In "/"%char x ->
  sv_auth s = Some a -> a_use a = false -> sv_find s (rq_method rq) (rq_path rq) = None ->
  rq_path rq = normalize_path (B"/%0A" ++ x) ->
  lines (reports uni stamp addr s rq) = [stamp ++ B"[" ++ addr ++ B"] path '/"; x ++ B"' not found"].
Proof.
  intros uni stamp addr s rq a x Ns Na Nx N1 N2 Ha U F P. rewrite (C149_no_route uni stamp addr s rq a Ha U F), P, (target_path x N1 N2).
  replace (stamp ++ B"[" ++ addr ++ B"] path '" ++ ("/"%char :: lf :: x) ++ B"' not found" ++ [ch 10])
    with ((stamp ++ B"[" ++ addr ++ B"] path '/") ++ lf :: ((x ++ B"' not found") ++ lf :: [])).
  - rewrite lines_app.
    + rewrite lines_app; [reflexivity|]. intros X. apply in_app_or in X as [X|X]; [exact (Nx X)|]. vm_compute in X. intuition discriminate.
    + intros X. apply in_app_or in X as [X|X]; [exact (Ns X)|]. apply in_app_or in X as [X|X]; [vm_compute in X; intuition discriminate|].
      apply in_app_or in X as [X|X]; [exact (Na X)|]. vm_compute in X. intuition discriminate.
  - rewrite <- !app_assoc. reflexivity.
Qed.
Definition ex_server : server := Server (Some new_auth) (fun _ _ => None) None 5%Z (fun l => l).
Definition ex_forger : request := Request (B"GET") (normalize_path (B"/%0A[10.0.0.7] admin logged in")) [].
Theorem C150_lines_refuted : ~ C150_claim.
Proof.
  intros H. specialize (H (fun b => b) [] (B"1.2.3.4:5") ex_server ex_forger (B"/%0A[10.0.0.7] admin logged in")).
  assert (X : Forall (begins_with (B"[1.2.3.4:5] ")) [B"[1.2.3.4:5] path '/"; B"[10.0.0.7] admin logged in' not found"]).
  { apply H; [intros []| | |reflexivity]; vm_compute; intuition discriminate. }
  inversion X as [|? ? _ X2]; subst. inversion X2 as [|? ? X3 _]; subst. destruct X3 as [r X3]. discriminate X3.
Qed.
(** What holds: a report is one line, starting with time and address, exactly if the error's text has no line break; so it is
    if neither the decoded path nor the errors of user code have one.  Missing: texts with line breaks (see above). *)
Theorem C150_lines_partial : forall uni stamp addr s rq lg h text,
  ~ In lf stamp -> ~ In lf addr -> (forall h', ~ In (EvPipeline h') lg) ->
  serve_http uni s rq = (lg ++ [EvLookup (rq_method rq) (rq_path rq); EvPipeline h], Ok tt) ->
  final_error (rq_path rq) (x_calls h) = Some text ->
  (length (lines (reports uni stamp addr s rq)) = 1 <-> ~ In lf text) /\
  (~ In lf text -> lines (reports uni stamp addr s rq) = [stamp ++ B"[" ++ addr ++ B"] " ++ text]).
Proof.
  intros uni stamp addr s rq lg h text Ns Na N H F.
  assert (R : reports uni stamp addr s rq = (stamp ++ B"[" ++ addr ++ B"] " ++ text) ++ [ch 10]).
  { destruct (C149_report uni stamp addr s rq _ _ H) as [[X _]|(lg' & h' & E & _ & R)].
    - exfalso. apply (X h). apply in_or_app. right. right. left. reflexivity.
    - assert (h = h') as <-.
      { change [EvLookup (rq_method rq) (rq_path rq); EvPipeline h] with ([EvLookup (rq_method rq) (rq_path rq)] ++ [EvPipeline h]) in E.
        change [EvLookup (rq_method rq) (rq_path rq); EvPipeline h'] with ([EvLookup (rq_method rq) (rq_path rq)] ++ [EvPipeline h']) in E.
        rewrite !app_assoc in E. apply app_inj_tail in E as [_ E]. injection E as <-. reflexivity. }
      rewrite R, F, <- !app_assoc. reflexivity. }
  assert (K : ~ In lf text -> lines (reports uni stamp addr s rq) = [stamp ++ B"[" ++ addr ++ B"] " ++ text]).
  { intros Nt. rewrite R. change [ch 10] with (lf :: []). rewrite lines_app; [reflexivity|]. intros X.
    apply in_app_or in X as [X|X]; [exact (Ns X)|]. apply in_app_or in X as [X|X]; [vm_compute in X; intuition discriminate|].
    apply in_app_or in X as [X|X]; [exact (Na X)|]. apply in_app_or in X as [X|X]; [vm_compute in X; intuition discriminate|exact (Nt X)]. }
  split; [|exact K]. split; [|intros Nt; rewrite (K Nt); reflexivity].
  intros L X. rewrite R in L. apply in_split in X as (t1 & t2 & E).
  assert (M : forall p q, length (lines (p ++ lf :: q)) = length (lines (p ++ [lf])) + length (lines q)).
  { clear. induction p as [|c p IH]; intros q; [reflexivity|]. cbn [app lines]. destruct (Ascii.eqb c (ch 10)); [cbn [length]; rewrite IH; reflexivity|].
    specialize (IH q). assert (Z : lines (p ++ [lf]) <> []) by (clear; destruct p as [|d p]; [discriminate|]; cbn [app lines]; destruct (Ascii.eqb d (ch 10)); [discriminate|]; destruct (lines (p ++ [lf])); discriminate).
    assert (Z' : lines (p ++ lf :: q) <> []) by (clear; destruct p as [|d p]; [discriminate|]; cbn [app lines]; destruct (Ascii.eqb d (ch 10)); [discriminate|]; destruct (lines (p ++ lf :: q)); discriminate).
    destruct (lines (p ++ lf :: q)); [congruence|]. destruct (lines (p ++ [lf])); [congruence|]. exact IH. }
  assert (P : forall p, 1 <= length (lines (p ++ [lf]))).
  { clear. intros p. destruct p as [|d p]; [cbn; lia|]. cbn [app lines]. destruct (Ascii.eqb d (ch 10)); [cbn; lia|]. destruct (lines (p ++ [lf])); cbn; lia. }
  replace ((stamp ++ B"[" ++ addr ++ B"] " ++ text) ++ [ch 10]) with ((stamp ++ B"[" ++ addr ++ B"] " ++ t1) ++ lf :: (t2 ++ [lf])) in L by (rewrite E, <- !app_assoc; reflexivity).
  rewrite M in L. pose proof (P (stamp ++ B"[" ++ addr ++ B"] " ++ t1)). pose proof (P t2). lia.
Qed.

(** ** Non-vacuity: goroutines and handlers both fail, no last handler; then the last handler swallows it; then an ordinary 404 *)
Definition ex_boom : err := EUser 1 (B"boom").
Definition ex_main : main_handler := Main (B"m") (fun _ => ([], HRet None)) (fun _ => ([AGo (Some (EUser 2 (B"late")))], HRet (Some ex_boom))).
Definition ex_with (l : option last_handler) : server := Server (Some new_auth) (fun _ _ => Some (HSet [] [] l (Some ex_main))) None 5%Z (fun l => l).
Example C149_example :
  let rq := Request (B"GET") (B"/p") [] in let log s := reports (fun b => b) (B"T ") (B"1.2.3.4:5") s rq in
  log (ex_with None) = B"T [1.2.3.4:5] late: boom" ++ [ch 10] /\
  log (ex_with (Some (Last (B"l") (fun _ _ => ([], HRet None))))) = [] /\
  log ex_server = B"T [1.2.3.4:5] path '/p' not found" ++ [ch 10] /\
  log (Server (Some new_auth) (fun _ _ => Some (HSet [] [] None (Some ex_main))) (Some (fun _ => ([], HRet (Some ex_boom)))) 5%Z (fun l => l)) = B"T [1.2.3.4:5] path '/p': boom" ++ [ch 10].
Proof. vm_compute. auto. Qed.
Example C150_example :
  let rq := Request (B"GET") (B"/p") [] in
  exists h, serve_http (fun b => b) ex_server rq = ([] ++ [EvLookup (rq_method rq) (rq_path rq); EvPipeline h], Ok tt) /\
    final_error (rq_path rq) (x_calls h) = Some (B"path '/p' not found") /\ ~ In lf (B"path '/p' not found").
Proof. cbv zeta. eexists. split; [vm_compute; reflexivity|]. split; [vm_compute; reflexivity|]. vm_compute. intuition discriminate. Qed.
Print Assumptions C149_report.
Print Assumptions C149_no_route.
Print Assumptions C149_silent_iff.
Print Assumptions C150_forged_line.
Print Assumptions C150_lines_refuted.
Print Assumptions C150_lines_partial.
