(** Proofs about M_Group: limits, termination, progress. *)
From Verif Require Import Base GoErrors M_Pipeline M_Group S_Group P_Group P_Group2 P_Group3.

(** ** Limits *)
Section Lim.
Variables (s : gset) (ses : option prog) (path : bytes).
Notation areach := (areach s ses path).
Notation astep := (astep s ses path).
Lemma limits_tail : forall x tr, limits_idle (x :: tr) -> limits_idle tr.
Proof. intros x tr H post w z pre ->. apply (H (x :: post) w z pre). reflexivity. Qed.
Lemma limits_head : forall w z tr, limits_idle ((w, ELimit z) :: tr) -> ended tr = started tr.
Proof. intros w z tr H. apply (H [] w z tr). reflexivity. Qed.
Definition sem_of (tr : log) : option (nat * nat) :=
  match limit tr with None => None | Some n => Some (n, started tr - ended tr) end.
Lemma books_le : forall y, books y -> ended (y_trace y) <= started (y_trace y).
Proof.
  intros y (L & C & _). rewrite <- L, <- C. clear L C. induction (y_gos y) as [|g gs IH]; cbn [filter length]; [lia|].
  destruct (is_ended g); cbn [length]; lia.
Qed.
Lemma sem_pstep : forall idle h q e h' o q' tr w, pstep idle h q e h' o q' -> ended tr <= started tr ->
  (limits_idle tr -> h_sem h = sem_of tr) -> limits_idle ((w, e) :: tr) -> h_sem h' = sem_of ((w, e) :: tr).
Proof.
  intros idle h q e h' o q' tr w P Le IH L. specialize (IH (limits_tail _ _ L)). unfold sem_of in *.
  assert (St : started ((w, e) :: tr) = (if is_go (w, e) then 1 else 0) + started tr) by (unfold started; cbn [filter]; destruct (is_go (w, e)); reflexivity).
  assert (En : ended ((w, e) :: tr) = (if is_gone (w, e) then 1 else 0) + ended tr) by (unfold ended; cbn [filter]; destruct (is_gone (w, e)); reflexivity).
  rewrite St, En. clear St En. destruct P; cbn [limit is_go is_gone snd plus] in *; try exact IH.
  - destruct m as [?|? ?|[?|]]; exact IH.
  - destruct a; exact IH.
  - rewrite H in IH. destruct (limit tr); [discriminate|exact H].
  - rewrite H in IH. destruct (limit tr); [|discriminate]. injection IH as -> ->. cbn [h_sem set_sem]. do 2 f_equal. lia.
  - rewrite H in IH. destruct (limit tr); [discriminate|exact H].
  - rewrite H in IH. destruct (limit tr); [|discriminate]. injection IH as -> ->. cbn [h_sem set_sem]. do 2 f_equal. lia.
  - rewrite (proj2 (Z.ltb_lt z 0) H). reflexivity.
  - rewrite (proj2 (Z.ltb_ge z 0) H). apply limits_head in L. cbn [h_sem set_sem]. do 2 f_equal. lia.
Qed.
Lemma sem_areach : forall y p, areach y p -> limits_idle (y_trace y) -> h_sem (y_sh y) = sem_of (y_trace y).
Proof.
  intros y p A. induction A as [|y p y' p' A IH St]; [reflexivity|].
  pose proof (books_le _ (books_areach _ _ _ _ _ A)) as Le.
  destruct St; cbn [y_trace y_sh] in *; try (eapply sem_pstep; eassumption); intros L; specialize (IH (limits_tail _ _ L)).
  - unfold sem_of in *. cbn [limit]. unfold started, ended. cbn [filter is_go is_gone snd]. fold (started tr) (ended tr).
    rewrite <- IH. unfold record_err. destruct e; [destruct (h_err h)|]; reflexivity.
  - exact IH.
  - unfold sem_of in *. cbn [limit]. rewrite H0 in *. destruct (limit tr); [discriminate|reflexivity].
  - unfold sem_of in *. cbn [limit]. rewrite H0 in *. destruct (limit tr); [|discriminate]. injection IH as -> E.
    cbn [h_sem set_sem]. do 2 f_equal. unfold started, ended in *. cbn [filter is_go is_gone snd length]. lia.
  - exact IH.
Qed.
Lemma sem_bound : forall y p, areach y p -> forall cap n, h_sem (y_sh y) = Some (cap, n) -> n <= cap.
Proof.
  intros y p A. induction A as [|y p y' p' A IH St]; [discriminate|].
  assert (K : forall idle h q e h' o q', pstep idle h q e h' o q' -> (forall cap n, h_sem h = Some (cap, n) -> n <= cap) ->
     forall cap n, h_sem h' = Some (cap, n) -> n <= cap).
  { intros idle h q e h' o q' P Hh cap n E. destruct P; cbn [h_sem set_sem set_group set_flags set_cancel crash] in *; try (eapply Hh; eassumption).
    - destruct m as [?|? ?|[?|]]; eapply Hh; exact E.
    - destruct a; eapply Hh; exact E.
    - injection E as <- <-. lia.
    - injection E as <- <-. lia.
    - discriminate.
    - injection E as <- <-. lia. }
  destruct St; cbn [y_sh] in *; try (eapply K; eassumption); try assumption; intros c k E.
  - eapply IH. unfold record_err in E. destruct e; [destruct (h_err h)|]; exact E.
  - cbn [h_sem set_sem] in E. injection E as <- <-. specialize (IH _ _ H0). lia.
Qed.
End Lim.

(** ** Termination *)
Inductive item := IShut | IGor (g : gor).
Inductive child : item -> item -> Prop :=
| ch_mark : forall m k, child (IGor (Run (Mark m k))) (IGor (Run k))
| ch_act : forall a k, child (IGor (Run (Act a k))) (IGor (Run k))
| ch_look : forall k x, child (IGor (Run (Look k))) (IGor (Run (k x)))
| ch_done : forall k x, child (IGor (Run (Done k))) (IGor (Run (k x)))
| ch_await : forall k, child (IGor (Run (Await k))) (IGor (Run k))
| ch_go : forall b k, child (IGor (Run (Go b k))) (IGor (Run k))
| ch_go_body : forall b k, child (IGor (Run (Go b k))) (IGor (Run b))
| ch_try : forall b k x, child (IGor (Run (TryGo b k))) (IGor (Run (k x)))
| ch_try_body : forall b k, child (IGor (Run (TryGo b k))) (IGor (Run b))
| ch_limit : forall n k, child (IGor (Run (Limit n k))) (IGor (Run k))
| ch_wait : forall k x, child (IGor (Run (Wait k))) (IGor (Run (k x)))
| ch_leaving : forall o, child (IGor (Run (Ret o))) (IGor Leaving)
| ch_ended : child (IGor Leaving) (IGor Ended).
Definition red (l' l : list item) : Prop :=
  exists p rest cs, Permutation l (p :: rest) /\ Permutation l' (cs ++ rest) /\ Forall (child p) cs.
Lemma acc_perm : forall l l', Permutation l l' -> Acc red l -> Acc red l'.
Proof.
  intros l l' P A. destruct A as [A]. constructor. intros z (p & rest & cs & P1 & P2 & F). apply A.
  exists p, rest, cs. split; [|auto]. transitivity l'; assumption.
Qed.
Lemma acc_app : forall a, Acc red a -> forall b, Acc red b -> Acc red (a ++ b).
Proof.
  intros a Aa. induction Aa as [a Ha IHa]. intros b Ab. induction Ab as [b Hb IHb].
  constructor. intros z (p & rest & cs & P1 & P2 & F).
  assert (I : In p (a ++ b)) by (eapply Permutation_in; [symmetry; exact P1|left; reflexivity]).
  apply in_app_or in I. destruct I as [I|I]; apply in_split in I; destruct I as (x & t & ->).
  - assert (R : red (cs ++ x ++ t) (x ++ p :: t)).
    { exists p, (x ++ t), cs. split; [symmetry; apply Permutation_middle|]. split; [reflexivity|exact F]. }
    eapply acc_perm; [|apply (IHa _ R b)]; [|constructor; exact Hb].
    rewrite P2, <- !app_assoc. apply Permutation_app_head.
    assert (P3 : Permutation (p :: x ++ t ++ b) (p :: rest)).
    { rewrite <- P1, <- app_assoc. cbn [app]. apply Permutation_middle. }
    symmetry. apply Permutation_cons_inv in P3. symmetry. exact P3.
  - assert (R : red (cs ++ x ++ t) (x ++ p :: t)).
    { exists p, (x ++ t), cs. split; [symmetry; apply Permutation_middle|]. split; [reflexivity|exact F]. }
    eapply acc_perm; [|apply (IHb _ R)]. rewrite P2.
    assert (P3 : Permutation (p :: a ++ x ++ t) (p :: rest)).
    { rewrite <- P1. rewrite !app_assoc. apply Permutation_middle. }
    apply Permutation_cons_inv in P3. rewrite <- P3. rewrite !app_assoc. apply Permutation_app_tail. apply Permutation_app_tail. apply Permutation_app_comm.
Qed.
Lemma acc_nil : Acc red [].
Proof. constructor. intros z (p & rest & cs & P & _). apply Permutation_nil in P. discriminate. Qed.
Lemma acc_single : forall i, (forall c, child i c -> Acc red [c]) -> Acc red [i].
Proof.
  intros i H. constructor. intros z (p & rest & cs & P1 & P2 & F).
  apply Permutation_length_1_inv in P1. injection P1 as -> ->. rewrite app_nil_r in P2.
  eapply acc_perm; [symmetry; exact P2|]. clear P2. induction F as [|c cs C F IH]; [apply acc_nil|].
  apply (acc_app [c]); auto.
Qed.
Lemma acc_ended : Acc red [IGor Ended].
Proof. apply acc_single. intros c C. inversion C. Qed.
Lemma acc_leaving : Acc red [IGor Leaving].
Proof. apply acc_single. intros c C. inversion C. apply acc_ended. Qed.
Lemma acc_run : forall p, Acc red [IGor (Run p)].
Proof.
  induction p; apply acc_single; intros c C; inversion C; subst; auto. apply acc_leaving.
Qed.
Lemma acc_gor : forall g, Acc red [IGor g].
Proof. intros [p| |]; [apply acc_run|apply acc_leaving|apply acc_ended]. Qed.
Lemma acc_all : forall l, Acc red l.
Proof.
  induction l as [|i l IH]; [apply acc_nil|]. apply (acc_app [i]); [|exact IH]. destruct i as [|g]; [|apply acc_gor].
  apply acc_single. intros c C. inversion C.
Qed.
Definition items (y : sys) : list item :=
  (if h_server (y_sh y) then [] else [IShut]) ++ IGor (Run (y_main y)) :: map IGor (y_gos y).
Lemma pstep_child : forall idle h q e h' o q', pstep idle h q e h' o q' ->
  child (IGor (Run q)) (IGor (Run q')) /\ (forall b, o = Some b -> child (IGor (Run q)) (IGor (Run b))) /\ h_server h' = h_server h.
Proof.
  intros idle h q e h' o q' P. destruct P; (split; [constructor|]; split; [intros ? E; inversion E; subst; constructor|]); try reflexivity.
  - destruct m as [?|? ?|[?|]]; reflexivity.
  - destruct a; reflexivity.
Qed.
Lemma step_red : forall y y', step y y' -> h_crashed (y_sh y') = false -> red (items y') (items y).
Proof.
  intros y y' St Hc. destruct St; unfold items; cbn [y_sh y_main y_gos] in *.
  - destruct (pstep_child _ _ _ _ _ _ _ H0) as (C & Cb & ->). set (sh := if h_server h then [] else [IShut]).
    exists (IGor (Run p)), (sh ++ map IGor gs), (IGor (Run p') :: match o with Some b => [IGor (Run b)] | None => [] end).
    split; [symmetry; apply Permutation_middle|]. split.
    + destruct o as [b|]; cbn [add]; [rewrite map_app|]; cbn [map app].
      * rewrite <- (Permutation_middle sh). apply perm_skip. rewrite (app_assoc sh). symmetry. apply Permutation_cons_append.
      * symmetry. apply Permutation_middle.
    + constructor; [exact C|]. destruct o; constructor; auto.
  - destruct (pstep_child _ _ _ _ _ _ _ H0) as (C & Cb & ->). set (sh := if h_server h then [] else [IShut]).
    exists (IGor (Run q)), (sh ++ IGor (Run p) :: map IGor g1 ++ map IGor g2), (IGor (Run q') :: match o with Some b => [IGor (Run b)] | None => [] end).
    assert (M : forall x : item, Permutation (sh ++ IGor (Run p) :: map IGor g1 ++ x :: map IGor g2) (x :: sh ++ IGor (Run p) :: map IGor g1 ++ map IGor g2)).
    { intros x. symmetry. change (IGor (Run p) :: map IGor g1 ++ map IGor g2) with ((IGor (Run p) :: map IGor g1) ++ map IGor g2).
      rewrite app_assoc. rewrite (Permutation_middle _ _ x). rewrite <- app_assoc. reflexivity. }
    split; [rewrite map_app; cbn [map]; apply M|]. split.
    + destruct o as [b|]; cbn [add]; rewrite ?map_app; cbn [map app].
      * change (IGor (Run p) :: (map IGor g1 ++ IGor (Run q') :: map IGor g2) ++ [IGor (Run b)])
          with ((IGor (Run p) :: map IGor g1 ++ IGor (Run q') :: map IGor g2) ++ [IGor (Run b)]).
        rewrite app_assoc. rewrite <- Permutation_cons_append. rewrite M. apply perm_swap.
      * apply M.
    + constructor; [exact C|]. destruct o; constructor; auto.
  - assert (Es : h_server (record_err e h) = h_server h) by (unfold record_err; destruct e; [destruct (h_err h)|]; reflexivity).
    rewrite Es. set (sh := if h_server h then [] else [IShut]). rewrite !map_app. cbn [map].
    exists (IGor (Run (Ret (HRet e)))), (sh ++ IGor (Run p) :: map IGor g1 ++ map IGor g2), [IGor Leaving].
    assert (M : forall x : item, Permutation (sh ++ IGor (Run p) :: map IGor g1 ++ x :: map IGor g2) (x :: sh ++ IGor (Run p) :: map IGor g1 ++ map IGor g2)).
    { intros x. symmetry. change (IGor (Run p) :: map IGor g1 ++ map IGor g2) with ((IGor (Run p) :: map IGor g1) ++ map IGor g2).
      rewrite app_assoc. rewrite (Permutation_middle _ _ x). rewrite <- app_assoc. reflexivity. }
    split; [apply M|]. split; [apply M|]. constructor; constructor.
  - discriminate.
  - set (sh := if h_server h then [] else [IShut]). rewrite !map_app. cbn [map].
    exists (IGor Leaving), (sh ++ IGor (Run p) :: map IGor g1 ++ map IGor g2), [IGor Ended].
    assert (M : forall x : item, Permutation (sh ++ IGor (Run p) :: map IGor g1 ++ x :: map IGor g2) (x :: sh ++ IGor (Run p) :: map IGor g1 ++ map IGor g2)).
    { intros x. symmetry. change (IGor (Run p) :: map IGor g1 ++ map IGor g2) with ((IGor (Run p) :: map IGor g1) ++ map IGor g2).
      rewrite app_assoc. rewrite (Permutation_middle _ _ x). rewrite <- app_assoc. reflexivity. }
    split; [apply M|]. split; [apply M|]. constructor; constructor.
  - cbn [h_server set_sem]. set (sh := if h_server h then [] else [IShut]). rewrite !map_app. cbn [map].
    exists (IGor Leaving), (sh ++ IGor (Run p) :: map IGor g1 ++ map IGor g2), [IGor Ended].
    assert (M : forall x : item, Permutation (sh ++ IGor (Run p) :: map IGor g1 ++ x :: map IGor g2) (x :: sh ++ IGor (Run p) :: map IGor g1 ++ map IGor g2)).
    { intros x. symmetry. change (IGor (Run p) :: map IGor g1 ++ map IGor g2) with ((IGor (Run p) :: map IGor g1) ++ map IGor g2).
      rewrite app_assoc. rewrite (Permutation_middle _ _ x). rewrite <- app_assoc. reflexivity. }
    split; [apply M|]. split; [apply M|]. constructor; constructor.
  - cbn [h_server set_server]. rewrite H0. exists IShut, (IGor (Run p) :: map IGor gs), []. split; [reflexivity|]. split; [reflexivity|constructor].
Qed.
Lemma step_uncrashed : forall y y', step y y' -> h_crashed (y_sh y) = false.
Proof. intros y y' St. destruct St; assumption. Qed.
Theorem step_acc : forall y, Acc (fun y' y => step y y') y.
Proof.
  assert (K : forall l, Acc red l -> forall y, items y = l -> Acc (fun y' y => step y y') y).
  { intros l A. induction A as [l _ IH]. intros y E. constructor. intros y' St.
    destruct (h_crashed (y_sh y')) eqn:Hc.
    - constructor. intros z St'. apply step_uncrashed in St'. congruence.
    - eapply IH; [|reflexivity]. rewrite <- E. apply step_red; assumption. }
  intros y. eapply K; [apply acc_all|reflexivity].
Qed.
Theorem no_endless_run : forall f : nat -> sys, ~ forall n, step (f n) (f (S n)).
Proof.
  intros f H. assert (K : forall y, Acc (fun y' y => step y y') y -> forall n, f n = y -> False).
  { intros y A. induction A as [y _ IH]. intros n E. apply (IH (f (S n))) with (n := S n); [rewrite <- E; apply H|reflexivity]. }
  exact (K (f 0) (step_acc _) 0 eq_refl).
Qed.

(** ** Progress *)
Lemma prog_progress : forall idle h p,
  (exists o, p = Ret o) \/ (exists e h' o p', pstep idle h p e h' o p' /\ e <> EShutdown) \/
  (exists k, p = Await k /\ ctx_done h = false) \/
  (exists b k cap n, p = Go b k /\ h_sem h = Some (cap, n) /\ cap <= n) \/
  (exists k, p = Wait k /\ idle = false).
Proof.
  intros idle h p. destruct p as [o|m k|a k|k|k|k|b k|b k|z k|k].
  - left. eauto.
  - right; left. do 4 eexists. split; [apply P_mark|discriminate].
  - right; left. do 4 eexists. split; [apply P_act|discriminate].
  - right; left. do 4 eexists. split; [apply P_look|discriminate].
  - right; left. do 4 eexists. split; [apply P_done|discriminate].
  - destruct (ctx_done h) eqn:E.
    + right; left. do 4 eexists. split; [apply P_await; exact E|discriminate].
    + right; right; left. eauto.
  - destruct (h_sem h) as [[cap n]|] eqn:E.
    + destruct (Nat.ltb_spec n cap).
      * right; left. do 4 eexists. split; [eapply P_go_token; eassumption|discriminate].
      * right; right; right; left. exists b, k, cap, n. auto.
    + right; left. do 4 eexists. split; [apply P_go; exact E|discriminate].
  - right; left. destruct (h_sem h) as [[cap n]|] eqn:E.
    + destruct (Nat.ltb_spec n cap).
      * do 4 eexists. split; [eapply P_try_token; eassumption|discriminate].
      * do 4 eexists. split; [eapply P_try_full; eassumption|discriminate].
    + do 4 eexists. split; [apply P_try; exact E|discriminate].
  - right; left. destruct (Z.ltb_spec z 0).
    + do 4 eexists. split; [apply P_unlimit; assumption|discriminate].
    + destruct (h_sem h) as [[cap [|n]]|] eqn:E.
      * do 4 eexists. split; [apply P_limit; [assumption|intros c x Ec; congruence]|discriminate].
      * do 4 eexists. split; [eapply P_limit_panic; eassumption|discriminate].
      * do 4 eexists. split; [apply P_limit; [assumption|congruence]|discriminate].
  - destruct idle eqn:E.
    + right; left. do 4 eexists. split; [apply P_wait; reflexivity|discriminate].
    + right; right; right; right. eauto.
Qed.
Definition gor_simple (g : gor) : Prop := match g with Run p => simple p | _ => True end.
Lemma simple_step : forall idle h q e h' o q', pstep idle h q e h' o q' -> simple q -> simple q' /\ (forall b, o = Some b -> simple b).
Proof.
  intros idle h q e h' o q' P S. destruct P; cbn [simple] in S; try (now destruct S); try destruct S as [Sb Sk];
    (split; [auto|try congruence; intros x E; injection E as <-; assumption]).
Qed.
Lemma starts_step : forall idle h q e h' o q', pstep idle h q e h' o q' -> starts_simple q -> starts_simple q' /\ (forall b, o = Some b -> simple b).
Proof.
  intros idle h q e h' o q' P S. destruct P; cbn [starts_simple] in S; try destruct S as [Sb Sk];
    (split; [auto|try congruence; intros x E; injection E as <-; assumption]).
Qed.
Lemma starts_bind : forall q f, starts_simple q -> (forall o, starts_simple (f o)) -> starts_simple (bind q f).
Proof. induction q; intros f S F; cbn [bind starts_simple] in *; auto; try (destruct S as [Sb Sk]; split; auto). Qed.
Lemma starts_call : forall w p k, starts_simple p -> (forall o, starts_simple (k o)) -> starts_simple (M_Group.call w p k).
Proof. intros. unfold M_Group.call. cbn [starts_simple]. apply starts_bind; [assumption|]. intros o. cbn. auto. Qed.
Lemma starts_checked : forall k c o, (forall r, starts_simple (k r)) -> starts_simple c -> starts_simple (checked k c o).
Proof. intros k c o K C. unfold checked. destruct o as [[e|]|]; auto. cbn. intros f. destruct (_ || _); auto. Qed.
Lemma starts_list : forall hs mk i k c, Forall starts_simple hs -> (forall r, starts_simple (k r)) -> starts_simple c -> starts_simple (list_run mk i hs k c).
Proof.
  induction hs as [|h hs IH]; intros mk i k c F K C; [exact C|]. inversion F; subst. cbn [list_run].
  apply starts_call; [assumption|]. intros o. apply starts_checked; [exact K|]. apply IH; assumption.
Qed.
Lemma starts_body : forall s ses, simple_request s ses -> starts_simple (body s).
Proof.
  intros s ses M. assert (F : forall r, starts_simple (kfin s r)).
  { intros [e|]; [|exact I]. cbn [kfin starts_simple]. intros f. destruct (f_aborted f); [exact I|]. cbn [starts_simple]. intros g.
    destruct (gs_last s) as [l|] eqn:E; [|exact I]. apply starts_call; [apply (m_last _ _ M l E)|]. intros o. destruct o; exact I. }
  rewrite body_eq. unfold set_run. destruct (gs_main s) as [[i m]|] eqn:E; [|apply F].
  destruct (m_main _ _ M i m E) as [Mi Mm]. apply starts_call; [exact Mi|]. intros [[e|]|]; try apply F.
  apply starts_list; [apply (m_before _ _ M)|exact F|]. cbn [starts_simple]. intros f.
  assert (A : starts_simple (list_run WAfter 0 (gs_after s) (kfin s) (kfin s (RRet None)))) by (apply starts_list; [apply (m_after _ _ M)|exact F|apply F]).
  destruct (f_skip f); [exact A|]. apply starts_call; [exact Mm|]. intros o. apply starts_checked; assumption.
Qed.
Lemma starts_request : forall s ses path, simple_request s ses -> starts_simple (request s ses path).
Proof.
  intros s ses path M. unfold request. destruct ses as [p|] eqn:E; [|apply (starts_body _ None M)].
  apply starts_call; [apply (m_ses _ _ M); reflexivity|]. intros [[e|]|]; try exact I. apply (starts_body _ (Some p) M).
Qed.
Lemma simple_areach : forall s ses path y, simple_request s ses -> reaches s ses path y -> starts_simple (y_main y) /\ Forall gor_simple (y_gos y).
Proof.
  intros s ses path y M R. induction R as [|y y' R [IH F] St].
  - split; [apply starts_request; exact M|constructor].
  - assert (K : forall o gs, (forall b, o = Some b -> simple b) -> Forall gor_simple gs -> Forall gor_simple (add o gs)).
    { intros [b|] gs Hb G; cbn [add]; [|exact G]. apply Forall_app. split; [exact G|]. constructor; [cbn; auto|constructor]. }
    assert (Mid : forall g1 g g' g2, (gor_simple g -> gor_simple g') -> Forall gor_simple (g1 ++ g :: g2) -> Forall gor_simple (g1 ++ g' :: g2)).
    { intros g1 g g' g2 H G. apply Forall_app in G. destruct G as [G1 G2]. inversion G2; subst. apply Forall_app. split; [assumption|]. constructor; auto. }
    destruct St; cbn [y_main y_gos] in *.
    + destruct (starts_step _ _ _ _ _ _ _ H0 IH). auto.
    + split; [exact IH|]. assert (Sq : simple q) by (apply Forall_app in F; destruct F as [_ F]; inversion F; assumption).
      destruct (simple_step _ _ _ _ _ _ _ H0 Sq) as [S1 S2]. apply K; [exact S2|]. eapply Mid; [|exact F]. cbn. auto.
    + split; [exact IH|]. eapply Mid; [|exact F]. cbn. auto.
    + auto.
    + split; [exact IH|]. eapply Mid; [|exact F]. cbn. auto.
    + split; [exact IH|]. eapply Mid; [|exact F]. cbn. auto.
    + auto.
Qed.
