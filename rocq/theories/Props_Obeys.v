(** C146: the handlers of concurrently served requests do what they were written to do. *)
From Verif Require Import Base GoErrors GoSlices P_Slices M_Tree M_RegTree M_Ctx M_Pipeline S_Pipeline M_Auth S_Route M_Serve S_Serve P_Serve P_Serve2 P_Serve3 Props_Tree Props_Serve S_Obeys.

Section Proofs.
  Context {V : Type}.
  Variables (matches : rgx -> bytes -> bool) (uni : bytes -> bytes) (auth : option base_auth)
            (ses : option (prog V)) (lvl : Z).
  Notation treq := (treq matches uni auth ses lvl).
  Notation ymany := (ymany matches uni auth ses lvl).
  Notation served := (served matches uni auth ses lvl).
  Notation alone := (alone matches uni auth ses lvl).
  Notation found := (found ses lvl).
  Notation ended := (ended lvl).
  Notation enter := (enter lvl).
  Notation shows := (shows ses lvl).
  Notation obeys := (obeys ses lvl).
  Notation code := (code ses).
  Notation story := (story ses lvl).
  Notation names := (names ses lvl).
  Implicit Types (th : thread V) (y : sys V) (t : table V) (l : loc V) (tr : list (event V)) (s : iset V).

  Lemma obeys_app pre p es q : obeys pre p es q -> forall es2 q2, obeys (pre ++ es) q es2 q2 -> obeys pre p (es ++ es2) q2.
  Proof.
    induction 1; intros es2 q2 X; cbn [app].
    - rewrite app_nil_r in X. exact X.
    - eapply B_look; [eassumption|]. apply IHobeys. exact X.
    - constructor. apply IHobeys. rewrite <- app_assoc. exact X.
    - constructor. apply IHobeys. rewrite <- app_assoc. exact X.
    - constructor. apply IHobeys. rewrite <- app_assoc. exact X.
    - constructor. apply IHobeys. rewrite <- app_assoc. exact X.
    - constructor. apply IHobeys. rewrite <- app_assoc. exact X.
    - constructor. apply IHobeys. rewrite <- app_assoc. exact X.
    - constructor. apply IHobeys. rewrite <- app_assoc. exact X.
    - constructor. apply IHobeys. rewrite <- app_assoc. exact X.
  Qed.

  Lemma in_snoc (x e : event V) tr : In x (tr ++ [e]) <-> In x tr \/ e = x.
  Proof. rewrite in_app_iff. cbn [In]. tauto. Qed.
  Lemma names_snoc tr e : names (tr ++ [e]) = names1 lvl (names tr) e.
  Proof. unfold S_Obeys.names. rewrite fold_left_app. reflexivity. Qed.
  Lemma results_snoc tr e : results (tr ++ [e]) = results tr ++ match e with VAct (AGo r) => [r] | _ => [] end.
  Proof. unfold results. rewrite flat_map_app. cbn [flat_map]. rewrite app_nil_r. reflexivity. Qed.
  (** events that change nothing *)
  Lemma shows_same tr c e : shows tr c -> (forall a, e <> VAct a) -> (forall eg, e <> VWait eg) -> (forall w n, e <> VStart w n) -> (forall w o, e <> VEnd w o) ->
    shows (tr ++ [e]) c.
  Proof.
    intros [A1 A2 A3 A4 A5 A6 A7] H1 H2 H3 H4. 
    assert (N : names (tr ++ [e]) = names tr) by (rewrite names_snoc; destruct e; try reflexivity; exfalso; [eapply H3|eapply H4|eapply H1]; reflexivity).
    assert (R : results (tr ++ [e]) = results tr) by (rewrite results_snoc; destruct e; try apply app_nil_r; exfalso; eapply H1; reflexivity).
    constructor; rewrite ?in_snoc, ?N, ?R; auto.
    - rewrite A1. split; [auto|]. intros [X|X]; [exact X|]. exfalso. exact (H1 _ X).
    - rewrite A2. split; [auto|]. intros [X|X]; [exact X|]. exfalso. exact (H1 _ X).
    - rewrite A3. split; [auto|]. intros [X|X]; [exact X|]. exfalso. exact (H1 _ X).
    - rewrite A4. split; [intros [X|[eg X]]; [auto|right; exists eg; apply in_snoc; auto]|].
      intros [[X|X]|[eg X]]; [auto|exfalso; exact (H1 _ X)|]. apply in_snoc in X as [X|X]; [right; eauto|exfalso; exact (H2 _ X)].
  Qed.
  Lemma shows_act tr c a : shows tr c -> shows (tr ++ [VAct a]) (apply1 c a).
  Proof.
    intros [A1 A2 A3 A4 A5 A6 A7].
    assert (W : forall eg, In (VWait eg) (tr ++ [VAct a]) <-> In (VWait eg) tr) by (intros eg; rewrite in_snoc; split; [intros [X|X]; [exact X|discriminate X]|auto]).
    assert (W' : (exists eg, In (VWait eg) (tr ++ [VAct a])) <-> exists eg, In (VWait eg) tr) by (split; intros [eg X]; exists eg; apply W; exact X).
    destruct a as [| | |r|z]; constructor; cbn [apply1 c_stopped c_aborted c_skip c_cancelled c_level c_log c_tasks]; rewrite ?in_snoc, ?W', ?names_snoc, ?results_snoc, ?app_nil_r;
      cbn [names1 fst snd]; auto; try congruence;
      try (rewrite A1); try (rewrite A2); try (rewrite A3); try (rewrite A4); split; auto; try (intros [X|X]; [auto|discriminate X]); try (intros [[X|X]|X]; [auto|discriminate X|auto]).
    all: intros [X|X]; auto.
  Qed.
  Lemma shows_start tr c w n : shows tr c -> is_stage w = true -> shows (tr ++ [VStart w n]) (add_debug c n).
  Proof.
    intros [A1 A2 A3 A4 A5 A6 A7] Hw.
    assert (K : forall b, (c_stopped c = b -> c_stopped (add_debug c n) = b) /\ (c_aborted c = b -> c_aborted (add_debug c n) = b) /\
      (c_skip c = b -> c_skip (add_debug c n) = b) /\ (c_cancelled c = b -> c_cancelled (add_debug c n) = b)) by (unfold add_debug; destruct (5 <=? c_level c)%Z; auto).
    assert (Eqs : c_stopped (add_debug c n) = c_stopped c /\ c_aborted (add_debug c n) = c_aborted c /\ c_skip (add_debug c n) = c_skip c /\
      c_cancelled (add_debug c n) = c_cancelled c /\ c_level (add_debug c n) = c_level c /\ c_tasks (add_debug c n) = c_tasks c /\
      c_log (add_debug c n) = if (5 <=? c_level c)%Z then c_log c ++ [n] else c_log c).
    { unfold add_debug. destruct (5 <=? c_level c)%Z; repeat split. }
    destruct Eqs as (E1 & E2 & E3 & E4 & E5 & E6 & E7). clear K.
    assert (Nn : names (tr ++ [VStart w n]) = (fst (names tr), if (5 <=? fst (names tr))%Z then snd (names tr) ++ [n] else snd (names tr))).
    { rewrite names_snoc. destruct w; try discriminate Hw; reflexivity. }
    constructor; rewrite ?E1, ?E2, ?E3, ?E4, ?E5, ?E6, ?E7, ?Nn, ?results_snoc, ?app_nil_r, ?in_snoc; cbn [fst snd]; auto.
    - rewrite A1. split; [auto|]. intros [X|X]; [exact X|discriminate X].
    - rewrite A2. split; [auto|]. intros [X|X]; [exact X|discriminate X].
    - rewrite A3. split; [auto|]. intros [X|X]; [exact X|discriminate X].
    - rewrite A4. split; [intros [X|[eg X]]; [auto|right; exists eg; apply in_snoc; auto]|].
      intros [[X|X]|[eg X]]; [auto|discriminate X|]. apply in_snoc in X as [X|X]; [right; eauto|discriminate X].
    - rewrite <- A5, <- A6. reflexivity.
  Qed.
  Lemma shows_plain tr c e : shows tr c ->
    match e with VEnd w _ => w <> WSesInit | VStart w _ => is_stage w = false | _ => False end -> shows (tr ++ [e]) c.
  Proof.
    intros [A1 A2 A3 A4 A5 A6 A7] He.
    assert (N : names (tr ++ [e]) = names tr) by (rewrite names_snoc; destruct e as [w|w| | | | | | | | |]; try contradiction; destruct w; try reflexivity; try contradiction; discriminate He).
    assert (R : results (tr ++ [e]) = results tr) by (rewrite results_snoc; destruct e; try contradiction; apply app_nil_r).
    assert (H1 : forall a, e <> VAct a) by (intros a ->; exact He). assert (H2 : forall eg, e <> VWait eg) by (intros a ->; exact He).
    constructor; rewrite ?in_snoc, ?N, ?R; auto.
    - rewrite A1. split; [auto|]. intros [X|X]; [exact X|]. exfalso. exact (H1 _ X).
    - rewrite A2. split; [auto|]. intros [X|X]; [exact X|]. exfalso. exact (H1 _ X).
    - rewrite A3. split; [auto|]. intros [X|X]; [exact X|]. exfalso. exact (H1 _ X).
    - rewrite A4. split; [intros [X|[eg X]]; [auto|right; exists eg; apply in_snoc; auto]|].
      intros [[X|X]|[eg X]]; [auto|exfalso; exact (H1 _ X)|]. apply in_snoc in X as [X|X]; [right; eauto|exfalso; exact (H2 _ X)].
  Qed.
  Definition releveled c := Ctx (c_stopped c) (c_aborted c) (c_skip c) (c_cancelled c) lvl (c_log c) (c_tasks c).
  Lemma shows_relevel tr c o : shows tr c -> shows (tr ++ [VEnd WSesInit o]) (releveled c).
  Proof.
    intros [A1 A2 A3 A4 A5 A6 A7]. unfold releveled. constructor; cbn [c_stopped c_aborted c_skip c_cancelled c_level c_log c_tasks]; rewrite ?in_snoc, ?names_snoc, ?results_snoc, ?app_nil_r; cbn [names1 fst snd]; auto.
    - rewrite A1. split; [auto|]. intros [X|X]; [exact X|discriminate X].
    - rewrite A2. split; [auto|]. intros [X|X]; [exact X|discriminate X].
    - rewrite A3. split; [auto|]. intros [X|X]; [exact X|discriminate X].
    - rewrite A4. split; [intros [X|[eg X]]; [auto|right; exists eg; apply in_snoc; auto]|].
      intros [[X|X]|[eg X]]; [auto|discriminate X|]. apply in_snoc in X as [X|X]; [right; eauto|discriminate X].
  Qed.
  Lemma shows_wait tr c eg : shows tr c -> shows (tr ++ [VWait eg]) (Ctx (c_stopped c) (c_aborted c) (c_skip c) true (c_level c) (c_log c) (c_tasks c)).
  Proof.
    intros [A1 A2 A3 A4 A5 A6 A7]. constructor; cbn [c_stopped c_aborted c_skip c_cancelled c_level c_log c_tasks]; rewrite ?in_snoc, ?names_snoc, ?results_snoc, ?app_nil_r; cbn [names1 fst snd]; auto.
    - rewrite A1. split; [auto|]. intros [X|X]; [exact X|discriminate X].
    - rewrite A2. split; [auto|]. intros [X|X]; [exact X|discriminate X].
    - rewrite A3. split; [auto|]. intros [X|X]; [exact X|discriminate X].
    - split; [|reflexivity]. intros _. right. exists eg. apply in_snoc. auto.
  Qed.
  Lemma shows_new p : ses = Some p -> shows [] new_ctx.
  Proof.
    intros E. constructor; cbn; rewrite ?E; try reflexivity; split; try discriminate; try (intros []; fail); intros [X|[eg X]]; destruct X.
  Qed.
  Lemma shows_first : ses = None -> shows [] (releveled new_ctx).
  Proof.
    intros E. constructor; cbn; rewrite ?E; try reflexivity; split; try discriminate; try (intros []; fail); intros [X|[eg X]]; destruct X.
  Qed.

  (** ** States of a request *)
  Definition stage_prog (g : stg (V:=V)) : prog V := match g with GInit m => im_init m | GMain m => im_run m | GBefore _ h | GAfter _ h => ih_run h end.
  Definition coded s (g : stg (V:=V)) : Prop := code s (stage_who g) (stage_name g) (stage_prog g).
  Lemma numbered_nth {A} (xs : list A) : forall i j x, In (j, x) (numbered i xs) -> i <= j /\ nth_error xs (j - i) = Some x.
  Proof.
    induction xs as [|a xs IH]; intros i j x H; [destruct H|]. cbn [numbered] in H. destruct H as [E|H].
    - injection E as <- <-. split; [lia|]. rewrite Nat.sub_diag. reflexivity.
    - destruct (IH _ _ _ H) as [L E]. split; [lia|]. replace (j - i) with (S (j - S i)) by lia. exact E.
  Qed.
  Lemma stages_coded s st : stages s = Some st -> Forall (coded s) st.
  Proof.
    unfold stages. destruct (is_main s) as [m|] eqn:Em; [|discriminate]. intros E. injection E as <-.
    constructor; [exists m; auto|]. apply Forall_app. split; [|constructor; [exists m; auto|]].
    - apply Forall_forall. intros g Hg. apply in_map_iff in Hg as ([j h] & <- & Hj). apply numbered_nth in Hj as [_ Hj]. rewrite Nat.sub_0_r in Hj. exists h. auto.
    - apply Forall_forall. intros g Hg. apply in_map_iff in Hg as ([j h] & <- & Hj). apply numbered_nth in Hj as [_ Hj]. rewrite Nat.sub_0_r in Hj. exists h. auto.
  Qed.
  Definition past l := rev (o_trace l).
  Lemma past_see e l : past (see e l) = past l ++ [e]. Proof. reflexivity. Qed.
  Definition running s w (p : prog V) (rest : list (stg (V:=V))) l : Prop :=
    exists pre n p0 es, past l = pre ++ VStart w n :: es /\ story s pre /\ code s w n p0 /\ obeys (pre ++ [VStart w n]) p0 es p /\
      shows (past l) (o_ctl l) /\ Forall (coded s) rest.
  Definition binv th : Prop :=
    match th with
    | TRunning _ s w p rest l => running s w p rest l
    | TWaiting _ s e l => story s (past l) /\ shows (past l) (o_ctl l)
    | _ => True
    end.
  Definition bdone s th : Prop := binv th /\ match th with TDone (Some _) a => story s (an_trace a) | _ => True end.

  Lemma b_finish s id e l u : story s (past l) -> shows (past l) (o_ctl l) -> bdone s (finish id s e l u).
  Proof. intros St Sh. unfold finish. destruct (c_aborted (o_ctl l)); split; cbn [binv]; auto. Qed.
  Lemma b_proceed s id rest l u : story s (past l) -> shows (past l) (o_ctl l) -> Forall (coded s) rest -> bdone s (proceed id s rest l u).
  Proof.
    intros St Sh Hr. unfold proceed. destruct (next rest l) as [[[[w p] r] l']|] eqn:E; [|apply b_finish; assumption].
    split; [|exact I]. cbn [binv].
    assert (K : is_stage w = true /\ (exists n, code s w n p /\ l' = begin w n l) /\ Forall (coded s) r).
    { clear St Sh. induction rest as [|g rest IH]; [discriminate E|]. inversion Hr as [|? ? Hg Hr']; subst. cbn [next] in E.
      destruct g as [m|i h|m|i h]; try (inversion E; subst; split; [reflexivity|]; split; [eexists; split; [exact Hg|reflexivity]|exact Hr']).
      destruct (c_skip (o_ctl l)); [apply IH; assumption|]. inversion E; subst. split; [reflexivity|]. split; [eexists; split; [exact Hg|reflexivity]|exact Hr']. }
    destruct K as (Hw & (n & Hc & ->) & Hr'). exists (past l), n, p, []. unfold begin.
    rewrite past_see. split; [reflexivity|]. split; [exact St|]. split; [exact Hc|]. split; [constructor|]. split; [|exact Hr'].
    cbn [see set_ctl o_ctl]. apply (shows_start (past l) (o_ctl l) w n Sh Hw).
  Qed.
  Lemma b_enter s id l u : story s (past l) -> shows (past l) (releveled (o_ctl l)) -> bdone s (enter id s l u).
  Proof.
    intros St Sh. unfold M_Serve.enter. cbv zeta. destruct (stages s) as [st|] eqn:Es; [|split; exact I].
    apply b_proceed; [exact St|exact Sh|]. apply stages_coded. exact Es.
  Qed.
  Lemma b_found s id u : bdone s (found id s u).
  Proof.
    unfold M_Serve.found. destruct ses as [p|] eqn:E.
    - split; [|exact I]. cbn [binv]. exists [], [], p, []. split; [reflexivity|]. split; [constructor|]. split; [split; [exact E|reflexivity]|]. split; [constructor|]. split; [|constructor].
      change (past (see (VStart WSesInit []) new_loc)) with ([] ++ [VStart (V:=V) WSesInit []]). apply shows_plain; [|reflexivity]. apply (shows_new p). exact E.
    - apply b_enter; [constructor|]. exact (shows_first E).
  Qed.
  Lemma b_ended q s id w o rest l u : running s w (Done o) rest l -> bdone s (ended q id s w o rest l u).
  Proof.
    intros (pre & n & p0 & es & Ep & St & Hc & Ob & Sh & Hr). unfold M_Serve.ended. destruct o as [e|]; [|split; exact I]. cbv zeta.
    assert (St' : story s (past (see (VEnd w (HRet e)) l))).
    { rewrite past_see, Ep. rewrite <- app_assoc. cbn [app]. eapply St_part; eassumption. }
    assert (Sh' : w <> WSesInit -> shows (past (see (VEnd w (HRet e)) l)) (o_ctl (see (VEnd w (HRet e)) l))).
    { intros Nw. rewrite past_see. apply shows_plain; [exact Sh|exact Nw]. }
    destruct w; destruct e as [e|]; try (split; [exact I|exact St']); try (destruct Hc; fail);
      try (apply b_finish; [exact St'|apply Sh'; discriminate]);
      try (apply b_proceed; [exact St'|apply Sh'; discriminate|exact Hr]);
      try (destruct (stopped _); [apply b_finish; [exact St'|apply Sh'; discriminate]|apply b_proceed; [exact St'|apply Sh'; discriminate|exact Hr]]).
    apply b_enter; [exact St'|]. rewrite past_see. apply shows_relevel. exact Sh.
  Qed.
  Lemma b_waited s id e eg l u : story s (past l) -> shows (past l) (o_ctl l) -> bdone s (waited id s e eg l u).
  Proof.
    intros St Sh. unfold waited. cbv zeta.
    match goal with |- context [see (VWait eg) ?x] => set (l1 := see (VWait eg) x) end.
    assert (St' : story s (past l1)) by (unfold l1; rewrite past_see; apply St_wait; exact St).
    assert (Sh' : shows (past l1) (o_ctl l1)) by (unfold l1; rewrite past_see; apply shows_wait; exact Sh).
    destruct (is_last s) as [h|] eqn:Ls; (split; [|]); try exact I; try exact St'.
    cbn [binv]. exists (past l1), (il_name h), (il_run h (combine_err e eg)), []. rewrite past_see. split; [reflexivity|]. split; [exact St'|].
    split; [exists h; auto|]. split; [constructor|]. split; [|constructor]. apply shows_plain; [exact Sh'|reflexivity].
  Qed.
  Lemma b_op q s w p rest l u p' l' u' : op1 q p l u = Some (p', l', u') -> running s w p rest l -> running s w p' rest l'.
  Proof.
    intros E (pre & n & p0 & es & Ep & St & Hc & Ob & Sh & Hr).
    assert (Eo : (pre ++ [VStart w n]) ++ es = past l) by (rewrite Ep, <- app_assoc; reflexivity).
    destruct p; cbn [op1] in E; cbv zeta in E; try discriminate E; injection E as <- <- <-;
      try (match goal with |- running s w _ rest ?l2 => assert (X : past l2 = pre ++ VStart w n :: es) by exact Ep end;
           exists pre, n, p0, es; split; [exact Ep|]; split; [exact St|]; split; [exact Hc|]; split; [|split; [exact Sh|exact Hr]];
           rewrite <- (app_nil_r es); eapply obeys_app; [exact Ob|]; rewrite Eo; eapply B_look; [exact Sh|constructor]);
      match goal with |- running s w ?p2 rest (see ?e ?l2) =>
        exists pre, n, p0, (es ++ [e]); split; [rewrite past_see; change (past l2) with (past l); rewrite Ep, <- app_assoc; reflexivity|];
        split; [exact St|]; split; [exact Hc|]; split; [eapply obeys_app; [exact Ob|]; rewrite Eo; constructor; constructor|]; split; [|exact Hr];
        rewrite past_see; change (past l2) with (past l) end;
      try (apply shows_act; exact Sh); (apply shows_same; [exact Sh|..]; intros; discriminate).
  Qed.

  Definition bt t q th : Prop :=
    binv th /\ match th with TDone (Some _) a => an_trace a = [] \/ exists s u0, routes_to matches t q (TFound s) u0 /\ story s (an_trace a) | _ => True end.
  Lemma bt_result t q s u0 th : routes_to matches t q (TFound s) u0 -> bdone s th -> bt t q th.
  Proof. intros Rt [P D]. split; [exact P|]. destruct th as [| | | |[k|] a|]; try exact I. right. eauto. Qed.
  Lemma bt_req t q th h pl th' h' pl' : treq t q th h pl th' h' pl' -> okt matches uni auth t q th h -> bt t q th -> bt t q th'.
  Proof.
    intros H K [P _]. destruct H.
    - split; exact I.
    - split; exact I.
    - split; exact I.
    - split; exact I.
    - assert (Rt : routes_to matches t q r u) by (exists order; auto). subst th'. destruct r as [s| | |].
      + apply (bt_result t q s u); [exact Rt|apply b_found].
      + split; [exact I|]. left. reflexivity.
      + split; exact I.
      + split; exact I.
    - split; [|exact I]. cbn [binv] in *. eapply b_op; eassumption.
    - cbn [okt] in K. destruct K as (_ & _ & u0 & Rt & _). subst th'. apply (bt_result t q s u0 _ Rt). apply b_ended. exact P.
    - cbn [okt] in K. destruct K as (_ & _ & u0 & Rt & _). subst th'. apply (bt_result t q s u0 _ Rt). destruct P as [R Ab]. apply b_waited; assumption.
  Qed.
  Lemma bt_many t q x y : ymany x y -> x = start t [q] -> length (y_tables y) = 1 ->
    exists h pl th, y = Sys [t] h pl [(q, th)] /\ okt matches uni auth t q th h /\ Forall (fun id => id < length h) pl /\ bt t q th.
  Proof.
    induction 1 as [y|x y z M IH St]; intros E L.
    - subst y. exists [], [], TArrived. split; [reflexivity|]. split; [exact I|]. split; [constructor|]. split; exact I.
    - assert (Ly : length (y_tables y) <= length (y_tables z)) by (destruct St; cbn [y_tables length]; lia).
      assert (Lx : length (y_tables x) <= length (y_tables y)).
      { destruct (tables_grow matches uni auth ses lvl _ _ M) as [new ->]. rewrite app_length. lia. }
      rewrite E in Lx. cbn in Lx. destruct (IH E ltac:(lia)) as (h & pl & th & -> & K & F & P).
      inversion St as [ts t1 tss h1 pl1 l1 q1 th1 l2 th' h' pl' Et Al H E1 E2|ts h1 pl1 l1 t1 Al E1 E2|ts h1 p1 id p2 l1 Al E1 E2]; subst.
      + injection Et as -> <-. destruct l1 as [|x1 l1]; [|destruct l1; discriminate].
        cbn [app] in *. match goal with X : (_, _) :: _ = [(_, _)] |- _ => injection X as -> -> -> end.
        destruct (solo_req matches uni auth ses lvl _ _ _ _ _ _ _ _ H K F) as [K' F']. exists h', pl', th'.
        split; [reflexivity|]. split; [exact K'|]. split; [exact F'|]. eapply bt_req; eassumption.
      + cbn in L. discriminate L.
      + exists h, (p1 ++ p2), th. split; [reflexivity|]. split; [exact K|]. split; [|exact P]. apply Forall_app in F as [F1 F2]. inversion F2; subst. apply Forall_app. auto.
  Qed.

  (** ** C146: whatever happens around it, what is observed of a request are runs of SesInit and of
      the parts of the set it was routed to, each doing what its code says to what the Context
      answers, and waiting for the goroutines *)
  Theorem C146_code_obeyed : forall t0 qs y i q a, served t0 qs y -> answered y i q a -> an_trace a <> [] ->
    exists t s u, In t (y_tables y) /\ routes_to matches t q (TFound s) u /\ story s (an_trace a).
  Proof.
    intros t0 qs y i q a R A N. destruct (answered_ok matches uni auth ses lvl _ _ _ _ _ _ R A) as (_ & t & It & (y' & R' & T & kept & E)).
    destruct (bt_many t q _ _ R' eq_refl) as (h & pl & th & -> & K & _ & P); [rewrite T; reflexivity|].
    cbn [y_threads nth_error] in E. injection E as ->. destruct kept as [k|].
    - destruct P as [_ [P|(s & u & Rt & P)]]; [contradiction|]. exists t, s, u. auto.
    - cbn [okt] in K. destruct K as [-> _]. destruct N. reflexivity.
  Qed.
  (** what the Context answers is determined *)
  Theorem C146_context_determined : forall tr c c', shows tr c -> shows tr c' -> c = c'.
  Proof.
    intros tr [a1 a2 a3 a4 a5 a6 a7] [b1 b2 b3 b4 b5 b6 b7] [A1 A2 A3 A4 A5 A6 A7] [X1 X2 X3 X4 X5 X6 X7]. cbn in *.
    assert (K : forall (x y : bool) (P : Prop), (x = true <-> P) -> (y = true <-> P) -> x = y).
    { intros x y P H H'. destruct x, y; try reflexivity; [symmetry; apply H', H; reflexivity|apply H, H'; reflexivity]. }
    rewrite (K _ _ _ A1 X1), (K _ _ _ A2 X2), (K _ _ _ A3 X3), (K _ _ _ A4 X4). congruence.
  Qed.
End Proofs.

(** ** The hypotheses are met: SesInit, a main handler that starts a failing goroutine, stops and
    answers what it then sees, and a last handler that answers the error *)
Section Example_obeys.
  Let err1 := EUser 1 (B"late").
  Let yes (b : bool) := if b then B"y" else B"n".
  Definition ox_main : imain (V:=bytes) :=
    IMain (B"main") (Done (HRet None))
      (Act (AGo (Some err1)) (Look (fun c => Act AStop (Look (fun c' => Write (yes (c_stopped c) ++ yes (c_stopped c')) (Done (HRet None))))))).
  Definition ox_last : ilast (V:=bytes) :=
    ILast (B"last") (fun e => Look (fun c => Write (match e with Some e => err_text e | None => [] end ++ yes (c_cancelled c)) (Done (HRet e)))).
  Definition ox_set : iset bytes := ISet [] [] (Some ox_last) (Some ox_main).
  Definition ox_table : table bytes := Table (routed [S_Route.Reg MethodGet (B"/u/:id") ox_set]) [].
  Definition ox_ses : prog bytes := Look (fun c => Write (if (c_level c =? 5)%Z then B"5" else B"?") (Done (HRet None))).
  Example C146_nonvacuous : exists y a,
    served (fun _ _ => false) (fun x => x) ex_auth (Some ox_ses) 1%Z ox_table [ex_req (B"/u/7"); ex_req (B"/u/8")] y /\
    answered y 1 (ex_req (B"/u/8")) a /\ an_trace a <> [] /\ an_body a = B"5nylatey" /\ an_result a = RRet (Some err1).
  Proof.
    destruct (gos (fun _ _ => false) (fun x => x) ex_auth (Some ox_ses) 1%Z (start ox_table [ex_req (B"/u/7"); ex_req (B"/u/8")]) (concat (repeat [Go 0; Go 1] 16))) as [y|] eqn:E; [|vm_compute in E; discriminate].
    pose proof (gos_sound _ _ _ _ _ _ _ _ E) as M. vm_compute in E. injection E as <-.
    eexists. eexists. split; [exact M|]. split; [eexists; reflexivity|]. split; [discriminate|]. split; reflexivity.
  Qed.
End Example_obeys.
Print Assumptions C146_code_obeyed.
Print Assumptions C146_context_determined.
