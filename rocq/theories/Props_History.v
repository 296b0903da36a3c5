(** C147: exactly which calls panic, and whole histories of a server. *)
From Verif Require Import Base GoStrings GoErrors GoSlices M_Tree M_RegTree S_Route S_Choice P_RegTree M_Server S_Server P_Server S_History.
From Verif Require M_Router S_Router S_Copies P_Copies M_Pipeline M_Auth Props_RegTree Props_Server.

Section Proofs.
  Variables (grow : nat -> nat -> nat) (uni : bytes -> bytes) (matches : rgx -> bytes -> bool) (cd : code).
  Notation history := (history grow uni matches cd).
  Notation do_call := (do_call grow uni matches cd).
  Notation goes := (goes uni matches cd).

  Lemma agrees_len st p : agrees st p -> length (M_Router.st_routers st) = length (p_groups p) /\ length (M_Router.st_sets st) = length (p_kits p) /\
    length (M_Router.st_routes st) = length (p_routes p).
  Proof.
    intros (A1 & A2 & A3). apply (f_equal (@length _)) in A1, A2, A3. rewrite !map_length in A1, A2, A3. auto.
  Qed.
  Lemma reg_ok s p m e i : simulates s p -> (In m expr_methods <-> exists rt, reg_add (s_regs s) m e i = Ok rt).
  Proof.
    intros (_ & (_ & T2) & _). destruct (Props_RegTree.C16_regexp_methods _ _ _ m e i T2) as [H _]. symmetry. exact H.
  Qed.
  Definition key_of (o : M_Router.op) : option M_Router.key := match o with M_Router.RUse _ k _ => Some k | M_Router.SAdd k _ (Some _) => Some k | _ => None end.
  Lemma step_ok s p o : simulates s p -> S_Router.tidy o = true ->
    (op_ok p o -> exists st, M_Router.step grow (s_state s) o = Ok st) /\
    (forall st, M_Router.step grow (s_state s) o = Ok st ->
       (forall k, key_of o = Some k -> key_ok k) -> op_ok p o) /\
    (op_ok p o -> forall k, key_of o = Some k -> key_ok k) /\
    (forall st, M_Router.step grow (s_state s) o = Ok st ->
       match key_of o with
       | Some k => exists g, M_Router.st_routes st = M_Router.st_routes (s_state s) ++ [g] /\ M_Router.g_key g = k
       | None => M_Router.st_routes st = M_Router.st_routes (s_state s)
       end).
  Proof.
    intros (A & _) Td. destruct (agrees_len _ _ A) as (L1 & L2 & _).
    assert (Nr : forall r, (r < length (p_groups p) <-> exists x, nth_error (M_Router.st_routers (s_state s)) r = Some x)).
    { intros r. rewrite <- L1. split; [|intros [x E]; apply nth_error_Some; congruence]. intros H. destruct (nth_error _ r) eqn:E; [eauto|]. apply nth_error_None in E. lia. }
    assert (Ns : forall r, (r < length (p_kits p) <-> exists x, nth_error (M_Router.st_sets (s_state s)) r = Some x)).
    { intros r. rewrite <- L2. split; [|intros [x E]; apply nth_error_Some; congruence]. intros H. destruct (nth_error _ r) eqn:E; [eauto|]. apply nth_error_None in E. lia. }
    destruct o; cbn [S_Router.tidy S_Router.plain] in Td; try discriminate Td; cbn [op_ok key_of];
      try (match goal with a : M_Router.arg |- _ => destruct a as [xs ex|v]; [|discriminate Td] end); try (match goal with z : option nat |- context [match ?w with Some _ => _ | None => _ end] => constr_eq z w; destruct z as [z|] end);
      cbn [M_Router.step M_Router.eval_arg]; unfold M_Router.set_after, M_Router.set_before, M_Router.new_set, alloc; cbv beta iota zeta;
      rewrite ?Nr, ?Ns;
      try (match goal with |- context [nth_error ?l ?i] => destruct (nth_error l i) as [x|] eqn:Ex end); cbv beta iota zeta;
      repeat (match goal with |- context [append ?a ?b ?c ?d] => destruct (append a b c d) as [? ?] end; cbv beta iota zeta);
      (split; [|split; [|split]]).
    all: try (intros; eexists; reflexivity).
    all: try (intros st E K; try discriminate E; first [exact I | split; [eauto|apply K; reflexivity] | eauto]; fail).
    all: try (intros [x' E']; discriminate E').
    all: try (intros [[x' E'] ?]; discriminate E').
    all: try (intros ? k E; discriminate E).
    all: try (intros st E; inversion E; subst; reflexivity).
    all: try (intros [_ K] k E; inversion E; subst; exact K).
    all: try (intros st E; inversion E; subst; eexists; split; reflexivity).
    all: try (intros []; fail).
    all: try (intros st E; discriminate E).
    all: try (intros st E K; discriminate E).
    all: try (intros st E K; first [apply Nr; eauto | apply Ns; eauto | split; [first [apply Nr; eauto | apply Ns; eauto]|apply K; reflexivity]]; fail).
    all: intros [_ K] k0 E; injection E as <-; exact K.
  Qed.
  Lemma op_iff s p o : simulates s p -> S_Router.tidy o = true -> (op_ok p o <-> exists s', do_op grow s o = Ok s').
  Proof.
    intros Si Td. destruct (step_ok s p o Si Td) as (H1 & H2 & H3 & H4). unfold do_op, enter.
    destruct (M_Router.step grow (s_state s) o) as [st|] eqn:Es.
    - specialize (H4 _ eq_refl). destruct (key_of o) as [k|] eqn:Ek.
      + destruct H4 as (g & E1 & E2). rewrite E1, nth_error_app2, Nat.sub_diag by lia. cbn [nth_error]. rewrite E2. destruct k as [m rt|m e].
        * split; [eauto|]. intros _. apply (H2 _ eq_refl). intros k E. injection E as <-. exact I.
        * pose proof (reg_ok s p m e (length (M_Router.st_routes (s_state s))) Si) as R. split.
          -- intros O. destruct (proj1 R (H3 O _ eq_refl)) as [rt ->]. eauto.
          -- intros [s' E]. apply (H2 _ eq_refl). intros k Ek'. injection Ek' as <-. apply R. destruct (reg_add _ _ _ _); [eauto|discriminate E].
      + rewrite H4, (proj2 (nth_error_None _ _)) by lia. split; [eauto|]. intros _. apply (H2 _ eq_refl). intros k E. discriminate E.
    - split; [intros O; destruct (H1 O) as [st E]; discriminate E|intros [s' E]; discriminate E].
  Qed.
  Lemma call_iff s p c : simulates s p -> forallb S_Router.tidy (ops [c]) = true -> is_request c = false ->
    fst (do_call s c) = [] /\ (in_order p c <-> exists s', snd (do_call s c) = Ok s').
  Proof.
    intros Si Td Nr. unfold ops in Td. cbn [flat_map] in Td. rewrite app_nil_r in Td.
    destruct c as [o|r v rt m|v rt m sets|o|a|f|z|rq lk]; try discriminate Nr; cbn [M_Server.do_call fst snd in_order op_of] in Td |- *;
      try (split; [reflexivity|]; split; [eauto|exact (fun _ => I)]).
    - split; [reflexivity|]. apply op_iff; [exact Si|]. cbn [forallb] in Td. rewrite andb_true_r in Td. exact Td.
    - split; [reflexivity|]. rewrite <- (op_iff s p (M_Router.RUse r (M_Router.KPath (verb_method v) rt) m) Si eq_refl). cbn [op_ok key_ok]. tauto.
    - split; [reflexivity|]. destruct sets as [|x sets]; [split; [intros []|intros [s' E]; discriminate E]|]. rewrite <- (op_iff s p (M_Router.SAdd (M_Router.KPath (verb_method v) rt) m (Some x)) Si eq_refl). cbn [op_ok key_ok]. tauto.
    - split; [reflexivity|]. destruct Si as (_ & _ & R1 & _). rewrite <- R1. destruct (s_auth s) as [h|].
      + split; [eauto|intros _ E; discriminate E].
      + split; [intros E; destruct E; reflexivity|intros [s' E]; discriminate E].
  Qed.

  Lemma plan_grows p c : exists l, p_routes (plan_call p c) = p_routes p ++ l.
  Proof.
    assert (Op : forall o, exists l, p_routes (plan_op p o) = p_routes p ++ l).
    { intros o. destruct o; try (exists []; cbn; rewrite app_nil_r; reflexivity); [eexists; reflexivity|]. destruct s; [eexists; reflexivity|exists []; cbn; rewrite app_nil_r; reflexivity]. }
    destruct c; cbn [plan_call op_of]; try apply Op; try (exists []; cbn; rewrite app_nil_r; reflexivity).
    destruct sets; [exists []; rewrite app_nil_r; reflexivity|apply Op].
  Qed.
  Lemma planned_grows : forall cs p, exists l, p_routes (fold_left plan_call cs p) = p_routes p ++ l.
  Proof.
    induction cs as [|c cs IH]; intros p; [exists []; cbn; rewrite app_nil_r; reflexivity|]. cbn [fold_left]. destruct (IH (plan_call p c)) as [l ->]. destruct (plan_grows p c) as [l' ->].
    exists (l' ++ l). apply app_assoc_reverse.
  Qed.
  Lemma disciplined_app : forall os os' b, S_Copies.disciplined b (os ++ os') -> S_Copies.disciplined b os.
  Proof. induction os as [|o os IH]; intros os' b H; [exact I|]. destruct H as [H1 H2]. split; [exact H1|]. exact (IH _ _ H2). Qed.
  Lemma history_app : forall cs cs' s evs s1, history s cs = (evs, Ok s1) -> history s (cs ++ cs') = (evs ++ fst (history s1 cs'), snd (history s1 cs')).
  Proof.
    induction cs as [|c cs IH]; intros cs' s evs s1 E; cbn [M_Server.history app] in E |- *.
    - inversion E; subst. cbn [app]. destruct (M_Server.history _ _ _ _ s1 cs'); reflexivity.
    - destruct (do_call s c) as [ev [s2|]]; [|discriminate E]. destruct (history s2 cs) as [evs2 r2] eqn:E2. inversion E; subst. rewrite (IH cs' _ _ _ E2). reflexivity.
  Qed.

  Definition good (cs : list scall) : Prop :=
    forallb S_Router.tidy (ops cs) = true /\ S_Copies.disciplined (S_Copies.Bufs [] [] [] 0) (ops cs) /\ well_formed (planned cs) /\ lucks_ok cs.
  Lemma ops_app a b : ops (a ++ b) = ops a ++ ops b.
  Proof. apply flat_map_app. Qed.
  Lemma good_app a b : good (a ++ b) -> good a.
  Proof.
    intros (G1 & G2 & G3 & G4). rewrite ops_app in G1, G2. rewrite forallb_app in G1. apply andb_true_iff in G1. split; [apply G1|]. split; [eapply disciplined_app; exact G2|]. split.
    - intros m rt k H. apply (G3 m rt k). unfold planned. rewrite fold_left_app. destruct (planned_grows b (fold_left plan_call a nothing)) as [l ->]. apply in_or_app. auto.
    - intros rq lk H. apply (G4 rq lk). apply in_or_app. auto.
  Qed.

  Lemma goes_from : forall cs pre evs0 s, good (pre ++ cs) -> history new_server pre = (evs0, Ok s) ->
    goes (planned pre) cs (fst (history s cs)) (match snd (history s cs) with Ok _ => Some (planned (pre ++ cs)) | Panic => None end).
  Proof.
    induction cs as [|c cs IH]; intros pre evs0 s Gd Hh.
    - cbn. rewrite app_nil_r. constructor.
    - assert (E1 : pre ++ c :: cs = (pre ++ [c]) ++ cs) by (rewrite <- app_assoc; reflexivity).
      assert (Gd1 : good (pre ++ [c])) by (rewrite E1 in Gd; eapply good_app; exact Gd).
      assert (Pc : planned (pre ++ [c]) = plan_call (planned pre) c) by (unfold planned; rewrite fold_left_app; reflexivity).
      destruct (sim_history grow uni matches cd _ _ _ _ _ Hh sim_new) as [_ Si]. fold (planned pre) in Si.
      pose proof (history_app pre [c] _ _ _ Hh) as H1. cbn [M_Server.history] in H1 |- *.
      destruct (is_request c) eqn:Rq.
      + destruct c as [| | | | | | |rq lk]; try discriminate Rq.
        destruct (good_app _ _ Gd) as (G1 & G2 & G3 & _).
        destruct (Props_Server.C131_end_to_end grow uni matches cd pre evs0 s rq lk G1 G2 G3 Hh) as (choice & Pk & Er).
        { destruct Gd as (_ & _ & _ & G4). refine (G4 rq lk _). apply in_or_app. right. left. reflexivity. }
        cbn [M_Server.do_call] in H1 |- *. destruct (request uni matches cd s rq lk) as [ev [[]|]] eqn:Eq.
        * pose proof (IH (pre ++ [CRequest rq lk]) _ s ltac:(rewrite <- E1; exact Gd) H1) as G. rewrite <- E1 in G.
          destruct (M_Server.history grow uni matches cd s cs) as [evs r]. cbn [fst snd] in G |- *. eapply G_request; [exact Pk|symmetry; exact Er|].
          rewrite Pc in G. exact G.
        * cbn [fst snd]. eapply G_fatal; [exact Pk|]. symmetry. exact Er.
      + assert (Td : forallb S_Router.tidy (ops [c]) = true).
        { destruct Gd1 as (G1 & _). rewrite ops_app, forallb_app in G1. apply andb_true_iff in G1. apply G1. }
        destruct (call_iff s _ c Si Td Rq) as [Ev Iff].
        destruct (do_call s c) as [ev [s1|]] eqn:Ec; cbn [fst snd] in Ev, Iff; subst ev.
        * pose proof (IH (pre ++ [c]) _ s1 ltac:(rewrite <- E1; exact Gd) H1) as G. rewrite <- E1 in G.
          destruct (M_Server.history grow uni matches cd s1 cs) as [evs r]. cbn [fst snd] in G |- *. apply G_call; [exact Rq|apply Iff; eauto|].
          rewrite Pc in G. exact G.
        * cbn [fst snd]. apply G_bad; [exact Rq|]. intros O. apply Iff in O as [s' E]. discriminate E.
  Qed.

  (** ** C147 *)
  Theorem C147_histories : forall cs,
    forallb S_Router.tidy (ops cs) = true -> S_Copies.disciplined (S_Copies.Bufs [] [] [] 0) (ops cs) -> well_formed (planned cs) -> lucks_ok cs ->
    goes nothing cs (fst (history new_server cs)) (match snd (history new_server cs) with Ok _ => Some (planned cs) | Panic => None end).
  Proof.
    intros cs G1 G2 G3 G4. exact (goes_from cs [] [] new_server (conj G1 (conj G2 (conj G3 G4))) eq_refl).
  Qed.

  (** ** Histories that do not panic *)
  Section Returns.
    Import M_Pipeline.
    Lemma after_ret b k c r : k_out k <> HPanic -> after_call b k c = Finish r -> r <> RPanic.
    Proof. intros N E. unfold after_call in E. destruct (k_out k) as [[e|]|]; [inversion E; discriminate| |destruct N; reflexivity]. destruct (b && stopped c); inversion E. discriminate. Qed.
    Lemma run1_ret w n b c k c' : returns b -> run1 w n b c = (k, c') -> k_out k <> HPanic.
    Proof. intros R E. unfold run1 in E. pose proof (R (add_debug c n)) as X. destruct (b (add_debug c n)) as [acts out]. inversion E; subst. exact X. Qed.
    Lemma run_list_ret mkw : forall hs i c ks c' r, Forall (fun h => returns (h_run h)) hs -> run_list mkw i hs c = (ks, c', Finish r) -> r <> RPanic.
    Proof.
      induction hs as [|h hs IH]; intros i c ks c' r F E; cbn [run_list] in E; [inversion E|]. inversion F; subst.
      destruct (run1 (mkw i) (h_name h) (h_run h) c) as [k c1] eqn:E1. pose proof (run1_ret _ _ _ _ _ _ H1 E1) as N.
      destruct (after_call true k c1) as [|r1] eqn:Ea.
      2: { inversion E; subst. exact (after_ret _ _ _ _ N Ea). }
      destruct (run_list mkw (S i) hs c1) as [[ks2 c2] r2] eqn:E2. inversion E; subst. exact (IH _ _ _ _ _ H2 E2).
    Qed.
    Lemma run_set_ret s c m ks c' r : hs_main s = Some m -> returns (m_init m) -> returns (m_run m) -> Forall (fun h => returns (h_run h)) (hs_before s ++ hs_after s) ->
      run_set s c = (ks, c', r) -> r <> RPanic.
    Proof.
      intros Em R1 R2 F E. apply Forall_app in F as [F1 F2]. unfold run_set in E. rewrite Em in E.
      destruct (run1 WInit (m_name m) (m_init m) c) as [k0 c0] eqn:E0. pose proof (run1_ret _ _ _ _ _ _ R1 E0) as N0.
      destruct (after_call false k0 c0) as [|r0] eqn:A0; [|inversion E; subst; exact (after_ret _ _ _ _ N0 A0)].
      destruct (run_list WBefore 0 (hs_before s) c0) as [[kb c1] [|rb]] eqn:E1; [|inversion E; subst; exact (run_list_ret _ _ _ _ _ _ _ F1 E1)].
      assert (Km : forall km c2 rm, (if c_skip c1 then ([], c1, Continue) else let '(k, c2) := run1 WMain (m_name m) (m_run m) c1 in ([k], c2, after_call true k c2)) = (km, c2, rm) ->
        forall r', rm = Finish r' -> r' <> RPanic).
      { intros km c2 rm Ek r' ->. destruct (c_skip c1); [inversion Ek|]. destruct (run1 WMain (m_name m) (m_run m) c1) as [k c3] eqn:E3. inversion Ek; subst.
        exact (after_ret _ _ _ _ (run1_ret _ _ _ _ _ _ R2 E3) H2). }
      destruct (if c_skip c1 then _ else _) as [[km c2] rm] eqn:E2. specialize (Km _ _ _ eq_refl). destruct rm as [|rm]; [|inversion E; subst; exact (Km _ eq_refl)].
      destruct (run_list WAfter 0 (hs_after s) c2) as [[ka c3] [|ra]] eqn:E3; inversion E; subst; [discriminate|]. exact (run_list_ret _ _ _ _ _ _ _ F2 E3).
    Qed.
    Lemma run_http_ret s ses path lvl sched :
      (forall x, s = Some x -> exists m, hs_main x = Some m /\ returns (m_init m) /\ returns (m_run m) /\ Forall (fun h => returns (h_run h)) (hs_before x ++ hs_after x) /\
        (forall l, hs_last x = Some l -> forall c, returns (l_run l c))) -> (forall f, ses = Some f -> returns f) ->
      x_result (run_http s ses path lvl sched) <> RPanic.
    Proof.
      intros Hs Hf. unfold run_http. destruct s as [s|]; [|discriminate]. destruct (Hs s eq_refl) as (m & Em & R1 & R2 & F & Fl). clear Hs.
      assert (Go : forall ki c0, x_result (let c1 := Ctx (c_stopped c0) (c_aborted c0) (c_skip c0) (c_cancelled c0) lvl (c_log c0) (c_tasks c0) in
          match run_set s c1 with
          | (ks, c2, RPanic) => Http (ki ++ ks) None RPanic c2
          | (ks, c2, RRet e) =>
              if c_aborted c2 then Http (ki ++ ks) None (RRet e) c2
              else let '(eg, c3) := eg_wait sched c2 in let kw := Call WWait [] c2 [] (HRet eg) in
                let '(kl, c4, r) := run_last s c3 (combine_err e eg) in Http (ki ++ ks ++ [kw] ++ kl) None r c4
          end) <> RPanic).
      { intros ki c0. cbv zeta. match goal with |- context [run_set s ?c] => destruct (run_set s c) as [[ks c2] r] eqn:E end.
        pose proof (run_set_ret _ _ _ _ _ _ Em R1 R2 F E) as N. destruct r as [e|]; [|destruct N; reflexivity]. destruct (c_aborted c2); [discriminate|].
        destruct (eg_wait sched c2) as [eg c3]. unfold run_last. destruct (hs_last s) as [l|] eqn:El; [|discriminate].
        pose proof (Fl l eq_refl c3 (combine_err e eg)) as X. destruct (l_run l c3 (combine_err e eg)) as [acts out]. cbn [x_result snd] in X |- *. destruct out; [discriminate|]. destruct X; reflexivity. }
      destruct ses as [f|]; [|exact (Go [] new_ctx)]. pose proof (Hf f eq_refl new_ctx) as X. destruct (f new_ctx) as [acts out]. cbn [snd] in X.
      destruct out as [[e|]|]; [discriminate| |destruct X; reflexivity]. exact (Go _ _).
    Qed.
  End Returns.
  Lemma picks_route p m path x a : picks matches p m path (Some (x, a)) -> In x (p_routes p).
  Proof. intros H. inversion H; subst; eapply nth_error_In; eassumption. Qed.
  Lemma sane_serves p rq lk choice : code_returns cd -> sane p -> picks matches p (M_Auth.rq_method rq) (M_Auth.rq_path rq) choice ->
    exists ev, M_Auth.serve_http uni (as_planned cd p choice lk) rq = (ev, Ok tt).
  Proof.
    intros (C1 & C2 & C3) (S1 & S2 & h & S3 & S4) Pk.
    assert (Rn : exists ev, M_Auth.run_request (as_planned cd p choice lk) rq = (ev, Ok tt)).
    { unfold M_Auth.run_request. cbn [as_planned M_Auth.sv_find M_Auth.sv_ses M_Auth.sv_level M_Auth.sv_sched].
      match goal with |- context [M_Pipeline.x_result ?h] => assert (N : M_Pipeline.x_result h <> M_Pipeline.RPanic) end.
      { apply run_http_ret; [|exact S2]. intros y Ey. destruct choice as [[x a]|]; [|discriminate Ey]. cbn [option_map] in Ey. injection Ey as <-.
        pose proof (S1 x (picks_route _ _ _ _ _ Pk)) as Sx. unfold set_of. cbn [fst snd M_Pipeline.hs_main M_Pipeline.hs_before M_Pipeline.hs_after M_Pipeline.hs_last].
        destruct (kt_main (o_kit x)) as [k|]; [|destruct Sx; reflexivity]. cbn [option_map]. exists (c_main cd k a). split; [reflexivity|]. split; [apply C2|]. split; [apply C2|]. split.
        - apply Forall_app. split; apply Forall_forall; intros y Hy; apply in_map_iff in Hy as (k' & <- & _); apply C1.
        - intros l El. destruct (kt_last (o_kit x)) as [kl|]; [|discriminate El]. injection El as <-. apply C3. }
      destruct (M_Pipeline.x_result _); [eauto|destruct N; reflexivity]. }
    unfold M_Auth.serve_http. cbn [as_planned M_Auth.sv_auth]. rewrite S3. cbv zeta. destruct (M_Auth.a_use h) eqn:Eu; [|exact Rn].
    destruct (S4 eq_refl) as (f & -> & Nf & Lg). specialize (Nf rq). destruct (f rq) as [[]|]; [|exact Rn|destruct Nf; reflexivity].
    unfold M_Auth.check. rewrite Eu. cbn [negb]. match goal with |- context [M_Auth.get_user_password ?a ?b] => destruct (M_Auth.get_user_password a b) as [u pw] end. rewrite Lg.
    destruct Rn as [ev Rn].
    match goal with |- context [if ?b then (_, Ok true) else _] => destruct b end; [rewrite Rn|]; eauto.
  Qed.
  Lemma fits_goes : forall p cs evs r, code_returns cd -> fits p cs -> goes p cs evs r -> exists q, r = Some q.
  Proof.
    intros p cs evs r C F H. induction H as [p|p c cs evs r Nr O G IH|p c cs Nr O|p rq lk cs choice ev evs r Pk Es G IH|p rq lk cs choice ev Pk Es].
    - eauto.
    - apply IH. apply F.
    - destruct O. apply F.
    - apply IH. apply F.
    - destruct F as (_ & Sn & _). destruct (sane_serves p rq lk choice C (Sn eq_refl) Pk) as [ev' E]. rewrite E in Es. discriminate Es.
  Qed.
  (** A history in which every call is in order, requests come only when there is an authentication object and every route has a main handler,
      and user code never panics, runs to its end. *)
  Theorem C147_no_panic : forall cs,
    forallb S_Router.tidy (ops cs) = true -> S_Copies.disciplined (S_Copies.Bufs [] [] [] 0) (ops cs) -> well_formed (planned cs) -> lucks_ok cs ->
    code_returns cd -> fits nothing cs -> exists evs s, history new_server cs = (evs, Ok s).
  Proof.
    intros cs G1 G2 G3 G4 C F. pose proof (C147_histories cs G1 G2 G3 G4) as G. destruct (history new_server cs) as [evs [s|]]; [eauto|].
    destruct (fits_goes _ _ _ _ C F G) as [q E]. discriminate E.
  Qed.
End Proofs.

(** ** The hypotheses are met, and the ways to panic are real *)
Section Example_history.
  Import M_Router.
  Let rq (m path : bytes) := CRequest (M_Auth.Request m path []) Props_Server.ex_luck.
  Definition hx_calls : list scall :=
    Props_Server.ex_calls ++ [rq (B"GET") (B"/a/v"); CAuth (M_Auth.SetUse true); rq (B"GET") (B"/a/v"); CAuth (M_Auth.SetUse false)] ++
    Props_Server.ex_more ++ [COp (RUse 2 (KReg (B"GETPOST") 1) (Some 5)); rq (B"POST") (B"/r"); CSetAuth None].
  Let run cs := M_Server.history go_grow (fun x => x) Props_Server.ex_matches Props_Server.ex_code new_server cs.
  Lemma hx_lucks : lucks_ok hx_calls.
  Proof. intros q lk H; cbn in H; repeat (destruct H as [H|H]; [try discriminate H; inversion H; subst; intros rm; apply Permutation_refl|]); destruct H. Qed.
  Lemma hx_fits : fits nothing hx_calls.
  Proof.
    assert (Sane : forall p : plan, forallb (fun x => match kt_main (o_kit x) with Some _ => true | None => false end) (p_routes p) = true -> p_ses p = None ->
      (exists h, p_auth p = Some h /\ (M_Auth.a_use h = true -> exists f, M_Auth.a_access h = Some f /\ (forall q, f q <> Panic) /\ (M_Auth.a_use_log h && M_Auth.a_log_nil h) = false)) -> sane p).
    { intros p H1 H2 H3. split; [|split; [intros f E; congruence|exact H3]]. intros x Hx. rewrite forallb_forall in H1. specialize (H1 x Hx). destruct (kt_main (o_kit x)); [discriminate|discriminate H1]. }
    set (p := nothing). assert (Ep : p = nothing) by reflexivity. clearbody p. vm_compute in Ep. unfold hx_calls, Props_Server.ex_calls, Props_Server.ex_more. cbn [app].
    repeat (match goal with |- fits ?p0 (?c :: ?cs) => refine (conj _ (conj _ _)); [| |
        change (fits (plan_call p0 c) cs); let q := fresh "q" in set (q := plan_call p0 c); assert (Eq : q = plan_call p0 c) by reflexivity; clearbody q;
        rewrite Ep in Eq; vm_compute in Eq; clear Ep; rename Eq into Ep; try clear p0] end;
      [rewrite Ep; try exact I; vm_compute; try discriminate; try lia; try (split; [lia|repeat (try (left; reflexivity); right)])|
       intros X; first [discriminate X|clear X; apply Sane; [rewrite Ep; reflexivity|rewrite Ep; reflexivity|]; rewrite Ep; cbn [p_auth];
       eexists; split; [reflexivity|]; cbn [M_Auth.a_use]; intros Use; first [discriminate Use|eexists; split; [reflexivity|]; split; [intros w X; discriminate X|reflexivity]]]|]).
    exact I.
  Qed.
  Example C147_nonvacuous :
    forallb S_Router.tidy (ops hx_calls) = true /\ S_Copies.disciplined (S_Copies.Bufs [] [] [] 0) (ops hx_calls) /\ well_formed (planned hx_calls) /\ lucks_ok hx_calls /\
    code_returns Props_Server.ex_code /\ fits nothing hx_calls /\
    (* one call more *)
    snd (run (hx_calls ++ [rq (B"GET") (B"/a/v")])) = Panic /\ snd (run (hx_calls ++ [CAuth (M_Auth.SetUse true)])) = Panic /\
    snd (run (hx_calls ++ [COp (RUse 0 (KReg (B"LINK") 1) None)])) = Panic /\ snd (run (hx_calls ++ [CServerVerb VGet (B"/q") None []])) = Panic /\
    snd (run (hx_calls ++ [COp (RClone 4)])) = Panic.
  Proof.
    split; [reflexivity|]. split; [apply P_Copies.disciplinedb_ok; vm_compute; reflexivity|]. split; [apply Props_Server.well_formed_b; vm_compute; reflexivity|].
    split; [exact hx_lucks|].
    split; [split; [|split]; [intros k a x; discriminate|intros k a; split; intros x; discriminate|intros k a c x; discriminate]|].
    split; [exact hx_fits|]. split; [|split; [|split; [|split]]]; vm_compute; reflexivity.
  Qed.
End Example_history.
Print Assumptions C147_histories.
Print Assumptions C147_no_panic.
