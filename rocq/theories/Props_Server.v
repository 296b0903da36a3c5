(** C131-C133: a whole server. *)
From Coq Require Import Sorted.
From Verif Require Import Base GoStrings GoSlices M_Tree M_RegTree S_Route S_Choice P_RegTree M_Server S_Server P_Server.
From Verif Require M_Router S_Router S_Copies P_Copies M_Pipeline S_Pipeline Props_Pipeline M_Auth S_Auth Props_Auth Props_RegTree Props_Choice Props_Tree P_Choice P_TreeFind.
Import Props_RegTree.

Lemma exprs_sorted : forall rs i, StronglySorted (fun a b => rg_set a < rg_set b) (exprs_from i rs).
Proof.
  induction rs as [|x rs IH]; intros i; cbn [exprs_from]; [constructor|]. destruct (o_key x) as [m rt|m e]; [apply IH|]. constructor; [apply IH|].
  apply Forall_forall. intros [[m' e'] j] H. apply in_exprs in H. destruct H as (k & y & -> & _). unfold rg_set; cbn. lia.
Qed.
Lemma ss_mid {A} (R : A -> A -> Prop) l1 z l2 y : StronglySorted R (l1 ++ z :: l2) -> In y l1 -> R y z.
Proof.
  induction l1 as [|x l1 IH]; intros H Hy; [destruct Hy|]. cbn [app] in H. apply StronglySorted_inv in H. destruct H as [H1 H2]. destruct Hy as [->|Hy]; [|apply IH; assumption].
  rewrite Forall_forall in H2. apply H2, in_or_app. right. left. reflexivity.
Qed.

Section All.
  Variables (grow : nat -> nat -> nat) (uni : bytes -> bytes) (matches : rgx -> bytes -> bool) (cd : code).
  Lemma lookup_picks cs evs s lk m path : forallb S_Router.tidy (ops cs) = true -> S_Copies.disciplined (S_Copies.Bufs [] [] [] 0) (ops cs) ->
    well_formed (planned cs) -> history grow uni matches cd new_server cs = (evs, Ok s) -> any_order (l_order lk) ->
    exists choice, picks matches (planned cs) m path choice /\ lookup matches cd s lk m path = option_map (set_of cd) choice.
  Proof.
    intros Td Di Wf Hh Ao. pose proof (fun i x a => resolve_planned grow uni matches cd cs evs s i x a Td Di Hh) as Rs.
    destruct (sim_history grow uni matches cd _ _ _ _ _ Hh sim_new) as [_ (_ & (T1 & T2) & _)]. fold (planned cs) in T1, T2.
    assert (W : forallb (fun r => wf_routeb (r_route r)) (path_regs (planned cs)) = true).
    { apply forallb_forall. intros g Hg. apply in_paths in Hg. destruct Hg as (k & [key kt] & _ & Hk & Ek). cbn in Ek. subst key. apply (Wf _ _ kt (nth_error_In _ _ Hk)). }
    unfold lookup, server_find. rewrite T1. destruct (tree_find (routed (path_regs (planned cs))) m path []) as [t a] eqn:Et.
    assert (T : t = TNotFound /\ a = [] \/ exists s, t = TFound s).
    { pose proof (Props_Tree.C05_reference_semantics nat (path_regs (planned cs)) m path [] W) as E. rewrite Et in E. unfold ref_find in E.
      destruct (endpoints (segments path) (map entry_of (path_regs (planned cs))) []) as [|(hs & b) l]; [inversion E; auto|]. destruct (answer m hs); inversion E; eauto. }
    destruct T as [[-> ->]|(i & ->)].
    - pose proof (proj1 (Props_Choice.C128_not_found nat _ m path [] W) Et) as No. destruct (reg_find matches (l_order lk) (s_regs s) m path) as [t a] eqn:Er.
      destruct t as [k| | |].
      + destruct (reg_find_found matches (l_order lk) Ao _ _ _ _ _ _ T2 Er) as (-> & e & Me & La). apply latest_for_current in La. destruct La as (l1 & l2 & mt & El & Cv & Nx).
        assert (Hk : In (mt, e, k) (exprs_from 0 (p_routes (planned cs)))) by (rewrite El; apply in_or_app; right; left; reflexivity).
        apply in_exprs in Hk. destruct Hk as (k0 & x & E0 & Hx & Kx). cbn in E0. subst k0. exists (Some (x, [])). split; [|apply Rs; exact Hx].
        apply (PickReg matches _ m path k x mt e No Hx Kx Cv Me). intros k' x' mt' Hx' Kx' Cv'.
        assert (Hin : In (mt', e, k') (exprs_from 0 (p_routes (planned cs)))) by (apply in_exprs; exists k', x'; auto). rewrite El in Hin. apply in_app_or in Hin.
        pose proof (exprs_sorted (p_routes (planned cs)) 0) as So. rewrite El in So. destruct Hin as [Hin|[Hin|Hin]].
        * pose proof (ss_mid _ _ _ _ _ So Hin) as Lt. unfold rg_set in Lt. cbn in Lt. lia.
        * inversion Hin. lia.
        * exfalso. apply (Nx _ Hin). auto.
      + exists None. split; [|reflexivity]. apply PickNone; [exact No|]. intros x mt e Hx Kx Cv. destruct (matches e path) eqn:Me; [|reflexivity]. exfalso.
        apply In_nth_error in Hx. destruct Hx as [k Hk]. destruct (latest_for m e (exprs_from 0 (p_routes (planned cs)))) as [k'|] eqn:La.
        * destruct (reg_find_complete matches (l_order lk) Ao _ _ _ _ _ _ T2 Me La) as (s' & E'). congruence.
        * unfold latest_for in La. destruct (find _ _) eqn:Ef in La; [discriminate|]. assert (Hi : In (mt, e, k) (rev (exprs_from 0 (p_routes (planned cs))))).
          { apply -> in_rev. apply in_exprs. exists k, x. auto. }
          pose proof (find_none _ _ Ef _ Hi) as Hn. cbn in Hn. unfold rg_method, rg_re in Hn. cbn in Hn. rewrite Cv, Nat.eqb_refl in Hn. discriminate.
      + exfalso. unfold reg_find in Er. destruct (aget m (s_regs s)); [|discriminate]. destruct (find _ _) as [[? ?]|]; discriminate.
      + exfalso. unfold reg_find in Er. destruct (aget m (s_regs s)); [|discriminate]. destruct (find _ _) as [[? ?]|]; discriminate.
    - apply (Props_Choice.C128_who_answers nat _ m path [] W) in Et. destruct Et as (j & g & Hg & Es & Ea & An). subst i a.
      destruct (in_paths _ _ _ (nth_error_In _ _ Hg)) as (k & x & E0 & Hx & Kx). cbn in E0. rewrite <- E0 in Hx.
      eexists. split; [apply (PickPath matches _ m path j g x Hg An Hx)|]. apply Rs. exact Hx.
  Qed.

  (** ** C131: what a request does, from the calls that built the server *)
  Theorem C131_end_to_end : forall cs evs s rq lk,
    forallb S_Router.tidy (ops cs) = true -> S_Copies.disciplined (S_Copies.Bufs [] [] [] 0) (ops cs) -> well_formed (planned cs) ->
    history grow uni matches cd new_server cs = (evs, Ok s) -> any_order (l_order lk) ->
    exists choice, picks matches (planned cs) (M_Auth.rq_method rq) (M_Auth.rq_path rq) choice /\
      request uni matches cd s rq lk = M_Auth.serve_http uni (as_planned cd (planned cs) choice lk) rq.
  Proof.
    intros cs evs s rq lk Td Di Wf Hh Ao. destruct (lookup_picks cs evs s lk (M_Auth.rq_method rq) (M_Auth.rq_path rq) Td Di Wf Hh Ao) as (choice & Pk & El).
    exists choice. split; [exact Pk|]. destruct (sim_history grow uni matches cd _ _ _ _ _ Hh sim_new) as [_ (_ & _ & R1 & R2 & R3)]. fold (planned cs) in R1, R2, R3.
    unfold request, as_planned, M_Auth.serve_http, M_Auth.run_request.
    cbn [M_Auth.sv_auth M_Auth.sv_find M_Auth.sv_ses M_Auth.sv_level M_Auth.sv_sched]. rewrite El, R1, R2, R3. reflexivity.
  Qed.
End All.

(** The choice is determined unless two different expressions for the method match. *)
Theorem C131_choice : forall matches p m path c1 c2, picks matches p m path c1 -> picks matches p m path c2 ->
  (forall x1 x2 m1 m2 e1 e2, In x1 (p_routes p) -> In x2 (p_routes p) -> o_key x1 = M_Router.KReg m1 e1 -> o_key x2 = M_Router.KReg m2 e2 ->
     covers m1 m = true -> covers m2 m = true -> matches e1 path = true -> matches e2 path = true -> e1 = e2) -> c1 = c2.
Proof.
  intros matches p m path c1 c2 H1 H2 U.
  destruct H1 as [i g x Hg An Hx|k x mt e No Hx Kx Cv Me Mx|No Al]; destruct H2 as [i' g' x' Hg' An' Hx'|k' x' mt' e' No' Hx' Kx' Cv' Me' Mx'|No' Al'];
    try reflexivity; try (exfalso; eapply No'; eassumption); try (exfalso; eapply No; eassumption).
  - pose proof (Props_Choice.C128_at_most_one nat _ m _ i i' An An'). subst i'. rewrite Hg in Hg'. inversion Hg'; subst g'. rewrite Hx in Hx'. inversion Hx'. reflexivity.
  - assert (e = e') by (apply (U x x' mt mt'); eauto using nth_error_In). subst e'. assert (k = k') by (pose proof (Mx k' x' mt' Hx' Kx' Cv'); pose proof (Mx' k x mt Hx Kx Cv); lia). subst k'.
    rewrite Hx in Hx'. inversion Hx'. reflexivity.
  - rewrite (Al' x mt e (nth_error_In _ _ Hx) Kx Cv) in Me. discriminate.
  - rewrite (Al x' mt' e' (nth_error_In _ _ Hx') Kx' Cv') in Me'. discriminate.
Qed.

(** *** in particular *)
Section Normal.
  Import M_Pipeline.
  Definition calm {A} (b : A -> beh) : Prop := forall c, b c = ([], HRet None).
  Definition names (ks : list call) : list bytes := map k_name ks.
  Lemma run1_calm w name b c : calm b -> run1 w name b c = (Call w name (add_debug c name) [] (HRet None), add_debug c name).
  Proof. intros H. unfold run1. rewrite H. reflexivity. Qed.
  Lemma stopped_debug c name : stopped (add_debug c name) = stopped c /\ c_skip (add_debug c name) = c_skip c /\ c_aborted (add_debug c name) = c_aborted c /\ c_tasks (add_debug c name) = c_tasks c.
  Proof. unfold add_debug. destruct (_ <=? _)%Z; auto. Qed.
  Definition quiet (c : ctx) : Prop := stopped c = false /\ c_skip c = false /\ c_aborted c = false /\ c_tasks c = [].
  Lemma quiet_debug c name : quiet c -> quiet (add_debug c name).
  Proof. destruct (stopped_debug c name) as (A & B0 & C & D). unfold quiet. rewrite A, B0, C, D. auto. Qed.
  Lemma run_list_calm mkw : forall hs i c, Forall (fun h => calm (h_run h)) hs -> quiet c -> exists ks c', run_list mkw i hs c = (ks, c', Continue) /\ names ks = map h_name hs /\ quiet c' /\ map k_who ks = map mkw (seq i (length hs)).
  Proof.
    induction hs as [|h hs IH]; intros i c Ca Q; [exists [], c; auto|]. inversion Ca; subst. cbn [run_list]. rewrite run1_calm by assumption. cbn [after_call k_out].
    destruct (quiet_debug c (h_name h) Q) as (Q1 & Q2). rewrite Q1. cbn [andb]. destruct (IH (S i) (add_debug c (h_name h)) H2 (conj Q1 Q2)) as (ks & c' & E & En & Q' & Ew). rewrite E.
    eexists _, _. split; [reflexivity|]. cbn [names map k_name k_who length seq]. unfold names in En. rewrite En, Ew. auto.
  Qed.
  Lemma run_http_calm s m path lvl sched : hs_main s = Some m -> calm (m_init m) -> calm (m_run m) -> Forall (fun h => calm (h_run h)) (hs_before s ++ hs_after s) ->
    (forall l, hs_last s = Some l -> forall e c, l_run l c e = ([], HRet None)) -> S_Pipeline.legal_order sched ->
    exists h, run_http (Some s) None path lvl sched = h /\ x_status h = None /\ x_result h = RRet None /\
      names (x_calls h) = [m_name m] ++ map h_name (hs_before s) ++ [m_name m] ++ map h_name (hs_after s) ++ [[]] ++ match hs_last s with Some l => [l_name l] | None => [] end /\
      map k_who (x_calls h) = [WInit] ++ map WBefore (seq 0 (length (hs_before s))) ++ [WMain] ++ map WAfter (seq 0 (length (hs_after s))) ++ [WWait] ++ match hs_last s with Some l => [WLast None] | None => [] end.
  Proof.
    intros Em Ci Cr Ch Cl Lo. apply Forall_app in Ch. destruct Ch as [Cb Ca]. unfold run_http. cbn [c_stopped c_aborted c_skip c_cancelled c_log c_tasks new_ctx].
    set (c1 := Ctx false false false false lvl [] []). assert (Q : quiet c1) by (split; [|split; [|split]]; reflexivity). unfold run_set. rewrite Em, run1_calm by exact Ci. cbn [after_call k_out andb].
    destruct (run_list_calm WBefore (hs_before s) 0 (add_debug c1 (m_name m)) Cb (quiet_debug _ _ Q)) as (kb & c2 & E2 & N2 & Q2 & W2). rewrite E2. destruct Q2 as (Q2a & Q2b & Q2c). rewrite Q2b.
    rewrite run1_calm by exact Cr. cbn [after_call k_out andb]. destruct (quiet_debug c2 (m_name m) (conj Q2a (conj Q2b Q2c))) as (Q3a & Q3b & Q3c). rewrite Q3a.
    destruct (run_list_calm WAfter (hs_after s) 0 (add_debug c2 (m_name m)) Ca (conj Q3a (conj Q3b Q3c))) as (ka & c4 & E4 & N4 & (Q4a & Q4b & Q4c & Q4d) & W4). rewrite E4. rewrite Q4c.
    unfold eg_wait. rewrite Q4d. assert (Es : sched [] = []) by (apply Permutation_nil, Permutation_sym, Lo). rewrite Es. cbn [first_error combine_err]. unfold run_last.
    set (L := (Call WInit (m_name m) (add_debug c1 (m_name m)) [] (HRet None) :: kb ++ [Call WMain (m_name m) (add_debug c2 (m_name m)) [] (HRet None)] ++ ka)).
    assert (R1 : forall K, names (L ++ K) = [m_name m] ++ map h_name (hs_before s) ++ [m_name m] ++ map h_name (hs_after s) ++ names K).
    { intros K. unfold L, names in N2, N4 |- *. rewrite map_app. cbn [map k_name]. rewrite !map_app, N2, N4. cbn [map k_name app]. rewrite <- !app_assoc. reflexivity. }
    assert (R2 : forall K, map k_who (L ++ K) = [WInit] ++ map WBefore (seq 0 (length (hs_before s))) ++ [WMain] ++ map WAfter (seq 0 (length (hs_after s))) ++ map k_who K).
    { intros K. unfold L. rewrite map_app. cbn [map k_who]. rewrite !map_app, W2, W4. cbn [map k_who app]. rewrite <- !app_assoc. reflexivity. }
    destruct (hs_last s) as [l|] eqn:El.
    - rewrite (Cl l eq_refl). eexists. split; [reflexivity|]. cbn [x_status x_result x_calls]. split; [reflexivity|]. split; [reflexivity|].
      match goal with |- context [[Call WWait ?a ?b ?c ?d] ++ [?k]] => split; [apply (R1 [Call WWait a b c d; k])|apply (R2 [Call WWait a b c d; k])] end.
    - eexists. split; [reflexivity|]. cbn [x_status x_result x_calls]. split; [reflexivity|]. split; [reflexivity|].
      match goal with |- context [[Call WWait ?a ?b ?c ?d] ++ []] => split; [apply (R1 [Call WWait a b c d])|apply (R2 [Call WWait a b c d])] end.
  Qed.
End Normal.
Section Serving.
  Variables (grow : nat -> nat -> nat) (uni : bytes -> bytes) (matches : rgx -> bytes -> bool) (cd : code).
  Section Built.
    Variables (cs : list scall) (evs : list (list M_Auth.event)) (s : server).
    Hypothesis Td : forallb S_Router.tidy (ops cs) = true.
    Hypothesis Di : S_Copies.disciplined (S_Copies.Bufs [] [] [] 0) (ops cs).
    Hypothesis Wf : well_formed (planned cs).
    Hypothesis Hh : history grow uni matches cd new_server cs = (evs, Ok s).

    (** A request that authentication does not stop, for a route whose handlers do nothing out of the ordinary: Init and Run of its main handler,
        between them what was in front, behind them what was behind it and the last handler, each once and in order. *)
    Theorem C131_normal_request : forall rq lk x a m h0,
      any_order (l_order lk) -> S_Pipeline.legal_order (l_sched lk) ->
      (forall c, picks matches (planned cs) (M_Auth.rq_method rq) (M_Auth.rq_path rq) c -> c = Some (x, a)) ->
      p_auth (planned cs) = Some h0 -> M_Auth.a_use h0 = false -> p_ses (planned cs) = None ->
      kt_main (o_kit x) = Some m -> calm (M_Pipeline.m_init (c_main cd m a)) -> calm (M_Pipeline.m_run (c_main cd m a)) ->
      (forall k, In k (kt_before (o_kit x) ++ kt_after (o_kit x)) -> calm (M_Pipeline.h_run (c_handler cd k a))) ->
      (forall k, kt_last (o_kit x) = Some k -> forall e c, M_Pipeline.l_run (c_last cd k a) c e = ([], M_Pipeline.HRet None)) ->
      let main := M_Pipeline.m_name (c_main cd m a) in let name k := M_Pipeline.h_name (c_handler cd k a) in
      exists h, request uni matches cd s rq lk = ([M_Auth.EvLookup (M_Auth.rq_method rq) (M_Auth.rq_path rq); M_Auth.EvPipeline h], Ok tt) /\
        M_Pipeline.x_status h = None /\ M_Pipeline.x_result h = M_Pipeline.RRet None /\
        names (M_Pipeline.x_calls h) = [main] ++ map name (kt_before (o_kit x)) ++ [main] ++ map name (kt_after (o_kit x)) ++ [[]] ++
          match kt_last (o_kit x) with Some k => [M_Pipeline.l_name (c_last cd k a)] | None => [] end /\
        map M_Pipeline.k_who (M_Pipeline.x_calls h) = [M_Pipeline.WInit] ++ map M_Pipeline.WBefore (seq 0 (length (kt_before (o_kit x)))) ++ [M_Pipeline.WMain] ++
          map M_Pipeline.WAfter (seq 0 (length (kt_after (o_kit x)))) ++ [M_Pipeline.WWait] ++ match kt_last (o_kit x) with Some _ => [M_Pipeline.WLast None] | None => [] end.
    Proof.
      intros rq lk x a m h0 Ao Lo U Au Nu Se Em Ci Cr Ch Cl main name. destruct (C131_end_to_end grow uni matches cd cs evs s rq lk Td Di Wf Hh Ao) as (c & Pk & ->). rewrite (U c Pk).
      unfold M_Auth.serve_http, as_planned, M_Auth.run_request. cbn [M_Auth.sv_auth M_Auth.sv_find M_Auth.sv_ses M_Auth.sv_level M_Auth.sv_sched option_map]. rewrite Au, Nu, Se.
      destruct (run_http_calm (set_of cd (x, a)) (c_main cd m a) (M_Auth.rq_path rq) (p_level (planned cs)) (l_sched lk)) as (h & -> & H1 & H2 & H3 & H4).
      - unfold set_of. cbn. rewrite Em. reflexivity.
      - exact Ci.
      - exact Cr.
      - unfold set_of. cbn. rewrite <- map_app. apply Forall_map, Forall_forall. exact Ch.
      - unfold set_of. cbn. intros l El. destruct (kt_last (o_kit x)) as [k|]; [|discriminate]. cbn in El. inversion El; subst. apply Cl. reflexivity.
      - exact Lo.
      - exists h. rewrite H2. split; [reflexivity|]. split; [exact H1|]. split; [reflexivity|]. unfold set_of in H3, H4. cbn in H3, H4. split.
        + cbn. rewrite H3, !map_map. destruct (kt_last (o_kit x)); reflexivity.
        + cbn. rewrite H4, !map_length. destruct (kt_last (o_kit x)); reflexivity.
    Qed.
    (** A request for which there is no route: 404, and nobody is called. *)
    Theorem C131_no_route : forall rq lk h0,
      any_order (l_order lk) -> picks matches (planned cs) (M_Auth.rq_method rq) (M_Auth.rq_path rq) None ->
      p_auth (planned cs) = Some h0 -> M_Auth.a_use h0 = false ->
      exists h, request uni matches cd s rq lk = ([M_Auth.EvLookup (M_Auth.rq_method rq) (M_Auth.rq_path rq); M_Auth.EvPipeline h], Ok tt) /\
        M_Pipeline.x_status h = Some 404%N /\ M_Pipeline.x_calls h = [].
    Proof.
      intros rq lk h0 Ao Pk Au Nu. destruct (C131_end_to_end grow uni matches cd cs evs s rq lk Td Di Wf Hh Ao) as (c & Pk' & ->).
      assert (c = None).
      { inversion Pk as [| |No Al]. destruct Pk' as [i g x Hg An Hx|k x mt e No' Hx Kx Cv Me Mx|No' Al']; [exfalso; exact (No i An)| |reflexivity].
        rewrite (Al x mt e (nth_error_In _ _ Hx) Kx Cv) in Me. discriminate. }
      subst c. unfold M_Auth.serve_http, as_planned, M_Auth.run_request. cbn [M_Auth.sv_auth M_Auth.sv_find M_Auth.sv_ses M_Auth.sv_level M_Auth.sv_sched option_map]. rewrite Au, Nu.
      eexists. split; [reflexivity|]. split; reflexivity.
    Qed.
    (** A request that authentication asks for and does not admit: 401, no lookup and nobody is called. *)
    Theorem C131_refused : forall rq lk h0 f,
      any_order (l_order lk) -> p_auth (planned cs) = Some h0 -> M_Auth.a_use h0 = true -> M_Auth.a_access h0 = Some f -> f rq = Ok true ->
      S_Auth.log_ok h0 -> ~ S_Auth.admitted uni h0 rq ->
      exists lg, request uni matches cd s rq lk = (lg ++ [M_Auth.EvStatus 401; M_Auth.EvHeader (B"WWW-Authenticate") (M_Auth.a_header h0)], Ok tt) /\
        (lg = [] \/ exists u p, lg = [M_Auth.EvLog u p false]).
    Proof.
      intros rq lk h0 f Ao Au Us Ac Fr Lg Na. destruct (C131_end_to_end grow uni matches cd cs evs s rq lk Td Di Wf Hh Ao) as (c & _ & ->).
      apply (Props_Auth.C33_refused uni (as_planned cd (planned cs) c lk) h0 rq f); assumption.
    Qed.
  End Built.

  (** ** C132: what happens to routers, sets and clones afterwards does not change how requests are served *)
  Lemma bystander_call s c ev s' p : do_call grow uni matches cd s c = (ev, Ok s') -> bystander c = true ->
    s_tree s' = s_tree s /\ s_regs s' = s_regs s /\ s_auth s' = s_auth s /\ s_ses s' = s_ses s /\ s_level s' = s_level s /\
    length (M_Router.st_routes (s_state s')) = length (M_Router.st_routes (s_state s)) /\ p_routes (plan_call p c) = p_routes p.
  Proof.
    intros E By. destruct c as [o| | | | | | |rq lk]; try discriminate By.
    - cbn [do_call] in E. inversion E as [[Ev Eo]]. clear E Ev. unfold do_op in Eo. destruct (M_Router.step grow (s_state s) o) as [st|] eqn:Es; [|discriminate]. unfold enter in Eo.
      assert (Er : M_Router.st_routes st = M_Router.st_routes (s_state s) /\ p_routes (plan_op p o) = p_routes p).
      { destruct o; cbn [bystander] in By; try discriminate By; cbn [M_Router.step] in Es; cbn [plan_op];
          repeat match type of Es with
             | (match nth_error ?l ?i with _ => _ end) = Ok _ => destruct (nth_error l i) as [?x|]; [|discriminate]
             | (match M_Router.eval_arg ?s ?a with _ => _ end) = Ok _ => destruct (M_Router.eval_arg s a) as [[?ha ?sa]|]; [|discriminate]
             | (if ?c then _ else _) = Ok _ => destruct c; [|discriminate]
             end; unfold M_Router.set_after, M_Router.set_before, M_Router.new_set, alloc in Es; cbv beta iota zeta in Es;
          repeat (match type of Es with context [append ?a ?b ?c ?d] => destruct (append a b c d) as [? ?] end; cbv beta iota zeta in Es);
          (inversion Es; subst; split; reflexivity). }
      destruct Er as [Er Ep]. rewrite Er, (proj2 (nth_error_None _ _)) in Eo by lia. inversion Eo; subst. cbn [s_tree s_regs s_auth s_ses s_level s_state plan_call op_of]. rewrite Er. repeat (split; [reflexivity|]). exact Ep.
    - cbn [do_call] in E. destruct (request uni matches cd s rq lk) as [e [[]|]]; inversion E; subst. repeat (split; [reflexivity|]). reflexivity.
  Qed.
  Lemma bystander_history : forall more s evs s' p, history grow uni matches cd s more = (evs, Ok s') -> forallb bystander more = true ->
    s_tree s' = s_tree s /\ s_regs s' = s_regs s /\ s_auth s' = s_auth s /\ s_ses s' = s_ses s /\ s_level s' = s_level s /\
    length (M_Router.st_routes (s_state s')) = length (M_Router.st_routes (s_state s)) /\ p_routes (fold_left plan_call more p) = p_routes p.
  Proof.
    induction more as [|c more IH]; intros s evs s' p E By; cbn [history] in E; [inversion E; subst; repeat (split; [reflexivity|]); reflexivity|].
    destruct (do_call grow uni matches cd s c) as [ev [s1|]] eqn:Ec; [|discriminate]. destruct (history grow uni matches cd s1 more) as [evs1 r1] eqn:Eh. inversion E; subst.
    cbn [forallb] in By. apply andb_prop in By. destruct By as [B1 B2]. destruct (bystander_call _ _ _ _ p Ec B1) as (A1 & A2 & A3 & A4 & A5 & A6 & A7).
    destruct (IH _ _ _ (plan_call p c) Eh B2) as (C1 & C2 & C3 & C4 & C5 & C6 & C7). cbn [fold_left]. repeat (split; [congruence|]). congruence.
  Qed.
  Lemma history_app : forall cs s evs s1 more evs' s', history grow uni matches cd s cs = (evs, Ok s1) -> history grow uni matches cd s1 more = (evs', Ok s') ->
    history grow uni matches cd s (cs ++ more) = (evs ++ evs', Ok s').
  Proof.
    induction cs as [|c cs IH]; intros s evs s1 more evs' s' E1 E2; cbn [history app] in E1 |- *; [inversion E1; subst; exact E2|].
    destruct (do_call grow uni matches cd s c) as [ev [s2|]]; [|discriminate]. destruct (history grow uni matches cd s2 cs) as [evs2 r2] eqn:Eh. inversion E1; subst.
    rewrite (IH s2 evs2 s1 more evs' s' Eh E2). reflexivity.
  Qed.
  Lemma ops_app cs more : ops (cs ++ more) = ops cs ++ ops more.
  Proof. unfold ops. apply flat_map_app. Qed.
  Lemma disciplined_app : forall os b os', S_Copies.disciplined b (os ++ os') -> S_Copies.disciplined b os.
  Proof. induction os as [|o os IH]; intros b os' H; [exact I|]. cbn [app S_Copies.disciplined] in H |- *. destruct H as [H1 H2]. split; [exact H1|]. apply (IH _ os' H2). Qed.
  Lemma routes_len cs evs s : history grow uni matches cd new_server cs = (evs, Ok s) -> length (M_Router.st_routes (s_state s)) = length (p_routes (planned cs)).
  Proof.
    intros Hh. destruct (sim_history grow uni matches cd _ _ _ _ _ Hh sim_new) as [_ ((_ & _ & A3) & _)]. apply (f_equal (@length _)) in A3. rewrite !map_length in A3. exact A3.
  Qed.
  Theorem C132_bystanders : forall cs more evs evs' s s',
    forallb S_Router.tidy (ops (cs ++ more)) = true -> S_Copies.disciplined (S_Copies.Bufs [] [] [] 0) (ops (cs ++ more)) ->
    history grow uni matches cd new_server cs = (evs, Ok s) -> history grow uni matches cd s more = (evs', Ok s') -> forallb bystander more = true ->
    forall rq lk, request uni matches cd s' rq lk = request uni matches cd s rq lk.
  Proof.
    intros cs more evs evs' s s' Td Di Hh Hm By rq lk. pose proof (history_app _ _ _ _ _ _ _ Hh Hm) as Ha.
    destruct (bystander_history _ _ _ _ (planned cs) Hm By) as (A1 & A2 & A3 & A4 & A5 & A6 & A7).
    assert (Pl : p_routes (planned (cs ++ more)) = p_routes (planned cs)) by (unfold planned at 1; rewrite fold_left_app; exact A7).
    assert (Td' : forallb S_Router.tidy (ops cs) = true) by (rewrite ops_app, forallb_app in Td; apply andb_prop in Td; apply Td).
    assert (Di' : S_Copies.disciplined (S_Copies.Bufs [] [] [] 0) (ops cs)) by (rewrite ops_app in Di; apply (disciplined_app _ _ _ Di)).
    assert (Rs : forall i a, resolve cd s' i a = resolve cd s i a).
    { intros i a. destruct (nth_error (p_routes (planned cs)) i) as [x|] eqn:Ex.
      - rewrite (resolve_planned grow uni matches cd cs evs s i x a Td' Di' Hh Ex). apply (resolve_planned grow uni matches cd (cs ++ more) (evs ++ evs') s' i x a Td Di Ha). rewrite Pl. exact Ex.
      - pose proof (routes_len _ _ _ Hh) as L1. pose proof (routes_len _ _ _ Ha) as L2. rewrite Pl in L2. apply nth_error_None in Ex.
        unfold resolve. rewrite (proj2 (nth_error_None (M_Router.st_routes (s_state s')) i)), (proj2 (nth_error_None (M_Router.st_routes (s_state s)) i)) by lia. reflexivity. }
    unfold request, M_Auth.serve_http, M_Auth.run_request. cbn [M_Auth.sv_auth M_Auth.sv_find M_Auth.sv_ses M_Auth.sv_level M_Auth.sv_sched]. rewrite A3, A4, A5.
    assert (Lk : forall m path, lookup matches cd s' lk m path = lookup matches cd s lk m path).
    { intros m path. unfold lookup. rewrite A1, A2. destruct (server_find _ _ _ _ _ _ _) as [[i| | |] a]; try reflexivity. apply Rs. }
    rewrite Lk. reflexivity.
  Qed.

  (** ** C133: a new route leaves the requests it does not take over as they were *)
  Theorem C133_new_route : forall cs c evs evs' s s' x m path i,
    forallb S_Router.tidy (ops (cs ++ [c])) = true -> S_Copies.disciplined (S_Copies.Bufs [] [] [] 0) (ops (cs ++ [c])) -> well_formed (planned (cs ++ [c])) ->
    history grow uni matches cd new_server cs = (evs, Ok s) -> history grow uni matches cd s [c] = (evs', Ok s') ->
    p_routes (planned (cs ++ [c])) = p_routes (planned cs) ++ [x] ->
    answers (path_regs (planned cs)) m (segments path) i ->
    (forall mt rt, o_key x = M_Router.KPath mt rt -> ~ takes_over (path_regs (planned cs)) (S_Route.Reg mt rt (length (p_routes (planned cs)))) m (segments path) i) ->
    forall auth lk, request uni matches cd s' (M_Auth.Request m path auth) lk = request uni matches cd s (M_Auth.Request m path auth) lk.
  Proof.
    intros cs c evs evs' s s' x m path i Td Di Wf Hh Hm Px An Nt auth lk. pose proof (history_app _ _ _ _ _ _ _ Hh Hm) as Ha.
    assert (Td' : forallb S_Router.tidy (ops cs) = true) by (rewrite ops_app, forallb_app in Td; apply andb_prop in Td; apply Td).
    assert (Di' : S_Copies.disciplined (S_Copies.Bufs [] [] [] 0) (ops cs)) by (rewrite ops_app in Di; apply (disciplined_app _ _ _ Di)).
    destruct (sim_history grow uni matches cd _ _ _ _ _ Hh sim_new) as [_ (_ & (T1 & _) & R1 & R2 & R3)]. fold (planned cs) in T1, R1, R2, R3.
    destruct (sim_history grow uni matches cd _ _ _ _ _ Ha sim_new) as [_ (_ & (T1' & _) & R1' & R2' & R3')]. fold (planned (cs ++ [c])) in T1', R1', R2', R3'.
    assert (Pr : path_regs (planned (cs ++ [c])) = path_regs (planned cs) ++ match o_key x with M_Router.KPath mt rt => [S_Route.Reg mt rt (length (p_routes (planned cs)))] | _ => [] end).
    { unfold path_regs. rewrite Px, paths_app. cbn [paths_from Nat.add]. destruct (o_key x); reflexivity. }
    assert (W : forallb (fun r => wf_routeb (r_route r)) (path_regs (planned (cs ++ [c]))) = true).
    { apply forallb_forall. intros g Hg. apply in_paths in Hg. destruct Hg as (k & [key kt] & _ & Hk & Ek). cbn in Ek. subst key. apply (Wf _ _ kt (nth_error_In _ _ Hk)). }
    assert (W0 : forallb (fun r => wf_routeb (r_route r)) (path_regs (planned cs)) = true) by (rewrite Pr, forallb_app in W; apply andb_prop in W; apply W).
    destruct An as (g & Hg & An). assert (An' : answers (path_regs (planned cs)) m (segments path) i) by (exists g; auto).
    assert (F : tree_find (routed (path_regs (planned cs))) m path [] = (TFound (r_set g), bindings (pattern_of (r_route g)) (segments path))).
    { apply (Props_Choice.C128_who_answers nat _ m path [] W0). exists i, g. auto. }
    assert (F' : tree_find (routed (path_regs (planned (cs ++ [c])))) m path [] = (TFound (r_set g), bindings (pattern_of (r_route g)) (segments path))).
    { rewrite Pr in W |- *. destruct (o_key x) as [mt rt|mt e] eqn:Ex; [|rewrite app_nil_r; exact F].
      destruct (Props_Choice.C129_taking_over nat _ _ m path [] [] _ _ i g W F Hg An') as (_ & _ & H). apply H. apply Nt. reflexivity. }
    destruct (in_paths _ _ _ (nth_error_In _ _ Hg)) as (k & x0 & E0 & Hx & _). cbn in E0. rewrite <- E0 in Hx.
    assert (Hx' : nth_error (p_routes (planned (cs ++ [c]))) (r_set g) = Some x0).
    { rewrite Px, nth_error_app1; [exact Hx|]. apply nth_error_Some. congruence. }
    assert (Re : p_auth (plan_call (planned cs) c) = p_auth (planned cs) /\ p_ses (plan_call (planned cs) c) = p_ses (planned cs) /\ p_level (plan_call (planned cs) c) = p_level (planned cs)).
    { assert (Ne : p_routes (plan_call (planned cs) c) <> p_routes (planned cs)).
      { unfold planned in Px |- *. rewrite fold_left_app in Px. cbn [fold_left] in Px. rewrite Px. intros X. apply (f_equal (@length _)) in X. rewrite app_length in X. cbn in X. lia. }
      assert (Po : forall o, p_auth (plan_op (planned cs) o) = p_auth (planned cs) /\ p_ses (plan_op (planned cs) o) = p_ses (planned cs) /\ p_level (plan_op (planned cs) o) = p_level (planned cs)).
      { intros o. destruct o; try (split; [|split]; reflexivity). destruct s0; split; [|split| |split]; reflexivity. }
      destruct c; cbn [plan_call op_of] in Ne |- *; try apply Po; try (exfalso; apply Ne; reflexivity). destruct sets; [exfalso; apply Ne; reflexivity|apply Po]. }
    destruct Re as (Q1 & Q2 & Q3).
    assert (Pc : plan_call (planned cs) c = planned (cs ++ [c])) by (unfold planned; rewrite fold_left_app; reflexivity). rewrite Pc in Q1, Q2, Q3.
    unfold request, M_Auth.serve_http, M_Auth.run_request. cbn [M_Auth.sv_auth M_Auth.sv_find M_Auth.sv_ses M_Auth.sv_level M_Auth.sv_sched M_Auth.rq_method M_Auth.rq_path].
    rewrite R1, R2, R3, R1', R2', R3', Q1, Q2, Q3.
    assert (Lk : lookup matches cd s' lk m path = lookup matches cd s lk m path).
    { unfold lookup, server_find. rewrite T1, T1', F, F'. rewrite (resolve_planned grow uni matches cd cs evs s _ x0 _ Td' Di' Hh Hx).
      apply (resolve_planned grow uni matches cd (cs ++ [c]) (evs ++ evs') s' _ x0 _ Td Di Ha Hx'). }
    rewrite Lk. reflexivity.
  Qed.
End Serving.
Print Assumptions C131_end_to_end.
Print Assumptions C131_choice.
Print Assumptions C131_normal_request.
Print Assumptions C131_no_route.
Print Assumptions C131_refused.
Print Assumptions C132_bystanders.
Print Assumptions C133_new_route.

(** ** A concrete server *)
Section Example_server.
  Import M_Router.
  Definition nm (k : nat) (a : args) : bytes := ch (N.of_nat (48 + k)) :: concat (map snd a).
  Definition ex_code : code := Code (fun k a => M_Pipeline.Handler (nm k a) (fun _ => ([], M_Pipeline.HRet None)))
    (fun k a => M_Pipeline.Main (nm k a) (fun _ => ([], M_Pipeline.HRet None)) (fun _ => ([], M_Pipeline.HRet None)))
    (fun k a => M_Pipeline.Last (nm k a) (fun _ _ => ([], M_Pipeline.HRet None))).
  Definition ex_matches (e : rgx) (path : bytes) : bool := has_prefix path (B"/r").
  Definition ex_luck := Luck (fun l => l) (fun l => l).
  Definition ex_calls : list scall :=
    [COp NewRouter; COp (RBefore 0 (Fresh [1] 0)); COp (RLastAfter 0 2); COp (RClone 0); COp (RFirst 1 3); COp (RLast 1 (Some 7));
     CRouterVerb 0 VGet (B"/a/:id") (Some 10); CRouterVerb 1 VGetPost (B"/b") (Some 11); COp NewSet; COp (SBefore 0 (Fresh [4; 5] 0));
     CServerVerb VPost (B"/a/x") (Some 12) [0]; COp (RUse 0 (KReg (B"GET") 0) (Some 13))].
  Definition ex_more : list scall := [COp (RLastAfter 0 9); COp (SAfter 0 (Fresh [8] 0)); COp (RClone 1); COp (RFirst 2 9)].
  Definition ex_run (cs : list scall) : res server := snd (history go_grow (fun x => x) ex_matches ex_code new_server cs).
  Definition called (ev : list M_Auth.event * res unit) : list bytes :=
    flat_map (fun e => match e with M_Auth.EvPipeline h => names (M_Pipeline.x_calls h) | _ => [] end) (fst ev).
  Definition get (cs : list scall) (m path : bytes) : list bytes :=
    match ex_run cs with Ok s => called (request (fun x => x) ex_matches ex_code s (M_Auth.Request m path []) ex_luck) | Panic => [B"panic"] end.
  Lemma well_formed_b p : forallb (fun x => match o_key x with KPath _ rt => wf_routeb rt | _ => true end) (p_routes p) = true -> well_formed p.
  Proof. intros H m rt k Hi. rewrite forallb_forall in H. apply (H _ Hi). Qed.
  Example C131_example :
    forallb S_Router.tidy (ops (ex_calls ++ ex_more)) = true /\ S_Copies.disciplined (S_Copies.Bufs [] [] [] 0) (ops (ex_calls ++ ex_more)) /\ well_formed (planned (ex_calls ++ ex_more)) /\
    forallb bystander ex_more = true /\
    get ex_calls (B"GET") (B"/a/v") = [B":v"; B"1v"; B":v"; B"2v"; []] /\
    get ex_calls (B"POST") (B"/b/") = [B";"; B"3"; B"1"; B";"; B"2"; []; B"7"] /\
    get ex_calls (B"POST") (B"/a/x") = [] /\
    get ex_calls (B"GET") (B"/r") = [B"="; B"1"; B"="; B"2"; []] /\
    get ex_calls (B"GET") (B"/c") = [] /\
    get (ex_calls ++ ex_more) (B"GET") (B"/a/v") = [B":v"; B"1v"; B":v"; B"2v"; []].
  Proof.
    split; [reflexivity|]. split; [apply P_Copies.disciplinedb_ok; reflexivity|]. split.
    - apply well_formed_b. vm_compute. reflexivity.
    - split; [reflexivity|]. vm_compute. repeat (split; [reflexivity|]). reflexivity.
  Qed.
  (** With authentication switched on nobody gets in without the password. *)
  Example C131_example_auth :
    let cs := ex_calls ++ [CAuth (M_Auth.SetRoles [(B"bob", B"secret")]); CAuth (M_Auth.SetUse true)] in
    get cs (B"GET") (B"/a/v") = [] /\
    match ex_run cs with
    | Ok s => fst (request (fun x => x) ex_matches ex_code s (M_Auth.Request (B"GET") (B"/a/v") []) ex_luck)
              = [M_Auth.EvStatus 401; M_Auth.EvHeader (B"WWW-Authenticate") (B"Basic realm=""Access to the staging site"", charset=""UTF-8""")]
              /\ called (request (fun x => x) ex_matches ex_code s (M_Auth.Request (B"GET") (B"/a/v") (B"Basic Ym9iOnNlY3JldA==")) ex_luck) = [B":v"; B"1v"; B":v"; B"2v"; []]
    | Panic => False
    end.
  Proof. vm_compute. repeat (split; [reflexivity|]). reflexivity. Qed.
End Example_server.
