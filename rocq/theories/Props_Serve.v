(** C92-C96: requests handled concurrently. *)
From Verif Require Import Base GoErrors M_Tree M_RegTree M_Ctx M_Pipeline M_Auth S_Route S_Ctx M_Serve S_Serve P_Serve P_Serve2 P_Serve3 S_Auth S_Pipeline P_Pipeline Props_Pipeline Props_Tree Props_Ctx.
From Coq Require Import Permutation.

(** ** A server to try things on: /u/:id answers with the id, then with what "k" was set to *)
Section Example_server.
  Definition ex_before : ihandler (V:=bytes) := IHandler (B"before") (Param (B"id") (fun v => SetData (B"k") v (Done (HRet None)))).
  Definition ex_main : imain (V:=bytes) :=
    IMain (B"main") (Done (HRet None))
      (Param (B"id") (fun v => GetData (B"k") (fun k => Write (v ++ match k with Some k => k | None => [] end) (Done (HRet None))))).
  Definition ex_set : iset bytes := ISet [ex_before] [] None (Some ex_main).
  Definition ex_table : table bytes := Table (routed [Reg MethodGet (B"/u/:id") ex_set]) [].
  Definition ex_req (path : bytes) : req := Req (Request MethodGet path []) [] [].
  Definition ex_auth := Some (BaseAuth false [] [] [] [] false false None).
  Notation ex_served := (served (V:=bytes) (fun _ _ => false) (fun x => x) ex_auth None 1%Z).
  Notation ex_gos := (gos (V:=bytes) (fun _ _ => false) (fun x => x) ex_auth None 1%Z).
  (* two requests taking turns *)
  Definition ex_turns : list move := concat (repeat [Go 0; Go 1] 11).
  Definition ex_answer (y : option (sys bytes)) (i : nat) : option (N * bytes) :=
    match y with
    | Some y => match nth_error (y_threads y) i with Some (_, TDone _ a) => Some (an_status a, an_body a) | _ => None end
    | None => None
    end.
End Example_server.
Notation ex_served := (served (V:=bytes) (fun _ _ => false) (fun x => x) ex_auth None 1%Z).
Notation ex_gos := (gos (V:=bytes) (fun _ _ => false) (fun x => x) ex_auth None 1%Z).

Section Statements.
  Context {V : Type}.
  Variables (matches : rgx -> bytes -> bool) (uni : bytes -> bytes) (auth : option base_auth)
            (ses : option (prog V)) (lvl : Z).
  Notation served := (served matches uni auth ses lvl).
  Notation alone := (alone matches uni auth ses lvl).
  Notation later := (ymany matches uni auth ses lvl).

  (** ** C92 *)
  Theorem C92_isolation : forall t0 qs y1 y2 i q a,
    served t0 qs y1 -> arrives y1 i q -> later y1 y2 -> answered y2 i q a ->
    exists t, in_force y1 y2 t /\ alone t q a.
  Proof. apply isolation. Qed.
  (** ... and it stays answered so *)
  Theorem C92_final : forall y1 y2 i q a, answered y1 i q a -> later y1 y2 -> answered y2 i q a.
  Proof.
    intros y1 y2 i q a A M. induction M as [|x y z M IH S]; [exact A|]. destruct (IH A) as [kept E]. exists kept.
    destruct S as [ts t tss h pl l1 q1 th l2 th' h' pl' Et Al H| |]; cbn [y_threads] in *; [|exact E|exact E].
    destruct (Nat.lt_trichotomy i (length l1)) as [L|[->|L]].
    - rewrite nth_error_app1 in * by exact L. exact E.
    - rewrite nth_error_app2, Nat.sub_diag in * by lia. cbn [nth_error] in *. injection E as -> ->. inversion H.
    - rewrite nth_error_app2 in * by lia. destruct (i - length l1) as [|j] eqn:Ej; [lia|]. exact E.
  Qed.

  (** ** C93: the parameters seen through a Context that outlives its request *)
  Theorem C93_partial : forall t0 qs y i q a u,
    served t0 qs y -> alive y -> remembers y i q a u -> u = [] \/ exists j q', j <> i /\ handling y j q' u.
  Proof.
    intros t0 qs y i q a u R Al (id & E & ->).
    destruct (kept_object matches uni auth ses lvl t0 qs y i q id a R Al E) as [X|(j & q' & th & Ne & Ej & Hi)]; [left; exact X|].
    right. exists j, q'. split; [exact Ne|]. exists th, id. split; [exact Ej|]. split; [reflexivity|].
    destruct th as [|i'|i' ? ? ? ? ?|i' ? ? ?| |]; cbn [held] in Hi; try (destruct Hi; fail); destruct Hi as [->|[]]; reflexivity.
  Qed.

  (** what a request alone gives, with C92 *)
  Lemma answered_ok t0 qs y i q a : served t0 qs y -> answered y i q a -> nth_error qs i = Some q /\ exists t, In t (y_tables y) /\ alone t q a.
  Proof.
    intros R A.
    assert (Len : forall x z, later x z -> map fst (y_threads z) = map fst (y_threads x)).
    { induction 1 as [|x y' z M IH S]; [reflexivity|]. rewrite <- IH. destruct S; cbn [y_threads]; try reflexivity. rewrite !map_app. reflexivity. }
    assert (Q : nth_error qs i = Some q).
    { destruct A as [kept E]. apply (map_nth_error fst) in E. rewrite (Len _ _ R) in E. cbn [start y_threads fst] in E.
      rewrite map_map in E. cbn [fst] in E. rewrite map_id in E. exact E. }
    split; [exact Q|].
    destruct (isolation matches uni auth ses lvl t0 qs (start t0 qs) y i q a) as (t & (new & cur & old & E1 & E2 & It) & Al); [constructor| |exact R|exact A|].
    - unfold arrives. cbn [start y_threads]. apply (map_nth_error (fun q => (q, TArrived))). exact Q.
    - exists t. split; [|exact Al]. rewrite E2, E1. apply in_app_or in It as [It|[->|[]]]; apply in_or_app; [left; exact It|right; left; reflexivity].
  Qed.

  (** ** C94 *)
  Theorem C94_data : forall t0 qs y i q a pre key r post,
    served t0 qs y -> answered y i q a -> an_trace a = pre ++ VGet key r :: post -> r = last_set pre key.
  Proof.
    intros t0 qs y i q a pre key r post R A E. destruct (answered_ok _ _ _ _ _ _ R A) as (_ & t & _ & Al).
    destruct (alone_ok matches uni auth ses lvl t q a Al) as [[_ ->]|[_ [[-> _]|(s & u0 & _ & O)]]]; [destruct pre; discriminate E|destruct pre; discriminate E|].
    destruct O as (_ & _ & _ & _ & T). exact (T pre _ post E).
  Qed.

  (** ** C95 *)
  Theorem C95_response : forall t0 qs y i q a,
    served t0 qs y -> answered y i q a ->
    (* handlers ran: the client gets what they wrote and the last status they set, whatever they returned *)
    (an_trace a <> [] /\ an_body a = written (an_trace a) /\ an_status a = last_status (an_trace a)) \/
    (* no handler ran *)
    (an_trace a = [] /\ ((an_status a = 401%N /\ an_body a = [] /\ an_result a = RRet None) \/
      (* ... and the error handed back names the path that was asked *)
      (an_status a = 404%N /\ an_body a = B"not found" /\
       exists e, an_result a = RRet (Some e) /\ err_text e = B"path '" ++ rq_path (rq_head q) ++ B"' not found"))).
  Proof.
    intros t0 qs y i q a R A. destruct (answered_ok _ _ _ _ _ _ R A) as (_ & t & _ & Al).
    destruct (alone_ok matches uni auth ses lvl t q a Al) as [[_ ->]|[_ [[-> _]|(s & u0 & _ & O)]]];
      [right; split; [reflexivity|left; split; [|split]; reflexivity]|right; split; [reflexivity|right; split; [|split]; [reflexivity|reflexivity|eexists; split; reflexivity]]|].
    left. destruct O as (N & O1 & O2 & _). auto.
  Qed.

  (** ** C33 under concurrency: no handler runs for a refused request, and only those are refused *)
  Theorem C33_concurrent : forall t0 qs y i q a h,
    served t0 qs y -> answered y i q a -> auth = Some h ->
    let selected := a_use h = true /\ exists f, a_access h = Some f /\ f (rq_head q) = Ok true in
    (selected /\ ~ admitted uni h (rq_head q) <-> an_status a = 401%N /\ an_body a = [] /\ an_trace a = []) /\
    (an_trace a <> [] -> selected -> admitted uni h (rq_head q)).
  Proof.
    intros t0 qs y i q a h R A Eh. cbv zeta. destruct (answered_ok _ _ _ _ _ _ R A) as (_ & t & _ & Al).
    assert (G : forall b, gate uni auth q = Ok b -> (b = false <-> (a_use h = true /\ exists f, a_access h = Some f /\ f (rq_head q) = Ok true) /\ ~ admitted uni h (rq_head q))).
    { intros b E. unfold gate in E. rewrite Eh in E. unfold admitted. destruct (a_use h) eqn:U; [|injection E as <-; split; [discriminate|intros [[X _] _]; discriminate X]].
      destruct (a_access h) as [f|] eqn:Af; [|discriminate E]. destruct (f (rq_head q)) as [[|]|] eqn:Ef; [| |discriminate E].
      - rewrite E. split.
        + intros ->. split; [split; [reflexivity|eauto]|discriminate].
        + intros [_ X]. destruct b; [destruct X; reflexivity|reflexivity].
      - injection E as <-. split; [discriminate|]. intros [[_ (f' & X & Y)] _]. injection X as <-. rewrite Ef in Y. discriminate Y. }
    assert (D : forall x : Prop, {snd (check uni h (rq_head q)) = Ok true} + {snd (check uni h (rq_head q)) <> Ok true}).
    { intros _. destruct (snd (check uni h (rq_head q))) as [[|]|]; [left; reflexivity|right; discriminate|right; discriminate]. }
    destruct (alone_ok matches uni auth ses lvl t q a Al) as [[E ->]|[E [[-> _]|(s & u0 & _ & O)]]].
    - split; [|intros X; destruct X; reflexivity]. split; [intros _; split; [reflexivity|split; reflexivity]|intros _; apply (G _ E); reflexivity].
    - split; [|intros X; destruct X; reflexivity]. split; [intros X; apply (G _ E) in X; discriminate X|intros (X & _); discriminate X].
    - destruct O as (N & _). split.
      + split; [intros X; apply (G _ E) in X; discriminate X|intros (_ & _ & X); contradiction].
      + intros _ Sel. unfold admitted. destruct (D True) as [X|X]; [exact X|]. assert (true = false) as Y; [apply (G _ E); auto|discriminate Y].
  Qed.

  (** ** C96 *)
  Lemma routed_ok t q (s : iset V) u : registered t -> routes_to matches t q (TFound s) u -> routed_with t q u.
  Proof.
    intros (regs & W & E) (order & _ & F). unfold server_find in F.
    destruct (tree_find (tb_tree t) (rq_method (rq_head q)) (rq_path (rq_head q)) []) as [r0 a0] eqn:T. destruct r0 as [s0| | |]; try discriminate F.
    - injection F as -> ->. rewrite E in T. destruct (C02_routing_sound _ _ _ _ _ _ _ W T) as (r & I & Es & Hc & Hf & Hb).
      right. exists regs, r. auto.
    - left. unfold reg_find in F. destruct (aget _ _); [|discriminate F]. destruct (List.find _ _) as [[? ?]|]; [|discriminate F]. congruence.
  Qed.
  Theorem C96_params : forall t0 qs y i q a,
    served t0 qs y -> answered y i q a -> Forall registered (y_tables y) -> an_trace a <> [] ->
    exists t u0, In t (y_tables y) /\ routed_with t q u0 /\
      (forall pre key r post, an_trace a = pre ++ VParam key r :: post ->
         r = first_that non_empty [hd [] (values (u0 ++ added pre) key); hd [] (values (rq_query q) key); hd [] (values (rq_post q) key)] []) /\
      (forall pre key r post, an_trace a = pre ++ VParams key r :: post ->
         r = first_that non_empty [values (u0 ++ added pre) key; values (rq_query q) key; values (rq_post q) key] []).
  Proof.
    intros t0 qs y i q a R A Rg N. destruct (answered_ok _ _ _ _ _ _ R A) as (_ & t & It & Al).
    destruct (alone_ok matches uni auth ses lvl t q a Al) as [[_ ->]|[_ [[-> _]|(s & u0 & Rt & O)]]]; [destruct N; reflexivity|destruct N; reflexivity|].
    exists t, u0. split; [exact It|]. rewrite Forall_forall in Rg. split; [apply (routed_ok t q s); [apply Rg; exact It|exact Rt]|].
    destruct O as (_ & _ & _ & _ & T). split; intros pre key r post E; pose proof (T pre _ post E) as X; cbn [ok_event] in X.
    - rewrite C38_peek_param in X. exact X.
    - rewrite C38_peek_multi_param in X. exact X.
  Qed.

  (** ** C97: the handlers of every request run as in C18-C28 *)
  Theorem C97_pipeline : forall t0 qs y i q a,
    served t0 qs y -> answered y i q a -> an_trace a <> [] ->
    exists t s u hs ses' sched,
      In t (y_tables y) /\ routes_to matches t q (TFound s) u /\
      same_shape s hs /\ legal_order sched /\ (ses = None <-> ses' = None) /\
      let x := run_http (Some hs) ses' (rq_path (rq_head q)) lvl sched in
      calls (an_trace a) = map shown (x_calls x) /\ x_result x = an_result a.
  Proof.
    intros t0 qs y i q a R A N. destruct (answered_ok _ _ _ _ _ _ R A) as (_ & t & It & Al).
    destruct (alone_piped matches uni auth ses lvl t q a Al N) as (s & u & Rt & hs & ses' & sched & P).
    exists t, s, u, hs, ses', sched. auto.
  Qed.
  (** in particular their order *)
  Theorem C97_order : forall t0 qs y i q a,
    served t0 qs y -> answered y i q a -> an_trace a <> [] ->
    exists t s u with_main ran rest tail,
      In t (y_tables y) /\ routes_to matches t q (TFound s) u /\
      [WInit] ++ map WBefore (seq 0 (length (is_before s))) ++ (if with_main : bool then [WMain] else []) ++
        map WAfter (seq 0 (length (is_after s))) = ran ++ rest /\
      map (fun k => fst (fst (fst k))) (calls (an_trace a)) = (if ses then [WSesInit] else []) ++ ran ++ tail /\
      (tail = [] \/ tail = [WWait] \/ exists e, tail = [WWait; WLast e]).
  Proof.
    intros t0 qs y i q a R A N. destruct (C97_pipeline _ _ _ _ _ _ R A N) as (t & s & u & hs & ses' & sched & It & Rt & Sh & Lg & Es & X).
    cbv zeta in X. destruct X as [X _]. destruct Sh as (S1 & S2 & _ & _).
    assert (L1 : length (is_before s) = length (hs_before hs)) by (rewrite <- (map_length ih_name), S1, map_length; reflexivity).
    assert (L2 : length (is_after s) = length (hs_after hs)) by (rewrite <- (map_length ih_name), S2, map_length; reflexivity).
    assert (W : exists wm ran rest tail, pipeline hs wm = ran ++ rest /\
      whos (x_calls (run_http (Some hs) ses' (rq_path (rq_head q)) lvl sched)) = (if ses' then [WSesInit] else []) ++ ran ++ tail /\
      (tail = [] \/ tail = [WWait] \/ exists e, tail = [WWait; WLast e])).
    { assert (K : forall ki c1, let x := match run_set hs c1 with
          | (ks, c2, RPanic) => Http (ki ++ ks) None RPanic c2
          | (ks, c2, RRet e) =>
              if c_aborted c2 then Http (ki ++ ks) None (RRet e) c2
              else
                let '(eg, c3) := eg_wait sched c2 in
                let kw := Call WWait [] c2 [] (HRet eg) in
                let '(kl, c4, r) := run_last hs c3 (combine_err e eg) in
                Http (ki ++ ks ++ [kw] ++ kl) None r c4
          end in
          exists wm ran rest tail, pipeline hs wm = ran ++ rest /\ whos (x_calls x) = whos ki ++ ran ++ tail /\
            (tail = [] \/ tail = [WWait] \/ exists e, tail = [WWait; WLast e])).
      { intros ki c1. cbv zeta. destruct (run_set hs c1) as [[ks c2] r] eqn:Er. destruct (C18_pipeline_order _ _ _ _ _ Er) as ((wm & rest & Pp) & _).
        exists wm, (whos ks), rest. destruct r as [e|].
        - destruct (c_aborted c2).
          + exists []. split; [exact Pp|]. cbn [x_calls]. unfold whos. rewrite map_app, app_nil_r. auto.
          + unfold eg_wait, run_last. cbv zeta. destruct (hs_last hs) as [h|].
            * destruct (l_run h _ _) as [acts out]. exists [WWait; WLast (combine_err e (first_error (sched (c_tasks c2))))]. split; [exact Pp|]. cbn [x_calls].
              unfold whos. rewrite !map_app. split; [reflexivity|]. right. right. eauto.
            * exists [WWait]. split; [exact Pp|]. cbn [x_calls]. unfold whos. rewrite !map_app. split; [reflexivity|]. auto.
        - exists []. split; [exact Pp|]. cbn [x_calls]. unfold whos. rewrite map_app, app_nil_r. auto. }
      unfold run_http. destruct ses' as [f|].
      - destruct (f new_ctx) as [acts out]. destruct out as [[e|]|].
        + exists true, [], (pipeline hs true), []. split; [reflexivity|]. split; [reflexivity|auto].
        + apply (K [Call WSesInit [] new_ctx acts (HRet None)]).
        + exists true, [], (pipeline hs true), []. split; [reflexivity|]. split; [reflexivity|auto].
      - apply (K []). }
    destruct W as (wm & ran & rest & tail & Pp & Wh & T). exists t, s, u, wm, ran, rest, tail. split; [exact It|]. split; [exact Rt|].
    split; [rewrite L1, L2; exact Pp|]. split; [|exact T].
    rewrite X, map_map. transitivity (whos (x_calls (run_http (Some hs) ses' (rq_path (rq_head q)) lvl sched))); [reflexivity|]. rewrite Wh.
    f_equal. destruct ses, ses'; try reflexivity; exfalso; [destruct Es as [_ Es]|destruct Es as [Es _]]; specialize (Es eq_refl); discriminate Es.
  Qed.

  (** ** C98 *)
  Theorem C98_every_request_ends : forall t0 qs y i q th,
    served t0 qs y -> nth_error (y_threads y) i = Some (q, th) -> comes_to_an_end matches uni auth ses lvl q th.
  Proof. intros t0 qs y i q th _ _. apply all_come. Qed.
  (** its next step is one of the server's, if nothing has panicked *)
  Theorem C98_goes_on : forall t0 qs y i q th,
    served t0 qs y -> alive y -> nth_error (y_threads y) i = Some (q, th) -> (forall kept a, th <> TDone kept a) ->
    exists y' th', ystep matches uni auth ses lvl y y' /\ nth_error (y_threads y') i = Some (q, th').
  Proof.
    intros t0 qs y i q th R Al E N. destruct (inv_many matches uni auth ses lvl _ _ R (inv_start t0 qs)) as (_ & _ & T).
    destruct y as [ts h pl thr]. cbn [y_tables y_threads] in *. destruct ts as [|t ts]; [congruence|].
    pose proof (all_come matches uni auth ses lvl q th) as C. inversion C as [k a X| |th0 G _ X]; subst.
    - exfalso. exact (N k a eq_refl).
    - unfold alive in Al. rewrite Forall_forall in Al. exfalso. exact (Al _ (nth_error_In _ _ E) eq_refl).
    - destruct (G t h pl) as (th' & h' & pl' & H). apply nth_error_split in E as (l1 & l2 & -> & <-).
      exists (Sys (t :: ts) h' pl' (l1 ++ (q, th') :: l2)), th'. split; [eapply Y_req; [reflexivity|exact Al|exact H]|].
      cbn [y_threads]. rewrite nth_error_app2, Nat.sub_diag by lia. reflexivity.
  Qed.
End Statements.

(** C93: what one might expect: the parameters are still those of its request; at least
    they are never those of another *)
Definition C93_claim : Prop :=
  forall (V : Type) matches uni auth ses lvl t0 qs (y : sys V) i q a u,
    served matches uni auth ses lvl t0 qs y -> alive y -> remembers y i q a u -> u = an_url a.
Definition C93_weak_claim : Prop :=
  forall (V : Type) matches uni auth ses lvl t0 qs (y : sys V) i q a u,
    served matches uni auth ses lvl t0 qs y -> alive y -> remembers y i q a u -> u = an_url a \/ u = [].
(* request 0 is answered, then request 1 takes its object *)
Definition ex_reuse : list move := repeat (Go 0) 11 ++ [Reuse 1; Go 1].
Lemma ex_kept : exists y a, ex_served ex_table [ex_req (B"/u/7"); ex_req (B"/u/8")] y /\ alive y /\
  remembers y 0 (ex_req (B"/u/7")) a [(B"id", B"8")] /\ an_url a = [(B"id", B"7")].
Proof.
  destruct (ex_gos (start ex_table [ex_req (B"/u/7"); ex_req (B"/u/8")]) ex_reuse) as [y|] eqn:E; [|vm_compute in E; discriminate].
  pose proof (gos_sound _ _ _ _ _ _ _ _ E) as M. vm_compute in E. injection E as <-.
  eexists. eexists. split; [exact M|]. split; [repeat constructor; discriminate|].
  split; [exists 0; split; reflexivity|reflexivity].
Qed.
Theorem C93_refuted : ~ C93_claim.
Proof. intros C. destruct ex_kept as (y & a & R & Al & Rm & E). pose proof (C _ _ _ _ _ _ _ _ _ _ _ _ _ R Al Rm) as X. rewrite E in X. discriminate X. Qed.
Theorem C93_weak_refuted : ~ C93_weak_claim.
Proof. intros C. destruct ex_kept as (y & a & R & Al & Rm & E). destruct (C _ _ _ _ _ _ _ _ _ _ _ _ _ R Al Rm) as [X|X]; [rewrite E in X|]; discriminate X. Qed.

(** ** The hypotheses are met *)
Example C92_nonvacuous : exists y a1 a2, ex_served ex_table [ex_req (B"/u/7"); ex_req (B"/u/8")] y /\
  answered y 0 (ex_req (B"/u/7")) a1 /\ answered y 1 (ex_req (B"/u/8")) a2 /\ registered ex_table /\
  an_status a1 = 200%N /\ an_body a1 = B"77" /\ an_body a2 = B"88" /\
  In (VGet (B"k") (Some (B"7"))) (an_trace a1) /\ In (VParam (B"id") (B"8")) (an_trace a2).
Proof.
  destruct (ex_gos (start ex_table [ex_req (B"/u/7"); ex_req (B"/u/8")]) ex_turns) as [y|] eqn:E; [|vm_compute in E; discriminate].
  pose proof (gos_sound _ _ _ _ _ _ _ _ E) as M. vm_compute in E. injection E as <-.
  eexists. eexists. eexists. split; [exact M|]. split; [eexists; reflexivity|]. split; [eexists; reflexivity|].
  split; [exists [Reg MethodGet (B"/u/:id") ex_set]; split; reflexivity|].
  split; [reflexivity|]. split; [reflexivity|]. split; [reflexivity|]. split; vm_compute; tauto.
Qed.

Example C97_nonvacuous : exists y a, ex_served ex_table [ex_req (B"/u/7"); ex_req (B"/u/8")] y /\
  answered y 1 (ex_req (B"/u/8")) a /\ an_trace a <> [] /\
  map (fun k => fst (fst (fst k))) (calls (an_trace a)) = [WInit; WBefore 0; WMain; WWait].
Proof.
  destruct (ex_gos (start ex_table [ex_req (B"/u/7"); ex_req (B"/u/8")]) ex_turns) as [y|] eqn:E; [|vm_compute in E; discriminate].
  pose proof (gos_sound _ _ _ _ _ _ _ _ E) as M. vm_compute in E. injection E as <-.
  eexists. eexists. split; [exact M|]. split; [eexists; reflexivity|]. split; [discriminate|reflexivity].
Qed.

Print Assumptions C92_isolation.
Print Assumptions C92_final.
Print Assumptions C93_partial.
Print Assumptions C93_refuted.
Print Assumptions C93_weak_refuted.
Print Assumptions C94_data.
Print Assumptions C95_response.
Print Assumptions C96_params.
Print Assumptions C97_pipeline.
Print Assumptions C97_order.
Print Assumptions C98_every_request_ends.
Print Assumptions C98_goes_on.
Print Assumptions C33_concurrent.
