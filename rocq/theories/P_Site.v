(** Proofs about M_Site: the chain of calls, genuineness, and that a request is one of M_Pipeline. *)
From Verif Require Import Base GoErrors M_Cond M_Content M_Static M_Mount M_Site S_Site.
From Verif Require M_Pipeline.

Lemma chain_app w ks w1 ks' w2 : chain w ks w1 -> chain w1 ks' w2 -> chain w (ks ++ ks') w2.
Proof. revert w. induction ks as [|k ks IH]; intros w; cbn [chain app]; [intros ->; auto|]. intros [A C] D. split; [exact A|]. exact (IH _ C D). Qed.
Lemma run1_facts x name b c w k c1 w1 : run1 x name b c w = (k, c1, w1) ->
  who k = x /\ g_in k = w /\ g_out k = w1 /\ did k name b /\ M_Pipeline.run1 x name (fun _ => (M_Pipeline.k_acts (g_call k), M_Pipeline.k_out (g_call k))) c = (g_call k, c1).
Proof.
  unfold run1. destruct (b (M_Pipeline.add_debug c name) w) as [[w' files] [acts out]] eqn:E. intros H. inversion H; subst.
  split; [reflexivity|]. split; [reflexivity|]. split; [reflexivity|]. split; [split; [reflexivity|exact E]|]. reflexivity.
Qed.
Definition dummies (l : list (bytes * code)) : list M_Pipeline.handler := map (fun x => M_Pipeline.Handler (fst x) (fun _ => ([], M_Pipeline.HRet None))) l.
Lemma dummies_names l : map M_Pipeline.h_name (dummies l) = map fst l.
Proof. unfold dummies. rewrite map_map. reflexivity. Qed.
Lemma run_list_facts mkw hs : forall i c w ks c' w' r, run_list mkw i hs c w = (ks, c', w', r) ->
  chain w ks w' /\
  (forall k, In k ks -> exists j n b, who k = mkw (i + j) /\ nth_error hs j = Some (n, b) /\ did k n b) /\
  exists hh, map M_Pipeline.h_name hh = map fst hs /\ M_Pipeline.run_list mkw i hh c = (map g_call ks, c', r).
Proof.
  induction hs as [|[name b] hs IH]; intros i c w ks c' w' r H; cbn [run_list] in H.
  - inversion H; subst. split; [reflexivity|]. split; [intros k []|]. exists []. split; reflexivity.
  - destruct (run1 (mkw i) name b c w) as [[k c1] w1] eqn:E. destruct (run1_facts _ _ _ _ _ _ _ _ E) as (W & I & O & D & R).
    assert (K : exists j n b0, who k = mkw (i + j) /\ nth_error ((name, b) :: hs) j = Some (n, b0) /\ did k n b0)
      by (exists 0, name, b; rewrite Nat.add_0_r; auto).
    destruct (M_Pipeline.after_call true (g_call k) c1) as [|r0] eqn:Ea.
    + destruct (run_list mkw (S i) hs c1 w1) as [[[ks1 c2] w2] r1] eqn:El. inversion H; subst. destruct (IH _ _ _ _ _ _ _ El) as (C & G & hh & N & P).
      split; [split; [exact eq_refl|exact C]|]. split.
      * intros k' [<-|Hk]; [exact K|]. destruct (G k' Hk) as (j & n & b0 & Wj & Nj & Dj). exists (S j), n, b0. split; [rewrite Wj; f_equal; lia|]. split; [exact Nj|exact Dj].
      * exists (M_Pipeline.Handler name (fun _ => (M_Pipeline.k_acts (g_call k), M_Pipeline.k_out (g_call k))) :: hh). split; [cbn [map]; rewrite N; reflexivity|].
        cbn [M_Pipeline.run_list M_Pipeline.h_name M_Pipeline.h_run]. rewrite R, Ea, P. reflexivity.
    + inversion H; subst. split; [split; [exact eq_refl|reflexivity]|]. split; [intros k' [<-|[]]; exact K|].
      exists (M_Pipeline.Handler name (fun _ => (M_Pipeline.k_acts (g_call k), M_Pipeline.k_out (g_call k))) :: dummies hs). split; [cbn [map]; rewrite dummies_names; reflexivity|].
      cbn [M_Pipeline.run_list M_Pipeline.h_name M_Pipeline.h_run]. rewrite R, Ea. reflexivity.
Qed.

(** main handler's two behaviours, and all lists *)
Lemma run_set_facts s ses c w ks c' w' r : run_set s c w = (ks, c', w', r) ->
  chain w ks w' /\ Forall (genuine s ses) ks /\
  exists hm hb ha, option_map M_Pipeline.m_name hm = option_map (fun x => fst (fst x)) (ss_main s) /\ map M_Pipeline.h_name hb = map fst (ss_before s) /\
    map M_Pipeline.h_name ha = map fst (ss_after s) /\
    forall hl, M_Pipeline.run_set (M_Pipeline.HSet hb ha hl hm) c = (map g_call ks, c', r).
Proof.
  unfold run_set. destruct (ss_main s) as [[[name init] run]|] eqn:Em.
  2:{ intros H. inversion H; subst. split; [reflexivity|]. split; [constructor|]. exists None, (dummies (ss_before s)), (dummies (ss_after s)).
      split; [reflexivity|]. split; [apply dummies_names|]. split; [apply dummies_names|]. reflexivity. }
  destruct (run1 M_Pipeline.WInit name init c w) as [[k0 c0] w0] eqn:E0. destruct (run1_facts _ _ _ _ _ _ _ _ E0) as (W0 & I0 & O0 & D0 & R0).
  assert (G0 : genuine s ses k0) by (unfold genuine; rewrite W0; exists name, init, run; auto).
  set (mk := fun acts out => M_Pipeline.Main name (fun _ => (M_Pipeline.k_acts (g_call k0), M_Pipeline.k_out (g_call k0))) (fun _ => (acts, out))).
  destruct (M_Pipeline.after_call false (g_call k0) c0) as [|r0] eqn:Ea0.
  2:{ intros H. inversion H; subst. split; [split; [exact eq_refl|reflexivity]|]. split; [constructor; [exact G0|constructor]|].
      exists (Some (mk [] M_Pipeline.HPanic)), (dummies (ss_before s)), (dummies (ss_after s)).
      split; [reflexivity|]. split; [apply dummies_names|]. split; [apply dummies_names|]. intros hl.
      unfold M_Pipeline.run_set. cbn [M_Pipeline.hs_main mk M_Pipeline.m_name M_Pipeline.m_init]. rewrite R0, Ea0. reflexivity. }
  destruct (run_list M_Pipeline.WBefore 0 (ss_before s) c0 w0) as [[[kb c1] w1] rb] eqn:Eb. destruct (run_list_facts _ _ _ _ _ _ _ _ _ Eb) as (Cb & Gb & hb & Nb & Pb).
  assert (GB : Forall (genuine s ses) kb).
  { apply Forall_forall. intros k Hk. destruct (Gb k Hk) as (j & n & b & Wk & Nk & Dk). unfold genuine. rewrite Wk. exists n, b. auto. }
  destruct rb as [|r0].
  2:{ intros H. inversion H; subst. split; [split; [exact eq_refl|exact Cb]|]. split; [constructor; [exact G0|exact GB]|].
      exists (Some (mk [] M_Pipeline.HPanic)), hb, (dummies (ss_after s)).
      split; [reflexivity|]. split; [exact Nb|]. split; [apply dummies_names|]. intros hl.
      unfold M_Pipeline.run_set. cbn [M_Pipeline.hs_main M_Pipeline.hs_before mk M_Pipeline.m_name M_Pipeline.m_init]. rewrite R0, Ea0, Pb. reflexivity. }
  assert (M : exists km c2 w2 rm acts out, (if M_Pipeline.c_skip c1 then ([], c1, w1, M_Pipeline.Continue)
                else let '(k, c2, w2) := run1 M_Pipeline.WMain name run c1 w1 in ([k], c2, w2, M_Pipeline.after_call true (g_call k) c2)) = (km, c2, w2, rm) /\
     chain w1 km w2 /\ Forall (genuine s ses) km /\
     (if M_Pipeline.c_skip c1 then ([], c1, M_Pipeline.Continue)
                else let '(k, c2) := M_Pipeline.run1 M_Pipeline.WMain name (fun _ => (acts, out)) c1 in ([k], c2, M_Pipeline.after_call true k c2)) = (map g_call km, c2, rm)).
  { destruct (M_Pipeline.c_skip c1).
    - exists [], c1, w1, M_Pipeline.Continue, [], M_Pipeline.HPanic. split; [reflexivity|]. split; [reflexivity|]. split; [constructor|reflexivity].
    - destruct (run1 M_Pipeline.WMain name run c1 w1) as [[k c2] w2] eqn:E. destruct (run1_facts _ _ _ _ _ _ _ _ E) as (W & I & O & D & R).
      exists [k], c2, w2, (M_Pipeline.after_call true (g_call k) c2), (M_Pipeline.k_acts (g_call k)), (M_Pipeline.k_out (g_call k)).
      split; [reflexivity|]. split; [split; [exact I|exact O]|]. split; [constructor; [unfold genuine; rewrite W; exists name, init, run; auto|constructor]|]. rewrite R. reflexivity. }
  destruct M as (km & c2 & w2 & rm & acts & out & Em1 & Cm & GM & Pm). rewrite Em1.
  destruct rm as [|r0].
  2:{ intros H. inversion H; subst. split; [split; [exact eq_refl|exact (chain_app _ _ _ _ _ Cb Cm)]|]. split; [constructor; [exact G0|apply Forall_app; auto]|].
      exists (Some (mk acts out)), hb, (dummies (ss_after s)). split; [reflexivity|]. split; [exact Nb|]. split; [apply dummies_names|]. intros hl.
      unfold M_Pipeline.run_set. cbn [M_Pipeline.hs_main M_Pipeline.hs_before mk M_Pipeline.m_name M_Pipeline.m_init M_Pipeline.m_run]. rewrite R0, Ea0, Pb, Pm.
      cbn [map]. rewrite map_app. reflexivity. }
  destruct (run_list M_Pipeline.WAfter 0 (ss_after s) c2 w2) as [[[ka c3] w3] ra] eqn:Eaf. destruct (run_list_facts _ _ _ _ _ _ _ _ _ Eaf) as (Ca & Ga & ha & Na & Pa).
  assert (GA : Forall (genuine s ses) ka).
  { apply Forall_forall. intros k Hk. destruct (Ga k Hk) as (j & n & b & Wk & Nk & Dk). unfold genuine. rewrite Wk. exists n, b. auto. }
  intros H. assert (E : ks = k0 :: kb ++ km ++ ka /\ c' = c3 /\ w' = w3 /\ r = match ra with M_Pipeline.Finish r => r | M_Pipeline.Continue => M_Pipeline.RRet None end)
    by (destruct ra; inversion H; auto). destruct E as (-> & -> & -> & ->).
  split; [split; [exact I0|]; rewrite O0; exact (chain_app _ _ _ _ _ Cb (chain_app _ _ _ _ _ Cm Ca))|]. split; [constructor; [exact G0|]; apply Forall_app; split; [exact GB|apply Forall_app; auto]|].
  exists (Some (mk acts out)), hb, ha. split; [reflexivity|]. split; [exact Nb|]. split; [exact Na|]. intros hl.
  unfold M_Pipeline.run_set. cbn [M_Pipeline.hs_main M_Pipeline.hs_before M_Pipeline.hs_after mk M_Pipeline.m_name M_Pipeline.m_init M_Pipeline.m_run]. rewrite R0, Ea0, Pb, Pm, Pa.
  cbn [map]. rewrite !map_app. destruct ra; reflexivity.
Qed.

Lemma run_http_facts s ses lvl sched w : let pg := run_http (Some s) ses lvl sched w in
  chain w (pg_stages pg) (pg_wire pg) /\ Forall (genuine s ses) (pg_stages pg) /\
  exists h hses, shape h s /\ (hses = None <-> ses = None) /\
    M_Pipeline.run_http (Some h) hses (w_path w) lvl sched = M_Pipeline.Http (map g_call (pg_stages pg)) None (pg_result pg) (pg_ctx pg).
Proof.
  unfold run_http. cbv zeta.
  assert (Hs : exists ki c0 w0 go hses, (match ses with
        | None => ([], M_Pipeline.new_ctx, w, M_Pipeline.Continue)
        | Some f =>
            let '(w0, (acts, out)) := f M_Pipeline.new_ctx w in
            ([Stage (M_Pipeline.Call M_Pipeline.WSesInit [] M_Pipeline.new_ctx acts out) w w0 []], M_Pipeline.apply M_Pipeline.new_ctx acts, w0,
             match out with
             | M_Pipeline.HPanic => M_Pipeline.Finish M_Pipeline.RPanic
             | M_Pipeline.HRet (Some e) =>
                 M_Pipeline.Finish (M_Pipeline.RRet (M_Pipeline.new_err (B"path '" ++ w_path w ++ B"': " ++ err_text e)))
             | M_Pipeline.HRet None => M_Pipeline.Continue
             end)
        end) = (ki, c0, w0, go) /\ chain w ki w0 /\ Forall (genuine s ses) ki /\ (hses = None <-> ses = None) /\
      forall h, M_Pipeline.run_http (Some h) hses (w_path w) lvl sched =
        match go with
        | M_Pipeline.Finish r => M_Pipeline.Http (map g_call ki) None r c0
        | M_Pipeline.Continue =>
          match M_Pipeline.run_set h (M_Pipeline.Ctx (M_Pipeline.c_stopped c0) (M_Pipeline.c_aborted c0) (M_Pipeline.c_skip c0) (M_Pipeline.c_cancelled c0) lvl
                        (M_Pipeline.c_log c0) (M_Pipeline.c_tasks c0)) with
          | (ks, c2, M_Pipeline.RPanic) => M_Pipeline.Http (map g_call ki ++ ks) None M_Pipeline.RPanic c2
          | (ks, c2, M_Pipeline.RRet e) =>
              if M_Pipeline.c_aborted c2 then M_Pipeline.Http (map g_call ki ++ ks) None (M_Pipeline.RRet e) c2
              else
                let '(eg, c3) := M_Pipeline.eg_wait sched c2 in
                let kw := M_Pipeline.Call M_Pipeline.WWait [] c2 [] (M_Pipeline.HRet eg) in
                let '(kl, c4, r) := M_Pipeline.run_last h c3 (M_Pipeline.combine_err e eg) in
                M_Pipeline.Http (map g_call ki ++ ks ++ [kw] ++ kl) None r c4
          end
        end).
  { destruct ses as [f|].
    - destruct (f M_Pipeline.new_ctx w) as [w0 [acts out]] eqn:E. eexists _, _, _, _, (Some (fun _ => (acts, out))). split; [reflexivity|].
      split; [split; reflexivity|]. split; [|split; [split; discriminate|reflexivity]]. constructor; [|constructor]. exists f. split; [reflexivity|].
      split; [reflexivity|]. unfold plain. cbn [g_call g_in g_out g_files M_Pipeline.k_seen M_Pipeline.k_acts M_Pipeline.k_out]. rewrite E. reflexivity.
    - exists [], M_Pipeline.new_ctx, w, M_Pipeline.Continue, None. split; [reflexivity|]. split; [reflexivity|]. split; [constructor|]. split; [tauto|reflexivity]. }
  destruct Hs as (ki & c0 & w0 & go & hses & E1 & Ci & Gi & Hn & E2). rewrite E1. clear E1.
  set (hl0 := option_map (fun x : bytes * (option err -> code) => M_Pipeline.Last (fst x) (fun _ _ => ([], M_Pipeline.HPanic))) (ss_last s)).
  assert (N0 : option_map M_Pipeline.l_name hl0 = option_map fst (ss_last s)) by (unfold hl0; destruct (ss_last s); reflexivity).
  destruct go as [|r].
  2:{ cbn [pg_stages pg_wire pg_result pg_ctx]. split; [exact Ci|]. split; [exact Gi|].
      exists (M_Pipeline.HSet (dummies (ss_before s)) (dummies (ss_after s)) hl0
        (option_map (fun x : bytes * code * code => M_Pipeline.Main (fst (fst x)) (fun _ => ([], M_Pipeline.HPanic)) (fun _ => ([], M_Pipeline.HPanic))) (ss_main s))), hses.
      split. { split; [apply dummies_names|]. split; [apply dummies_names|]. split; [exact N0|]. cbn [M_Pipeline.hs_main]. destruct (ss_main s); reflexivity. }
      split; [exact Hn|]. rewrite E2. reflexivity. }
  set (c1 := M_Pipeline.Ctx _ _ _ _ lvl _ _). destruct (run_set s c1 w0) as [[[ks c2] w2] r] eqn:Er.
  destruct (run_set_facts s ses _ _ _ _ _ _ Er) as (Cs & Gs & hm & hb & ha & Nm & Nb & Na & Ps).
  destruct r as [e|].
  2:{ cbn [pg_stages pg_wire pg_result pg_ctx]. split; [exact (chain_app _ _ _ _ _ Ci Cs)|]. split; [apply Forall_app; auto|].
      exists (M_Pipeline.HSet hb ha hl0 hm), hses. split; [split; [exact Nb|]; split; [exact Na|]; split; [exact N0|exact Nm]|]. split; [exact Hn|].
      rewrite E2. fold c1. rewrite Ps, map_app. reflexivity. }
  destruct (M_Pipeline.c_aborted c2) eqn:Ab.
  { cbn [pg_stages pg_wire pg_result pg_ctx]. split; [exact (chain_app _ _ _ _ _ Ci Cs)|]. split; [apply Forall_app; auto|].
      exists (M_Pipeline.HSet hb ha hl0 hm), hses. split; [split; [exact Nb|]; split; [exact Na|]; split; [exact N0|exact Nm]|]. split; [exact Hn|].
      rewrite E2. fold c1. rewrite Ps, Ab, map_app. reflexivity. }
  destruct (M_Pipeline.eg_wait sched c2) as [eg c3] eqn:Eg. set (kw := Stage (M_Pipeline.Call M_Pipeline.WWait [] c2 [] (M_Pipeline.HRet eg)) w2 w2 []).
  assert (Ck : chain w (ki ++ ks ++ [kw]) w2) by (apply (chain_app _ _ _ _ _ Ci); apply (chain_app _ _ _ _ _ Cs); split; reflexivity).
  assert (Gk : Forall (genuine s ses) (ki ++ ks ++ [kw])) by (apply Forall_app; split; [exact Gi|]; apply Forall_app; split; [exact Gs|]; constructor; [split; reflexivity|constructor]).
  unfold run_last. destruct (ss_last s) as [[name b]|] eqn:El.
  - destruct (b (M_Pipeline.combine_err e eg) c3 w2) as [[w' files] [acts out]] eqn:Eb. cbn [pg_stages pg_wire pg_result pg_ctx].
    set (kl := Stage (M_Pipeline.Call (M_Pipeline.WLast (M_Pipeline.combine_err e eg)) name c3 acts out) w2 w' files).
    split. { rewrite !app_assoc. rewrite <- (app_assoc ki). apply (chain_app _ _ w2); [exact Ck|]. split; reflexivity. }
    split. { rewrite !app_assoc. rewrite <- (app_assoc ki). apply Forall_app. split; [exact Gk|]. constructor; [|constructor].
      exists name, b. split; [exact El|]. split; [reflexivity|exact Eb]. }
    exists (M_Pipeline.HSet hb ha (Some (M_Pipeline.Last name (fun _ _ => (acts, out)))) hm), hses.
    split; [split; [exact Nb|]; split; [exact Na|]; split; [rewrite El; reflexivity|exact Nm]|]. split; [exact Hn|].
    rewrite E2. fold c1. rewrite Ps, Ab, Eg. unfold M_Pipeline.run_last. cbn [M_Pipeline.hs_last M_Pipeline.l_run M_Pipeline.l_name].
    rewrite !map_app. reflexivity.
  - cbn [pg_stages pg_wire pg_result pg_ctx]. rewrite app_nil_r.
    split; [exact Ck|]. split; [exact Gk|].
    exists (M_Pipeline.HSet hb ha None hm), hses.
    split; [split; [exact Nb|]; split; [exact Na|]; split; [rewrite El; reflexivity|exact Nm]|]. split; [exact Hn|].
    rewrite E2. fold c1. rewrite Ps, Ab, Eg. unfold M_Pipeline.run_last. cbn [M_Pipeline.hs_last].
    rewrite !map_app. reflexivity.
Qed.
