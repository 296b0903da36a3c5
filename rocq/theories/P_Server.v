(** Proofs about the whole server (C131-C133). *)
From Verif Require Import Base GoStrings GoSlices M_Tree M_RegTree S_Route S_Choice P_RegTree P_Slices M_Server S_Server.
From Verif Require M_Router S_Router S_Copies P_Copies Props_Copies M_Pipeline M_Auth Props_RegTree Props_Choice Props_Tree.

Lemma map_upd_nth {A C} (f : A -> C) (g : A -> A) (g' : C -> C) : (forall x, f (g x) = g' (f x)) -> forall i l, map f (upd_nth i g l) = upd_nth i g' (map f l).
Proof. intros H. induction i as [|i IH]; intros [|x l]; cbn [upd_nth map]; [reflexivity|rewrite H; reflexivity|reflexivity|rewrite IH; reflexivity]. Qed.
Lemma map_upd_keep {A C} (f : A -> C) (g : A -> A) : (forall x, f (g x) = f x) -> forall i l, map f (upd_nth i g l) = map f l.
Proof. intros H. induction i as [|i IH]; intros [|x l]; cbn [upd_nth map]; [reflexivity|rewrite H; reflexivity|reflexivity|rewrite IH; reflexivity]. Qed.
Lemma upd_nth_keep {A} (x : A) (g : A -> A) : forall i l, nth_error l i = Some x -> g x = x -> upd_nth i g l = l.
Proof. induction i as [|i IH]; intros [|y l] E H; cbn [upd_nth nth_error] in E |- *; try discriminate; [inversion E; subst; rewrite H; reflexivity|rewrite IH; auto]. Qed.
Lemma nth_map_d {A C} (f : A -> C) l i d d' : f d = d' -> nth i (map f l) d' = f (nth i l d).
Proof. intros <-. apply map_nth. Qed.

(** ** Plain values: the lists are those of the specification of clones *)
Definition proj (p : plan) : S_Copies.values :=
  S_Copies.Values (map (fun x => (gr_before x, gr_after x)) (p_groups p)) (map (fun x => (kt_before x, kt_after x)) (p_kits p))
                  (map (fun x => (kt_before (o_kit x), kt_after (o_kit x))) (p_routes p)).
Lemma proj_op p o : proj (plan_op p o) = S_Copies.vstep (proj p) o.
Proof.
  destruct o; unfold proj; cbn [plan_op S_Copies.vstep p_groups p_kits p_routes S_Copies.v_routers S_Copies.v_sets S_Copies.v_routes]; try reflexivity;
    try (f_equal; apply map_upd_keep; reflexivity);
    try (f_equal; apply map_upd_nth; reflexivity);
    try (f_equal; rewrite map_app; f_equal; cbn [map]; f_equal; symmetry; apply nth_map_d; reflexivity);
    try (f_equal; rewrite map_app; reflexivity); try (destruct s; [|reflexivity]; cbn; f_equal; rewrite map_app; f_equal; cbn [map o_kit kt_before kt_after]; f_equal; symmetry; apply (nth_map_d (fun x => (kt_before x, kt_after x)) (p_kits p) _ no_kit); reflexivity).
  all: try (f_equal; rewrite map_app; f_equal; cbn [map o_kit kt_before kt_after]; f_equal; symmetry; apply (nth_map_d (fun x => (gr_before x, gr_after x)) (p_groups p) r no_group); reflexivity).
  f_equal. rewrite map_app. f_equal. cbn [map]. f_equal. symmetry. apply (nth_map_d (fun x => (kt_before x, kt_after x)) (p_kits p) s no_kit). reflexivity.
Qed.
Lemma proj_call p c : proj (plan_call p c) = match op_of c with Some o => S_Copies.vstep (proj p) o | None => proj p end.
Proof. destruct c; cbn [plan_call op_of]; try apply proj_op; try reflexivity. destruct sets; [reflexivity|apply proj_op]. Qed.
Lemma proj_planned : forall cs p, proj (fold_left plan_call cs p) = fold_left S_Copies.vstep (ops cs) (proj p).
Proof.
  induction cs as [|c cs IH]; intros p; [reflexivity|]. cbn [fold_left]. rewrite IH, proj_call. unfold ops. cbn [flat_map]. destruct (op_of c); reflexivity.
Qed.

(** ** Last and main handlers, and where routes are registered *)
Section Agree.
  Import M_Router.
  Definition agrees (st : state) (p : plan) : Prop :=
    map r_last (st_routers st) = map gr_last (p_groups p) /\
    map (fun x => (s_last x, s_main x)) (st_sets st) = map (fun k => (kt_last k, kt_main k)) (p_kits p) /\
    map (fun g => (g_key g, (s_last (g_set g), s_main (g_set g)))) (st_routes st) = map (fun x => (o_key x, (kt_last (o_kit x), kt_main (o_kit x)))) (p_routes p).
  Lemma nth_map_eq {A C D} (f : A -> D) (g : C -> D) l l' i x d : map f l = map g l' -> nth_error l i = Some x -> f x = g (nth i l' d).
  Proof.
    intros E H. assert (H' : nth_error (map g l') i = Some (f x)) by (rewrite <- E; apply map_nth_error, H). rewrite nth_error_map in H'.
    destruct (nth_error l' i) as [y|] eqn:E'; [|discriminate]. rewrite (nth_error_nth l' i d E'). cbn in H'. congruence.
  Qed.
  Lemma agree_step grow st o st' p : step grow st o = Ok st' -> agrees st p -> agrees st' (plan_op p o).
  Proof.
    intros E (A1 & A2 & A3).
    assert (Kr : forall r x y f, nth_error (st_routers st) r = Some x -> r_last y = r_last x -> (forall z, gr_last (f z) = gr_last z) ->
                 map r_last (upd_nth r (fun _ => y) (st_routers st)) = map gr_last (upd_nth r f (p_groups p))).
    { intros r x y f H1 H2 H3. rewrite (map_upd_keep gr_last f H3), <- A1. rewrite (map_upd_nth r_last (fun _ => y) (fun _ => r_last y)) by reflexivity.
      rewrite H2. apply (upd_nth_keep (r_last x)); [apply map_nth_error, H1|reflexivity]. }
    assert (Ks : forall r x y f, nth_error (st_sets st) r = Some x -> s_last y = s_last x -> s_main y = s_main x -> (forall z, kt_last (f z) = kt_last z /\ kt_main (f z) = kt_main z) ->
                 map (fun x => (s_last x, s_main x)) (upd_nth r (fun _ => y) (st_sets st)) = map (fun k => (kt_last k, kt_main k)) (upd_nth r f (p_kits p))).
    { intros r x y f H1 H2 H3 H4. rewrite (map_upd_keep (fun k => (kt_last k, kt_main k)) f) by (intros z; destruct (H4 z) as [-> ->]; reflexivity). rewrite <- A2.
      rewrite (map_upd_nth (fun x => (s_last x, s_main x)) (fun _ => y) (fun _ => (s_last y, s_main y))) by reflexivity.
      rewrite H2, H3. apply (upd_nth_keep (s_last x, s_main x)); [apply (map_nth_error (fun x => (s_last x, s_main x))), H1|reflexivity]. }
    assert (U1 : forall {A} (f : A -> A) i l x, nth_error l i = Some x -> upd_nth i f l = upd_nth i (fun _ => f x) l).
    { intros A f. induction i as [|i IH]; intros [|y l] x H; cbn [upd_nth nth_error] in H |- *; try discriminate; [inversion H; reflexivity|rewrite (IH l x H); reflexivity]. }
    destruct o; cbn [step] in E; cbn [plan_op];
      repeat match type of E with
             | (match nth_error ?l ?i with _ => _ end) = Ok _ => destruct (nth_error l i) as [x|] eqn:Ex; [|discriminate]
             | (match eval_arg ?s ?a with _ => _ end) = Ok _ => destruct (eval_arg s a) as [[ha sa]|] eqn:Ea; [|discriminate]
             end.
    - cbn in E. inversion E; subst; clear E. split; [|split]; cbn [st_routers st_sets st_routes p_groups p_kits p_routes]; [rewrite !map_app, A1; reflexivity|exact A2|exact A3].
    - destruct (alloc _ _ _) as [h1 lit] in E. destruct (append _ _ _ _) as [h2 b] in E. inversion E; subst; clear E. split; [|split; [exact A2|exact A3]]. apply (Kr _ x); [exact Ex|reflexivity|reflexivity].
    - inversion E; subst; clear E. split; [|split; [exact A2|exact A3]]. apply (Kr _ x); [exact Ex|reflexivity|reflexivity].
    - inversion E; subst; clear E. split; [|split; [exact A2|exact A3]]. apply (Kr _ x); [exact Ex|reflexivity|reflexivity].
    - destruct (append _ _ _ _) as [h2 b] in E. inversion E; subst; clear E. split; [|split; [exact A2|exact A3]]. apply (Kr _ x); [exact Ex|reflexivity|reflexivity].
    - inversion E; subst; clear E. split; [|split; [exact A2|exact A3]]. cbn [set_router st_routers p_groups].
      rewrite (map_upd_nth r_last _ (fun _ => l)), (map_upd_nth gr_last _ (fun _ => l)), A1 by reflexivity. reflexivity.
    - inversion E; subst; clear E. split; [|split; [exact A2|exact A3]]. cbn [st_routers p_groups]. rewrite !map_app, A1. f_equal. cbn [map r_last]. f_equal.
      apply (nth_map_eq r_last gr_last _ _ r x no_group A1 Ex).
    - unfold set_after, set_before, new_set, alloc in E. cbv beta iota zeta in E. destruct (append _ _ _ _) as [h2 a2] in E. cbv beta iota zeta in E. destruct (append _ _ _ _) as [h3 b3] in E. cbv beta iota zeta in E.
      inversion E; subst; clear E. split; [exact A1|]. split; [exact A2|]. cbn [st_routes p_routes]. rewrite !map_app, A3. f_equal. cbn. f_equal. f_equal. f_equal.
      apply (nth_map_eq r_last gr_last _ _ r x no_group A1 Ex).
    - inversion E; subst; clear E. split; [exact A1|]. split; [exact A2|exact A3].
    - inversion E; subst; clear E. split; [exact A1|]. split; [exact A2|exact A3].
    - unfold new_set, alloc in E. cbv beta iota zeta in E. inversion E; subst; clear E. split; [exact A1|]. split; [|exact A3]. cbn [st_sets p_kits]. rewrite !map_app, A2. reflexivity.
    - unfold set_before in E. destruct (append _ _ _ _) as [h2 b] in E. inversion E; subst; clear E. split; [exact A1|]. split; [|exact A3]. apply (Ks _ x); [exact Ex|reflexivity|reflexivity|auto].
    - unfold set_after in E. destruct (append _ _ _ _) as [h2 b] in E. inversion E; subst; clear E. split; [exact A1|]. split; [|exact A3]. apply (Ks _ x); [exact Ex|reflexivity|reflexivity|auto].
    - inversion E; subst; clear E. split; [exact A1|]. split; [|exact A3]. cbn [set_set st_sets p_kits].
      rewrite (map_upd_nth (fun k => (kt_last k, kt_main k)) _ (fun y => (l, snd y))) by reflexivity. rewrite <- A2.
      rewrite (map_upd_nth (fun x => (s_last x, s_main x)) _ (fun _ => (l, s_main x))) by reflexivity.
      rewrite (U1 _ (fun y => (l, snd y)) _ _ (s_last x, s_main x)) by (apply (map_nth_error (fun x => (s_last x, s_main x))), Ex). reflexivity.
    - inversion E; subst; clear E. split; [exact A1|]. split; [|exact A3]. cbn [set_set st_sets p_kits].
      rewrite (map_upd_nth (fun k => (kt_last k, kt_main k)) _ (fun y => (fst y, m))) by reflexivity. rewrite <- A2.
      rewrite (map_upd_nth (fun x => (s_last x, s_main x)) _ (fun _ => (s_last x, m))) by reflexivity.
      rewrite (U1 _ (fun y => (fst y, m)) _ _ (s_last x, s_main x)) by (apply (map_nth_error (fun x => (s_last x, s_main x))), Ex). reflexivity.
    - inversion E; subst; clear E. split; [exact A1|]. split; [|exact A3]. cbn [st_sets p_kits]. rewrite !map_app, A2. f_equal. cbn [map]. f_equal.
      apply (nth_map_eq (fun x => (s_last x, s_main x)) (fun k => (kt_last k, kt_main k)) _ _ s x no_kit A2 Ex).
    - destruct s as [s|]; [|discriminate]. destruct (nth_error (st_sets st) s) as [x|] eqn:Ex; [|discriminate]. inversion E; subst; clear E. split; [exact A1|]. split; [exact A2|].
      cbn [st_routes p_routes]. rewrite !map_app, A3. f_equal. cbn. f_equal. f_equal. f_equal.
      pose proof (nth_map_eq (fun x => (s_last x, s_main x)) (fun k => (kt_last k, kt_main k)) _ _ s x no_kit A2 Ex) as H. cbn in H. congruence.
    - inversion E; subst; clear E. split; [exact A1|]. split; [exact A2|exact A3].
    - destruct (_ <? _) in E; [|discriminate]. inversion E; subst; clear E. split; [exact A1|]. split; [exact A2|exact A3].
    - destruct (append _ _ _ _) as [h2 b] in E. inversion E; subst; clear E. split; [exact A1|]. split; [exact A2|exact A3].
    - destruct (_ && _) in E; [|discriminate]. inversion E; subst; clear E. split; [exact A1|]. split; [exact A2|exact A3].
  Qed.
End Agree.

(** ** The tables *)
Section Tables.
  Import M_Router.
  Fixpoint exprs_from (i : nat) (rs : list route) : list (rreg nat) :=
    match rs with
    | [] => []
    | x :: rs' => match o_key x with
                  | KPath _ _ => exprs_from (S i) rs'
                  | KReg m e => (m, e, i) :: exprs_from (S i) rs'
                  end
    end.
  Lemma paths_app : forall l i l', paths_from i (l ++ l') = paths_from i l ++ paths_from (i + length l) l'.
  Proof.
    induction l as [|x l IH]; intros i l'; cbn [app paths_from length]; [rewrite Nat.add_0_r; reflexivity|]. rewrite IH, Nat.add_succ_r. destruct (o_key x); reflexivity.
  Qed.
  Lemma exprs_app : forall l i l', exprs_from i (l ++ l') = exprs_from i l ++ exprs_from (i + length l) l'.
  Proof.
    induction l as [|x l IH]; intros i l'; cbn [app exprs_from length]; [rewrite Nat.add_0_r; reflexivity|]. rewrite IH, Nat.add_succ_r. destruct (o_key x); reflexivity.
  Qed.
  Lemma in_paths : forall rs i g, In g (paths_from i rs) -> exists k x, r_set g = i + k /\ nth_error rs k = Some x /\ o_key x = KPath (r_method g) (r_route g).
  Proof.
    induction rs as [|x rs IH]; intros i g H; cbn [paths_from] in H; [destruct H|].
    assert (R : In g (paths_from (S i) rs) -> exists k y, r_set g = i + k /\ nth_error (x :: rs) k = Some y /\ o_key y = KPath (r_method g) (r_route g)).
    { intros Hg. destruct (IH _ _ Hg) as (k & y & E1 & E2 & E3). exists (S k), y. split; [lia|]. auto. }
    destruct (o_key x) eqn:E; [|exact (R H)]. destruct H as [<-|H]; [|exact (R H)]. exists 0, x. cbn. split; [lia|]. auto.
  Qed.
  Lemma in_exprs : forall rs i m e j, In (m, e, j) (exprs_from i rs) <-> exists k x, j = i + k /\ nth_error rs k = Some x /\ o_key x = KReg m e.
  Proof.
    induction rs as [|x rs IH]; intros i m e j; cbn [exprs_from].
    - split; [intros []|]. intros ([|k] & y & _ & H & _); discriminate.
    - assert (R : In (m, e, j) (exprs_from (S i) rs) <-> exists k y, j = i + S k /\ nth_error (x :: rs) (S k) = Some y /\ o_key y = KReg m e).
      { rewrite IH. cbn [nth_error]. split; intros (k & y & E1 & E2); exists k, y; (split; [lia|exact E2]). }
      assert (Z : forall k y, nth_error (x :: rs) (S k) = Some y -> True) by auto. destruct (o_key x) eqn:E.
      + rewrite R. split; [intros (k & y & E1 & E2); exists (S k), y; auto|]. intros ([|k] & y & E1 & E2 & E3); [cbn in E2; congruence|]. exists k, y. auto.
      + cbn [In]. rewrite R. split.
        * intros [H|(k & y & E1 & E2)]; [inversion H; subst; exists 0, x; split; [lia|]; auto|exists (S k), y; auto].
        * intros ([|k] & y & E1 & E2 & E3); [left; cbn in E2; inversion E2; subst; rewrite E in E3; inversion E3; subst; f_equal; lia|right; exists k, y; auto].
  Qed.
  Definition tables_ok (s : server) (p : plan) : Prop :=
    s_tree s = routed (path_regs p) /\ reg_add_all new_reg_tree (exprs_from 0 (p_routes p)) = Ok (s_regs s).

  (** A step registers one route or none. *)
  Lemma step_routes grow st o st' p : step grow st o = Ok st' -> agrees st p ->
    (st_routes st' = st_routes st /\ p_routes (plan_op p o) = p_routes p) \/
    (exists g x, st_routes st' = st_routes st ++ [g] /\ p_routes (plan_op p o) = p_routes p ++ [x] /\ o_key x = g_key g).
  Proof.
    intros E _. destruct o; cbn [step] in E; cbn [plan_op];
      repeat match type of E with
             | (match nth_error ?l ?i with _ => _ end) = Ok _ => destruct (nth_error l i) as [x|] eqn:Ex; [|discriminate]
             | (match eval_arg ?s ?a with _ => _ end) = Ok _ => destruct (eval_arg s a) as [[ha sa]|] eqn:Ea; [|discriminate]
             | (if ?c then _ else _) = Ok _ => destruct c; [|discriminate]
             end; unfold set_after, set_before, new_set, alloc in E; cbv beta iota zeta in E;
      repeat (match type of E with context [append ?a ?b ?c ?d] => destruct (append a b c d) as [? ?] end; cbv beta iota zeta in E);
      try (inversion E; subst; left; split; reflexivity).
    - inversion E; subst. right. eexists _, _. split; [reflexivity|]. split; reflexivity.
    - destruct s as [s|]; [|discriminate]. destruct (nth_error (st_sets st) s) as [x|] eqn:Ex; [|discriminate]. inversion E; subst. right. eexists _, _. split; [reflexivity|]. split; reflexivity.
  Qed.

  Definition same_rest (s : server) (p : plan) : Prop := s_auth s = p_auth p /\ s_ses s = p_ses p /\ s_level s = p_level p.
  Definition simulates (s : server) (p : plan) : Prop := agrees (s_state s) p /\ tables_ok s p /\ same_rest s p.

  Lemma sim_op grow s o s' p : do_op grow s o = Ok s' -> simulates s p ->
    step grow (s_state s) o = Ok (s_state s') /\ simulates s' (plan_op p o).
  Proof.
    intros E (A & (T1 & T2) & R). unfold do_op in E. destruct (step grow (s_state s) o) as [st|] eqn:Es; [|discriminate].
    pose proof (agree_step _ _ _ _ _ Es A) as A'.
    assert (R' : p_auth (plan_op p o) = p_auth p /\ p_ses (plan_op p o) = p_ses p /\ p_level (plan_op p o) = p_level p).
    { destruct o; try (split; [|split]; reflexivity). destruct s0; split; [|split| |split]; reflexivity. }
    destruct R' as (Ra & Rs & Rl). destruct R as (R1 & R2 & R3).
    assert (Ln : length (st_routes (s_state s)) = length (p_routes p)).
    { destruct A as (_ & _ & A3). apply (f_equal (@length _)) in A3. rewrite !map_length in A3. exact A3. }
    unfold enter in E. destruct (step_routes _ _ _ _ _ Es A) as [(E1 & E2)|(g & x & E1 & E2 & E3)]; rewrite E1 in E.
    - rewrite (proj2 (nth_error_None _ _)) in E by lia. inversion E; subst s'; clear E. cbn [s_state]. split; [reflexivity|]. split; [exact A'|]. split.
      + split; cbn [s_tree s_regs]; [unfold path_regs|]; rewrite E2; assumption.
      + split; [|split]; cbn; congruence.
    - rewrite nth_error_app2, Nat.sub_diag in E by lia. cbn [nth_error] in E. rewrite <- E3 in E. destruct (o_key x) as [m rt|m e] eqn:Ek.
      + inversion E; subst s'; clear E. cbn [s_state]. split; [reflexivity|]. split; [exact A'|]. split; [|split; [|split]; cbn; congruence].
        split; cbn [s_tree s_regs].
        * unfold path_regs, routed, add_all. rewrite E2, paths_app, fold_left_app. cbn [paths_from]. rewrite Ek. cbn [fold_left r_method r_route r_set].
          rewrite T1, Ln. reflexivity.
        * rewrite E2, exprs_app. cbn [exprs_from]. rewrite Ek, app_nil_r. exact T2.
      + destruct (reg_add (s_regs s) m e (length (st_routes (s_state s)))) as [rt|] eqn:Er; [|discriminate]. inversion E; subst s'; clear E. cbn [s_state]. split; [reflexivity|].
        split; [exact A'|]. split; [|split; [|split]; cbn; congruence]. split; cbn [s_tree s_regs].
        * unfold path_regs. rewrite E2, paths_app. cbn [paths_from]. rewrite Ek, app_nil_r. exact T1.
        * rewrite E2, exprs_app, reg_add_all_app, T2. cbn [rbind exprs_from]. rewrite Ek. cbn [reg_add_all rg_method rg_re rg_set fst snd]. cbn [Nat.add]. rewrite <- Ln, Er. reflexivity.
  Qed.

  Section Hist.
    Variables (grow : nat -> nat -> nat) (uni : bytes -> bytes) (matches : rgx -> bytes -> bool) (cd : code).
    Lemma sim_call s c ev s' p : do_call grow uni matches cd s c = (ev, Ok s') -> simulates s p ->
      run grow (s_state s) (ops [c]) = Ok (s_state s') /\ simulates s' (plan_call p c).
    Proof.
      intros E Si. unfold ops. cbn [flat_map]. rewrite app_nil_r.
      assert (Op : forall o, do_op grow s o = Ok s' -> run grow (s_state s) [o] = Ok (s_state s') /\ simulates s' (plan_op p o)).
      { intros o Eo. destruct (sim_op _ _ _ _ _ Eo Si) as [H1 H2]. cbn [run]. rewrite H1. auto. }
      destruct c; cbn [do_call] in E; cbn [op_of plan_call].
      - inversion E; subst. apply Op. assumption.
      - inversion E; subst. apply Op. destruct v; assumption.
      - inversion E as [[Ee Eo]]; subst. destruct sets as [|x sets]; [cbn in Eo; discriminate|]. apply Op. destruct v; exact Eo.
      - destruct Si as (A & T & R1 & R2 & R3). destruct (s_auth s) as [h|] eqn:Ea; [|discriminate]. inversion E; subst. split; [reflexivity|]. split; [exact A|]. split; [exact T|].
        split; [|split]; cbn; [rewrite <- R1; reflexivity|exact R2|exact R3].
      - destruct Si as (A & T & R1 & R2 & R3). inversion E; subst. split; [reflexivity|]. split; [exact A|]. split; [exact T|]. split; [reflexivity|]. split; [exact R2|exact R3].
      - destruct Si as (A & T & R1 & R2 & R3). inversion E; subst. split; [reflexivity|]. split; [exact A|]. split; [exact T|]. split; [exact R1|]. split; [reflexivity|exact R3].
      - destruct Si as (A & T & R1 & R2 & R3). inversion E; subst. split; [reflexivity|]. split; [exact A|]. split; [exact T|]. split; [exact R1|]. split; [exact R2|reflexivity].
      - destruct (request uni matches cd s rq lk) as [e [[]|]]; inversion E; subst. split; [reflexivity|exact Si].
    Qed.
    Lemma sim_history : forall cs s evs s' p, history grow uni matches cd s cs = (evs, Ok s') -> simulates s p ->
      run grow (s_state s) (ops cs) = Ok (s_state s') /\ simulates s' (fold_left plan_call cs p).
    Proof.
      induction cs as [|c cs IH]; intros s evs s' p E Si; cbn [history] in E; [inversion E; subst; split; [reflexivity|exact Si]|].
      destruct (do_call grow uni matches cd s c) as [ev [s1|]] eqn:Ec; [|discriminate]. destruct (history grow uni matches cd s1 cs) as [evs1 r1] eqn:Eh. inversion E; subst.
      destruct (sim_call _ _ _ _ _ Ec Si) as [H1 H2]. destruct (IH _ _ _ _ Eh H2) as [H3 H4]. split; [|exact H4].
      assert (Eo : ops (c :: cs) = ops [c] ++ ops cs) by (unfold ops; cbn [flat_map]; rewrite app_nil_r; reflexivity). rewrite Eo, P_Copies.run_app, H1. exact H3.
    Qed.
    Lemma sim_new : simulates new_server nothing.
    Proof. split; [split; [|split]; reflexivity|]. split; [split; reflexivity|]. split; [|split]; reflexivity. Qed.

    (** ** Requests *)
    Lemma resolve_planned cs evs s i x a : forallb S_Router.tidy (ops cs) = true -> S_Copies.disciplined (S_Copies.Bufs [] [] [] 0) (ops cs) ->
      history grow uni matches cd new_server cs = (evs, Ok s) -> nth_error (p_routes (planned cs)) i = Some x ->
      resolve cd s i a = Some (set_of cd (x, a)).
    Proof.
      intros Td Di Hh Ex. destruct (sim_history _ _ _ _ _ Hh sim_new) as [Hr (A & _ & _)]. fold (planned cs) in A.
      pose proof (Props_Copies.C127_copies grow (ops cs) (s_state s) Td Di Hr) as Sh.
      assert (V : S_Copies.copies (ops cs) = proj (planned cs)) by (unfold planned; rewrite proj_planned; reflexivity). rewrite V in Sh.
      destruct A as (_ & _ & A3). assert (Ex' := map_nth_error (fun x => (o_key x, (kt_last (o_kit x), kt_main (o_kit x)))) i _ Ex). rewrite <- A3, nth_error_map in Ex'.
      unfold resolve. destruct (nth_error (st_routes (s_state s)) i) as [g|] eqn:Eg; [|discriminate]. cbn in Ex'. inversion Ex' as [[K1 K2 K3]].
      pose proof (Sh (S_Copies.PRoute i false)) as S1. pose proof (Sh (S_Copies.PRoute i true)) as S2. unfold S_Copies.shows, S_Copies.slices, S_Copies.value in S1, S2.
      cbn [S_Copies.look proj S_Copies.v_routes] in S1, S2. rewrite !nth_error_map, Eg, Ex in S1, S2. cbn in S1, S2. inversion S1 as [H1]. inversion S2 as [H2].
      unfold set_of. cbn [fst snd]. rewrite H1, H2, K2, K3. reflexivity.
    Qed.
  End Hist.
End Tables.
