(** Property theorems for regexp routes and Server.Find: C13-C16. *)
From Verif Require Import Base GoStrings M_Tree M_RegTree S_Route P_TreeFind P_RegTree.

(** [order] is the iteration order of the Go map in one lookup: any permutation. *)
Definition any_order {HS} (order : rmap HS -> rmap HS) : Prop :=
  forall l, Permutation (order l) l.

(** the latest registration of expression [re] answering [m] has set [s] *)
Definition current {HS} (l : list (rreg HS)) (m : bytes) (re : rgx) (s : HS) : Prop :=
  exists l1 l2 rm, l = l1 ++ (rm, re, s) :: l2 /\ covers rm m = true /\
    (forall r, In r l2 -> ~ (rg_re r = re /\ covers (rg_method r) m = true)).

Lemma latest_for_current {HS} (l : list (rreg HS)) m re s :
  latest_for m re l = Some s <-> current l m re s.
Proof.
  unfold latest_for, current. induction l as [|r l IH] using rev_ind.
  - simpl. split; [discriminate|]. intros (l1 & l2 & rm & E & _). destruct l1; discriminate.
  - rewrite rev_app_distr. simpl.
    destruct (covers (rg_method r) m && (re =? rg_re r)%nat) eqn:C.
    + apply andb_true_iff in C as [C1 C2]. apply Nat.eqb_eq in C2. split.
      * intros E. injection E as <-. exists l, [], (rg_method r).
        destruct r as [[rm re'] s']. unfold rg_re, rg_method in *; cbn [fst snd] in *; subst re. split; [reflexivity|].
        split; [exact C1|]. intros r [].
      * intros (l1 & l2 & rm & E & Hc & Hno).
        destruct (exists_last (l := (rm, re, s) :: l2)) as (q & y & Ey); [discriminate|].
        rewrite Ey, app_assoc in E. apply app_inj_tail in E as [E1 E2]. subst y.
        destruct l2 as [|z l2].
        -- destruct q as [|? [|]]; try discriminate Ey. injection Ey as <-. reflexivity.
        -- exfalso. destruct q as [|q0 q]; [discriminate|]. injection Ey as _ Ey.
           apply (Hno r); [rewrite Ey; apply in_app_iff; right; left; reflexivity|].
           split; [congruence|exact C1].
    + rewrite IH. split.
      * intros (l1 & l2 & rm & -> & Hc & Hno). exists l1, (l2 ++ [r]), rm.
        split; [rewrite <- app_assoc; reflexivity|]. split; [exact Hc|].
        intros r' Hr'. apply in_app_iff in Hr' as [Hr'|[<-|[]]]; [exact (Hno r' Hr')|].
        intros [E1 E2]. rewrite E2, E1, Nat.eqb_refl in C. discriminate.
      * intros (l1 & l2 & rm & E & Hc & Hno).
        destruct l2 as [|z l2 _] using rev_ind.
        -- apply app_inj_tail in E as [_ E2]. subst r. cbn in C.
           unfold rg_method, rg_re in C. cbn [fst snd] in C. rewrite Hc, Nat.eqb_refl in C. discriminate.
        -- change (l1 ++ (rm, re, s) :: l2 ++ [z]) with (l1 ++ ((rm, re, s) :: l2) ++ [z]) in E.
           rewrite app_assoc in E. apply app_inj_tail in E as [E1 E2].
           exists l1, l2, rm. split; [exact E1|]. split; [exact Hc|].
           intros r' Hr'. apply Hno. apply in_app_iff. left. exact Hr'.
Qed.

(** ** C13 *)
Theorem C13_regexp_lookup :
  forall (HS : Type) (matches : rgx -> bytes -> bool) (order : rmap HS -> rmap HS)
         (l : list (rreg HS)) (rt : rtree HS) (m path : bytes),
    any_order order -> reg_add_all new_reg_tree l = Ok rt ->
    (* succeeds iff some registered expression answering m matches *)
    ((exists s a, reg_find matches order rt m path = (TFound s, a)) <->
     (exists r, In r l /\ covers (rg_method r) m = true /\ matches (rg_re r) path = true)) /\
    (* the answer is the current set of a matching expression, with no parameters *)
    (forall s a, reg_find matches order rt m path = (TFound s, a) ->
       a = [] /\ exists re, matches re path = true /\ current l m re s) /\
    (* with one matching expression it is determined *)
    (forall re s, matches re path = true -> current l m re s ->
       (forall r, In r l -> covers (rg_method r) m = true -> matches (rg_re r) path = true ->
                  rg_re r = re) ->
       reg_find matches order rt m path = (TFound s, [])).
Proof.
  intros HS matches order l rt m path Ho Hl.
  assert (A2 : forall s a, reg_find matches order rt m path = (TFound s, a) ->
       a = [] /\ exists re, matches re path = true /\ current l m re s).
  { intros s a H. destruct (reg_find_found matches order Ho l rt m path s a Hl H)
      as (-> & re & Hm & Hs). split; [reflexivity|]. exists re. split; [exact Hm|].
    apply latest_for_current. exact Hs. }
  split; [|split; [exact A2|]].
  - split.
    + intros (s & a & H). destruct (A2 s a H) as (_ & re & Hm & l1 & l2 & rm & -> & Hc & _).
      exists (rm, re, s). split; [apply in_app_iff; right; left; reflexivity|auto].
    + intros (r & Hr & Hc & Hm).
      destruct (latest_for m (rg_re r) l) as [s|] eqn:E.
      * destruct (reg_find_complete matches order Ho l rt m path (rg_re r) s Hl Hm E) as [s' H]. eauto.
      * exfalso. unfold latest_for in E.
        destruct (find _ (rev l)) eqn:F; [discriminate|].
        apply in_rev in Hr. apply (find_none _ _ F) in Hr.
        rewrite Hc, Nat.eqb_refl in Hr. discriminate.
  - intros re s Hm Hs Huniq. pose proof Hs as Hs0. apply latest_for_current in Hs.
    destruct (reg_find_complete matches order Ho l rt m path re s Hl Hm Hs) as [s' H].
    rewrite H. destruct (A2 s' [] H) as (_ & re' & Hm' & Hs').
    assert (re' = re).
    { destruct Hs' as (l1 & l2 & rm & E & Hc & _).
      apply (Huniq (rm, re', s')); [rewrite E; apply in_app_iff; right; left; reflexivity| |];
        assumption. }
    subst re'. apply latest_for_current in Hs'. congruence.
Qed.
Print Assumptions C13_regexp_lookup.

(** Instance: expressions 0 and 1 match everything of even / odd length. *)
Definition ex_matches (re : rgx) (p : bytes) : bool := Nat.eqb (length p mod 2) re.
Definition ex_rregs : list (rreg nat) :=
  [(MethodGet, 0, 10); (MethodGetPost, 1, 11); (MethodPost, 0, 12); (MethodGet, 0, 13)].
Example C13_instance :
  exists rt, reg_add_all new_reg_tree ex_rregs = Ok rt /\
  reg_find ex_matches (fun l => l) rt MethodGet (B"ab") = (TFound 13, []) /\
  reg_find ex_matches (@rev _) rt MethodPost (B"ab") = (TFound 12, []) /\
  reg_find ex_matches (fun l => l) rt MethodPost (B"abc") = (TFound 11, []) /\
  reg_find ex_matches (fun l => l) rt MethodPut (B"abc") = (TNotFound, []).
Proof. eexists. split; [reflexivity|]. repeat split. Qed.
Example C13_orders : any_order (fun l : rmap nat => l) /\ any_order (@rev (rgx * nat)).
Proof. split; intros l; [apply Permutation_refl|apply Permutation_sym, Permutation_rev]. Qed.

(** ** C14: refuted *)
Theorem C14_regexp_routing_deterministic_refuted :
  ~ (forall (HS : Type) (matches : rgx -> bytes -> bool) (order1 order2 : rmap HS -> rmap HS)
            (l : list (rreg HS)) (rt : rtree HS) (m path : bytes),
       any_order order1 -> any_order order2 -> reg_add_all new_reg_tree l = Ok rt ->
       reg_find matches order1 rt m path = reg_find matches order2 rt m path).
Proof.
  intros H.
  specialize (H nat (fun _ _ => true) (fun l => l) (@rev _)
    [(MethodGet, 0, 1); (MethodGet, 1, 2)] _ MethodGet (B"/x")
    (fun l => Permutation_refl l) (fun l => Permutation_sym (Permutation_rev l)) eq_refl).
  vm_compute in H. discriminate.
Qed.

(** What holds: when at most one registered expression answering the method
    matches the path, all lookups agree.  Missing: overlapping expressions. *)
Theorem C14_regexp_routing_deterministic_partial :
  forall (HS : Type) (matches : rgx -> bytes -> bool) (order1 order2 : rmap HS -> rmap HS)
         (l : list (rreg HS)) (rt : rtree HS) (m path : bytes),
    any_order order1 -> any_order order2 -> reg_add_all new_reg_tree l = Ok rt ->
    (forall r1 r2, In r1 l -> In r2 l ->
       covers (rg_method r1) m = true -> covers (rg_method r2) m = true ->
       matches (rg_re r1) path = true -> matches (rg_re r2) path = true -> rg_re r1 = rg_re r2) ->
    reg_find matches order1 rt m path = reg_find matches order2 rt m path.
Proof.
  intros HS matches o1 o2 l rt m path H1 H2 Hl Huniq.
  destruct (C13_regexp_lookup HS matches o1 l rt m path H1 Hl) as (A1 & B1 & D1).
  destruct (C13_regexp_lookup HS matches o2 l rt m path H2 Hl) as (A2 & B2 & D2).
  assert (NF : forall o, (~ exists s a, reg_find matches o rt m path = (TFound s, a)) ->
             reg_find matches o rt m path = (TNotFound, [])).
  { intros o Hn. unfold reg_find in *. destruct (aget m rt); [|reflexivity].
    destruct (find _ (o r)) as [[k s]|]; [|reflexivity]. exfalso. eauto. }
  destruct (reg_find matches o1 rt m path) as [[s| | |] a] eqn:E.
  - destruct (B1 s a eq_refl) as (-> & re & Hm & Hc). symmetry. apply (D2 re s Hm Hc).
    intros r Hr Hcov Hmr. pose proof Hc as (l1 & l2 & rm & El & Hcr & _).
    apply (Huniq r (rm, re, s)); auto. rewrite El. apply in_app_iff. right. left. reflexivity.
  - rewrite NF in E; [|rewrite E; intros (? & ? & X); discriminate].
    injection E as <-. symmetry. apply NF. intros X. apply A2, A1 in X as (? & ? & X). discriminate.
  - unfold reg_find in E. destruct (aget m rt); [|discriminate].
    destruct (find _ (o1 r)) as [[? ?]|]; discriminate.
  - unfold reg_find in E. destruct (aget m rt); [|discriminate].
    destruct (find _ (o1 r)) as [[? ?]|]; discriminate.
Qed.
Print Assumptions C14_regexp_routing_deterministic_partial.

(** Exactly which answers a lookup can give: the current set of any matching expression.  So
    lookups are deterministic exactly when these sets are all the same. *)
Lemma first_perm {A} (f : A -> bool) (l : list A) : Permutation (filter f l ++ filter (fun x => negb (f x)) l) l.
Proof.
  induction l as [|x l IH]; [constructor|]. cbn [filter]. destruct (f x); cbn [negb app].
  - constructor. exact IH.
  - eapply Permutation_trans; [apply Permutation_sym, Permutation_middle|]. constructor. exact IH.
Qed.
Theorem C14_possible_answers :
  forall (HS : Type) (matches : rgx -> bytes -> bool) (l : list (rreg HS)) (rt : rtree HS) (m path : bytes) (s : HS),
    reg_add_all new_reg_tree l = Ok rt ->
    ((exists order a, any_order order /\ reg_find matches order rt m path = (TFound s, a)) <->
     (exists re, matches re path = true /\ current l m re s)).
Proof.
  intros HS matches l rt m path s Hl. split.
  - intros (order & a & Ho & H). destruct (C13_regexp_lookup HS matches order l rt m path Ho Hl) as (_ & A2 & _).
    exact (proj2 (A2 s a H)).
  - intros (re & Hm & Hc). apply latest_for_current in Hc.
    destruct (reg_add_all_spec l rt Hl) as (K & N & L). rewrite <- L in Hc. unfold lookup in Hc.
    set (first := fun kv : rgx * HS => Nat.eqb re (fst kv)).
    exists (fun y => filter first y ++ filter (fun x => negb (first x)) y), [].
    split; [intros y; apply first_perm|]. unfold reg_find. destruct (aget m rt) as [x|] eqn:E; [|discriminate].
    unfold rget in Hc. destruct (find (fun kv : nat * HS => (re =? fst kv)%nat) x) as [[k v]|] eqn:F; [|discriminate]. injection Hc as ->.
    assert (Hh : exists t, filter first x = (k, s) :: t).
    { clear -F. induction x as [|[k' v'] x IH]; [discriminate|]. cbn [find filter fst] in *.
      change (first (k', v')) with (Nat.eqb re k'). destruct (Nat.eqb re k'); [injection F as -> ->; eexists; reflexivity|exact (IH F)]. }
    destruct Hh as (t & ->). cbn [app find fst]. apply find_some in F as [_ F]. cbn [fst] in F. apply Nat.eqb_eq in F. subst k.
    rewrite Hm. reflexivity.
Qed.
Theorem C14_deterministic_exactly :
  forall (HS : Type) (matches : rgx -> bytes -> bool) (l : list (rreg HS)) (rt : rtree HS) (m path : bytes),
    reg_add_all new_reg_tree l = Ok rt ->
    ((forall order1 order2, any_order order1 -> any_order order2 ->
        reg_find matches order1 rt m path = reg_find matches order2 rt m path) <->
     (forall re1 re2 s1 s2, matches re1 path = true -> matches re2 path = true ->
        current l m re1 s1 -> current l m re2 s2 -> s1 = s2)).
Proof.
  intros HS matches l rt m path Hl. split.
  - intros H re1 re2 s1 s2 M1 M2 H1 H2.
    destruct (proj2 (C14_possible_answers HS matches l rt m path s1 Hl) (ex_intro _ re1 (conj M1 H1))) as (o1 & a1 & P1 & E1).
    destruct (proj2 (C14_possible_answers HS matches l rt m path s2 Hl) (ex_intro _ re2 (conj M2 H2))) as (o2 & a2 & P2 & E2).
    pose proof (H o1 o2 P1 P2) as X. rewrite E1, E2 in X. congruence.
  - intros H o1 o2 P1 P2.
    destruct (C13_regexp_lookup HS matches o1 l rt m path P1 Hl) as (A1 & B1 & _).
    destruct (C13_regexp_lookup HS matches o2 l rt m path P2 Hl) as (A2 & B2 & _).
    assert (Shape : forall o, (exists s, reg_find matches o rt m path = (TFound s, [])) \/ reg_find matches o rt m path = (TNotFound, [])).
    { intros o. unfold reg_find. destruct (aget m rt); [|auto]. destruct (find _ (o r)) as [[k s]|]; eauto. }
    destruct (Shape o1) as [[s1 E1]|E1], (Shape o2) as [[s2 E2]|E2].
    + destruct (B1 _ _ E1) as (_ & re1 & M1 & C1), (B2 _ _ E2) as (_ & re2 & M2 & C2). rewrite E1, E2, (H re1 re2 s1 s2 M1 M2 C1 C2). reflexivity.
    + exfalso. assert (X : exists s a, reg_find matches o2 rt m path = (TFound s, a)) by (apply A2, A1; eauto). destruct X as (? & ? & X). congruence.
    + exfalso. assert (X : exists s a, reg_find matches o1 rt m path = (TFound s, a)) by (apply A1, A2; eauto). destruct X as (? & ? & X). congruence.
    + congruence.
Qed.
Print Assumptions C14_possible_answers.
Print Assumptions C14_deterministic_exactly.

(** ** C15 *)
Theorem C15_path_routes_first :
  forall (HS : Type) (matches : rgx -> bytes -> bool) (order : rmap HS -> rmap HS)
         (top : node HS) (rt : rtree HS) (m path : bytes) (old : args),
    (forall s a, tree_find top m path old = (TFound s, a) ->
       server_find matches order top rt m path old = (TFound s, a)) /\
    ((forall s a, tree_find top m path old <> (TFound s, a)) ->
       (forall s a, reg_find matches order rt m path = (TFound s, a) ->
          server_find matches order top rt m path old = (TFound s, [])) /\
       ((forall s a, reg_find matches order rt m path <> (TFound s, a)) ->
          server_find matches order top rt m path old = (TNotFound, []))).
Proof.
  intros HS matches order top rt m path old. unfold server_find.
  destruct (tree_find_total top m path old) as [T1 T2].
  destruct (tree_find top m path old) as [[s0| | |] a0]; simpl in *; try contradiction.
  - split; [auto|]. intros H. exfalso. exact (H s0 a0 eq_refl).
  - split; [discriminate|]. intros _. unfold reg_find.
    destruct (aget m rt) as [x|]; [|split; [discriminate|reflexivity]].
    destruct (find _ (order x)) as [[k s]|].
    + split; [intros ? ? E0; injection E0 as -> <-; reflexivity|]. intros H. exfalso. exact (H s [] eq_refl).
    + split; [discriminate|reflexivity].
Qed.
Print Assumptions C15_path_routes_first.

Example C15_instance :
  exists rt, reg_add_all new_reg_tree ex_rregs = Ok rt /\
  let top := routed [Reg MethodGet (B"/:id") 1] in
  server_find ex_matches (fun l => l) top rt MethodGet (B"/x") [] = (TFound 1, [(B"id", B"x")]) /\
  server_find ex_matches (fun l => l) top rt MethodPost (B"/x") [(B"z", B"z")] = (TFound 12, []) /\
  server_find ex_matches (fun l => l) top rt MethodPut (B"/x") [(B"z", B"z")] = (TNotFound, []).
Proof. eexists. split; [reflexivity|]. repeat split. Qed.

(** ** C16 *)
(** the state reached by any accepted history accepts exactly the standard methods *)
Theorem C16_regexp_methods :
  forall (HS : Type) (l : list (rreg HS)) (rt : rtree HS) (m : bytes) (re : rgx) (s : HS),
    reg_add_all new_reg_tree l = Ok rt ->
    ((exists rt', reg_add rt m re s = Ok rt') <->
     In m [B"GET"; B"HEAD"; B"POST"; B"PUT"; B"PATCH"; B"DELETE"; B"CONNECT";
           B"OPTIONS"; B"TRACE"; B"GETPOST"; B"GETHEAD"]) /\
    (reg_add rt m re s = Panic <->
     ~ In m [B"GET"; B"HEAD"; B"POST"; B"PUT"; B"PATCH"; B"DELETE"; B"CONNECT";
           B"OPTIONS"; B"TRACE"; B"GETPOST"; B"GETHEAD"]).
Proof.
  intros HS l rt m re s Hl. destruct (reg_add_all_spec l rt Hl) as (K & N & _).
  assert (Std : std_method m = true <->
     In m [B"GET"; B"HEAD"; B"POST"; B"PUT"; B"PATCH"; B"DELETE"; B"CONNECT";
           B"OPTIONS"; B"TRACE"; B"GETPOST"; B"GETHEAD"]).
  { unfold std_method. rewrite existsb_exists. split.
    - intros (y & Hy & E). apply beq_eq in E. congruence.
    - intros H. exists m. split; [exact H|apply beq_refl]. }
  pose proof (reg_add_spec rt m re s K N) as S. rewrite <- Std.
  destruct (reg_add rt m re s) as [rt'|].
  - destruct S as [S _]. split; split; intros; eauto; try discriminate. contradiction.
  - split; split; intros H; try congruence. destruct H; discriminate.
Qed.
Print Assumptions C16_regexp_methods.

Example C16_instance :
  reg_add (@new_reg_tree nat) (B"LINK") 0 1 = Panic /\ reg_add (@new_reg_tree nat) (B"get") 0 1 = Panic.
Proof. split; reflexivity. Qed.
