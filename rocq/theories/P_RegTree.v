(** Proofs about the regexp table. *)
From Verif Require Import Base GoStrings M_Tree M_RegTree S_Route.

Section RegTreeProofs.
  Context {HS : Type}.

  (** a registration: method, expression, set *)
  Definition rreg := (bytes * rgx * HS)%type.
  Definition rg_method (r : rreg) := fst (fst r).
  Definition rg_re (r : rreg) := snd (fst r).
  Definition rg_set (r : rreg) := snd r.

  Fixpoint reg_add_all (rt : rtree HS) (l : list rreg) : res (rtree HS) :=
    match l with
    | [] => Ok rt
    | r :: l' => rbind (reg_add rt (rg_method r) (rg_re r) (rg_set r))
                       (fun rt' => reg_add_all rt' l')
    end.

  Definition rget (re : rgx) (m : rmap HS) : option HS :=
    match find (fun kv => Nat.eqb re (fst kv)) m with Some (_, s) => Some s | None => None end.

  Definition lookup (rt : rtree HS) (method : bytes) (re : rgx) : option HS :=
    match aget method rt with Some m => rget re m | None => None end.

  Lemma rget_rput re re' s m :
    rget re (rput re' s m) = if Nat.eqb re re' then Some s else rget re m.
  Proof.
    unfold rget, rput. simpl. destruct (Nat.eqb_spec re re') as [->|Hne]; [reflexivity|].
    induction m as [|[k v] m IH]; [reflexivity|]. simpl.
    destruct (Nat.eqb_spec re' k) as [->|Hk]; simpl.
    - rewrite IH. destruct (Nat.eqb_spec re k); [contradiction|reflexivity].
    - destruct (Nat.eqb_spec re k); [reflexivity|exact IH].
  Qed.

  Definition keys_ok (rt : rtree HS) : Prop :=
    forall m, (exists x, aget m rt = Some x) <->
      In m [MethodGet; MethodHead; MethodPost; MethodPut; MethodPatch;
            MethodDelete; MethodConnect; MethodOptions; MethodTrace].

  Definition nodup_ok (rt : rtree HS) : Prop :=
    forall m x, aget m rt = Some x -> NoDup (map fst x).

  Lemma keys_ok_new : keys_ok (@new_reg_tree HS).
  Proof.
    intros m. unfold new_reg_tree. cbn [aget].
    generalize MethodGet MethodHead MethodPost MethodPut MethodPatch MethodDelete MethodConnect
      MethodOptions MethodTrace. intros. cbn [In].
    repeat match goal with |- context [beq m ?x] => destruct (beq_spec m x); subst end;
      split; intros; eauto; try tauto;
      repeat match goal with H : _ \/ _ |- _ => destruct H; [congruence|] end;
      try contradiction. destruct H as [x Hx]. discriminate.
  Qed.

  Lemma nodup_ok_new : nodup_ok (@new_reg_tree HS).
  Proof.
    intros m x H. apply aget_In in H. unfold new_reg_tree in H.
    repeat (destruct H as [H|H]; [injection H as _ <-; constructor|]). contradiction.
  Qed.

  Lemma reg_put_spec rt m re s :
    keys_ok rt -> nodup_ok rt ->
    match reg_put rt m re s with
    | Ok rt' => keys_ok rt' /\ nodup_ok rt' /\ (exists x, aget m rt = Some x) /\
                (forall m' re', lookup rt' m' re'
                   = if beq m' m && Nat.eqb re' re then Some s else lookup rt m' re')
    | Panic => aget m rt = None
    end.
  Proof.
    intros Hk Hn. unfold reg_put. destruct (aget m rt) as [x|] eqn:E; [|reflexivity].
    split; [|split; [|split]].
    - intros m'. rewrite <- (Hk m'). rewrite aget_aput.
      destruct (beq_spec m' m) as [->|H]; [|reflexivity]. split; eauto.
    - intros m' y. rewrite aget_aput. destruct (beq_spec m' m) as [->|H]; [|apply Hn].
      intros Ey. injection Ey as <-. unfold rput. simpl. constructor.
      + intros Hin. apply in_map_iff in Hin as [[k v] [Hk' Hin]]. simpl in Hk'. subst k.
        apply filter_In in Hin as [_ Hin]. simpl in Hin. rewrite Nat.eqb_refl in Hin. discriminate.
      + specialize (Hn m x E). clear -Hn. induction x as [|[k v] x IH]; simpl; [constructor|].
        inversion Hn; subst. destruct (negb (re =? k)%nat); simpl; [|auto].
        constructor; [|auto]. intros Hin. apply H1.
        apply in_map_iff in Hin as [kv [Hk' Hin]]. apply filter_In in Hin as [Hin _].
        apply in_map_iff. eauto.
    - eauto.
    - intros m' re'. unfold lookup. rewrite aget_aput.
      destruct (beq_spec m' m) as [->|H]; [|reflexivity]. rewrite E, rget_rput. reflexivity.
  Qed.

  Definition std_method (m : bytes) : bool :=
    existsb (beq m) [B"GET"; B"HEAD"; B"POST"; B"PUT"; B"PATCH"; B"DELETE"; B"CONNECT";
                     B"OPTIONS"; B"TRACE"; B"GETPOST"; B"GETHEAD"].

  Lemma key_present rt m : keys_ok rt ->
    In m [MethodGet; MethodHead; MethodPost; MethodPut; MethodPatch;
            MethodDelete; MethodConnect; MethodOptions; MethodTrace] -> aget m rt <> None.
  Proof. intros Hk Hm E. apply (Hk m) in Hm as [x Hx]. congruence. Qed.

  Lemma reg_add_spec rt m re s :
    keys_ok rt -> nodup_ok rt ->
    match reg_add rt m re s with
    | Ok rt' => std_method m = true /\ keys_ok rt' /\ nodup_ok rt' /\
                (forall m' re', lookup rt' m' re'
                   = if covers m m' && Nat.eqb re' re then Some s else lookup rt m' re')
    | Panic => std_method m = false
    end.
  Proof.
    intros Hk Hn. unfold reg_add.
    assert (Two : forall ma mb, In ma [MethodGet; MethodPost; MethodHead] ->
      In mb [MethodGet; MethodPost; MethodHead] ->
      exists rt', rbind (reg_put rt ma re s) (fun rt' => reg_put rt' mb re s) = Ok rt' /\
        keys_ok rt' /\ nodup_ok rt' /\
        (forall m' re', lookup rt' m' re'
           = if (beq m' ma || beq m' mb) && Nat.eqb re' re then Some s else lookup rt m' re')).
    { intros ma mb Ha Hb.
      assert (HA : aget ma rt <> None) by (apply key_present; [exact Hk|]; simpl in *; tauto).
      pose proof (reg_put_spec rt ma re s Hk Hn) as S1.
      destruct (reg_put rt ma re s) as [r1|]; [|contradiction]. cbn [rbind].
      destruct S1 as (K1 & N1 & _ & L1).
      assert (HB : aget mb r1 <> None) by (apply key_present; [exact K1|]; simpl in *; tauto).
      pose proof (reg_put_spec r1 mb re s K1 N1) as S2.
      destruct (reg_put r1 mb re s) as [r2|]; [|contradiction].
      destruct S2 as (K2 & N2 & _ & L2). exists r2. split; [reflexivity|].
      split; [exact K2|]. split; [exact N2|].
      intros m' re'. rewrite L2, L1.
      destruct (beq m' mb), (beq m' ma), (re' =? re)%nat; reflexivity. }
    destruct (beq_spec m MethodGetPost) as [->|H1].
    { destruct (Two MethodGet MethodPost) as (rt' & -> & K & N & L); [simpl; tauto..|].
      split; [reflexivity|]. split; [exact K|]. split; [exact N|]. exact L. }
    destruct (beq_spec m MethodGetHead) as [->|H2].
    { destruct (Two MethodGet MethodHead) as (rt' & -> & K & N & L); [simpl; tauto..|].
      split; [reflexivity|]. split; [exact K|]. split; [exact N|]. exact L. }
    pose proof (reg_put_spec rt m re s Hk Hn) as S1.
    assert (C : forall m', covers m m' = beq m' m).
    { intros m'. unfold covers. apply beq_neq in H1, H2. rewrite H1, H2. apply beq_sym. }
    destruct (reg_put rt m re s) as [r1|].
    - destruct S1 as (K & N & Hx & L). split; [|split; [exact K|split; [exact N|]]].
      + apply (Hk m) in Hx. unfold std_method. apply existsb_exists.
        exists m. split; [|apply beq_refl]. simpl in *. intuition.
      + intros m' re'. rewrite L, C. reflexivity.
    - unfold std_method. destruct (existsb _ _) eqn:E; [|reflexivity].
      apply existsb_exists in E as (y & Hy & Ey). apply beq_eq in Ey. subst y.
      exfalso. assert (aget m rt <> None); [|contradiction].
      apply key_present; [exact Hk|].
      change (B"GETPOST") with MethodGetPost in Hy. change (B"GETHEAD") with MethodGetHead in Hy.
      simpl in *. intuition (congruence || tauto).
  Qed.

  (** the latest registration for an expression and a method *)
  Definition latest_for (m : bytes) (re : rgx) (l : list rreg) : option HS :=
    match find (fun r => covers (rg_method r) m && Nat.eqb re (rg_re r)) (rev l) with
    | Some r => Some (rg_set r)
    | None => None
    end.

  Lemma reg_add_all_app l1 : forall rt l2,
    reg_add_all rt (l1 ++ l2) = rbind (reg_add_all rt l1) (fun rt' => reg_add_all rt' l2).
  Proof.
    induction l1 as [|r l1 IH]; intros rt l2; [reflexivity|]. cbn [app reg_add_all].
    destruct (reg_add rt (rg_method r) (rg_re r) (rg_set r)); cbn [rbind]; [apply IH|reflexivity].
  Qed.

  Lemma reg_add_all_spec l :
    forall rt, reg_add_all new_reg_tree l = Ok rt ->
    keys_ok rt /\ nodup_ok rt /\ (forall m re, lookup rt m re = latest_for m re l).
  Proof.
    induction l as [|r l IH] using rev_ind; intros rt H.
    - injection H as <-. split; [apply keys_ok_new|]. split; [apply nodup_ok_new|].
      intros m re. unfold lookup, latest_for. cbn [rev find].
      assert (forall x, aget m (@new_reg_tree HS) = Some x -> x = []) as X.
      { intros x Hx. apply aget_In in Hx. unfold new_reg_tree in Hx.
        repeat (destruct Hx as [Hx|Hx]; [injection Hx as _ <-; reflexivity|]). contradiction. }
      destruct (aget m new_reg_tree) as [x|]; [|reflexivity]. rewrite (X x eq_refl). reflexivity.
    - rewrite reg_add_all_app in H.
      destruct (reg_add_all new_reg_tree l) as [rt0|]; [|discriminate]. cbn [rbind reg_add_all] in H.
      destruct (IH rt0 eq_refl) as (K & N & L).
      pose proof (reg_add_spec rt0 (rg_method r) (rg_re r) (rg_set r) K N) as S.
      destruct (reg_add rt0 (rg_method r) (rg_re r) (rg_set r)) as [rt1|]; [|discriminate].
      cbn [rbind] in H. injection H as <-. destruct S as (_ & K1 & N1 & L1).
      split; [exact K1|]. split; [exact N1|]. intros m re. rewrite L1, L.
      unfold latest_for. rewrite rev_app_distr. simpl.
      destruct (covers (rg_method r) m && (re =? rg_re r)%nat); reflexivity.
  Qed.

  Lemma rget_In m re s : NoDup (map fst m) -> (In (re, s) m <-> rget re m = Some s).
  Proof.
    intros Hn. unfold rget. induction m as [|[k v] m IH]; simpl.
    - split; [contradiction|discriminate].
    - inversion Hn; subst. destruct (Nat.eqb_spec re k) as [->|Hne].
      + split.
        * intros [E|Hin]; [congruence|]. exfalso. apply H1. apply in_map_iff. exists (k, s). auto.
        * intros E. injection E as ->. auto.
      + rewrite <- IH by assumption. split; [intros [E|Hin]; [congruence|exact Hin]|auto].
  Qed.

  Section Find.
    Variable matches : rgx -> bytes -> bool.
    Variable order : rmap HS -> rmap HS.
    Hypothesis order_perm : forall l, Permutation (order l) l.

    Lemma reg_find_found l rt m path s a :
      reg_add_all new_reg_tree l = Ok rt ->
      reg_find matches order rt m path = (TFound s, a) ->
      a = [] /\ exists re, matches re path = true /\ latest_for m re l = Some s.
    Proof.
      intros Hl. destruct (reg_add_all_spec l rt Hl) as (K & N & L). unfold reg_find.
      destruct (aget m rt) as [x|] eqn:E; [|discriminate].
      destruct (find _ (order x)) as [[re s']|] eqn:F; [|discriminate].
      intros H. injection H as -> <-. split; [reflexivity|].
      apply find_some in F as [F1 F2]. exists re. split; [exact F2|].
      rewrite <- L. unfold lookup. rewrite E. apply rget_In; [eapply N; eassumption|].
      eapply Permutation_in; [apply order_perm|exact F1].
    Qed.

    Lemma reg_find_complete l rt m path re s :
      reg_add_all new_reg_tree l = Ok rt ->
      matches re path = true -> latest_for m re l = Some s ->
      exists s', reg_find matches order rt m path = (TFound s', []).
    Proof.
      intros Hl Hm Hs. destruct (reg_add_all_spec l rt Hl) as (K & N & L).
      rewrite <- L in Hs. unfold lookup in Hs. unfold reg_find.
      destruct (aget m rt) as [x|] eqn:E; [|discriminate].
      apply rget_In in Hs; [|eapply N; eassumption].
      destruct (find _ (order x)) as [[re' s']|] eqn:F; [eauto|].
      exfalso. assert (In (re, s) (order x)) as Hin
        by (eapply Permutation_in; [apply Permutation_sym, order_perm|exact Hs]).
      apply (find_none _ _ F) in Hin. simpl in Hin. congruence.
    Qed.
  End Find.
End RegTreeProofs.
Arguments rreg HS : clear implicits.
