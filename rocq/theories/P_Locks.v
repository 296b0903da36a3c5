(** Proofs about M_Locks: who holds what, and why nobody waits in a circle. *)
From Verif Require Import Base M_Locks S_Locks.

Inductive mode := MWanted | MClosed | MEntered | MOpened | MRead.
Definition held := list (lock * mode).

(** the locks held after an operation *)
Definition stk1 (h : held) (o : op) : held :=
  match o with
  | Want m => (m, MWanted) :: h
  | Close m => (m, MClosed) :: tl h
  | Enter m => (m, MEntered) :: tl h
  | Open m => (m, MOpened) :: tl h
  | Free _ | RLeave _ => tl h
  | REnter m => (m, MRead) :: h
  | Halt => h
  end.
Definition stk (os : list op) : held := fold_left stk1 os [].

Section Disc.
  Variable hot : lock -> Prop.
  Variable above : lock -> held -> Prop.
  Variable asleep_with : held -> Prop.
  Fixpoint okops (h : held) (os : list op) : Prop :=
    match os with
    | [] => h = []
    | Want m :: k => hot m /\ above m h /\ okops ((m, MWanted) :: h) k
    | Close m :: k => exists h', h = (m, MWanted) :: h' /\ hot m /\ above m h' /\ okops ((m, MClosed) :: h') k
    | Enter m :: k => exists h', h = (m, MClosed) :: h' /\ hot m /\ above m h' /\ okops ((m, MEntered) :: h') k
    | Open m :: k => exists h', h = (m, MEntered) :: h' /\ hot m /\ okops ((m, MOpened) :: h') k
    | Free m :: k => exists h', h = (m, MOpened) :: h' /\ hot m /\ okops h' k
    | REnter m :: k => (hot m -> above m h) /\ okops ((m, MRead) :: h) k
    | RLeave m :: k => exists h', h = (m, MRead) :: h' /\ okops h' k
    | Halt :: k => asleep_with h /\ okops h k
    end.

  Definition cnt (p : mode -> bool) (m : lock) (h : held) : nat :=
    length (filter (fun x => (if lock_dec (fst x) m then true else false) && p (snd x)) h).
  Definition is_w (md : mode) : bool := match md with MRead => false | _ => true end.
  Definition is_c (md : mode) : bool := match md with MClosed | MEntered => true | _ => false end.
  Definition is_r (md : mode) : bool := match md with MRead => true | _ => false end.
  Lemma cnt_app p m h1 h2 : cnt p m (h1 ++ h2) = cnt p m h1 + cnt p m h2.
  Proof. unfold cnt. rewrite filter_app, app_length. reflexivity. Qed.
  Lemma cnt_cons p m x md h : cnt p m ((x, md) :: h) = (if lock_dec x m then if p md then 1 else 0 else 0) + cnt p m h.
  Proof. unfold cnt. cbn [filter fst snd]. destruct (lock_dec x m), (p md); cbn [andb length]; reflexivity. Qed.
  Lemma cnt_in p m h : 0 < cnt p m h -> exists md, In (m, md) h /\ p md = true.
  Proof.
    unfold cnt. intros H. destruct (filter _ h) as [|[x md] r] eqn:E; [cbn in H; lia|].
    assert (I : In (x, md) (filter (fun x => (if lock_dec (fst x) m then true else false) && p (snd x)) h))
      by (rewrite E; left; reflexivity).
    apply filter_In in I as [I J]. cbn [fst snd] in J. destruct (lock_dec x m) as [->|]; [|discriminate].
    exists md. split; assumption.
  Qed.

  Definition b2n (b : bool) : nat := if b then 1 else 0.
  Definition consistent (f : lock -> rw) (all : held) : Prop :=
    forall m, b2n (w_taken (f m)) = cnt is_w m all /\ b2n (closed (f m)) = cnt is_c m all /\ readers (f m) = cnt is_r m all.
  (** per goroutine: the operations done and those to do *)
  Definition inv (ps : list (list op)) (y : sys) : Prop :=
    exists dq, y_threads y = map snd dq /\ ps = map (fun x => fst x ++ snd x) dq /\
      Forall (fun x => okops (stk (fst x)) (snd x)) dq /\ consistent (y_locks y) (concat (map (fun x => stk (fst x)) dq)).
  Lemma okops_step f o k h1 h h2 v : okops h (o :: k) -> consistent f (concat (h1 ++ h :: h2)) -> act o (f (lock_of o)) = Some v ->
    okops (stk1 h o) k /\ consistent (set_lock (lock_of o) v f) (concat (h1 ++ stk1 h o :: h2)).
  Proof.
    intros Fx C Hv.
    unfold consistent in C |- *.
    assert (E : forall p m x, cnt p m (concat (h1 ++ x :: h2)) = cnt p m (concat h1) + cnt p m x + cnt p m (concat h2)).
    { intros p m x. rewrite concat_app. cbn [concat]. rewrite !cnt_app. lia. }
    destruct o as [m|m|m|m|m|m|m|]; cbn [act lock_of okops stk1] in Hv, Fx |- *.
    - destruct Fx as (Hm & Ab & Ok'). split; [exact Ok'|]. intros x. specialize (C x). rewrite !E in C |- *.
      rewrite !cnt_cons. unfold set_lock. destruct (lock_dec x m) as [->|Nx]; cbn [is_w is_c is_r].
      + destruct (w_taken (f m)) eqn:T; [discriminate|]. injection Hv as <-. cbn [w_taken closed readers b2n] in *.
        destruct (lock_dec m m); [|congruence]. lia.
      + destruct (lock_dec m x); [congruence|]. lia.
    - destruct Fx as (h' & -> & Hm & Ab & Ok'); cbn [tl]. split; [exact Ok'|]. intros x. specialize (C x). rewrite !E in C |- *.
      rewrite !cnt_cons in C |- *. injection Hv as <-. unfold set_lock. destruct (lock_dec x m) as [->|Nx]; cbn [is_w is_c is_r w_taken closed readers] in *.
      + destruct (lock_dec m m); [|congruence]. cbn [b2n] in *.
        assert (cnt is_c m (concat h1) + cnt is_c m h' + cnt is_c m (concat h2) <=
                cnt is_w m (concat h1) + cnt is_w m h' + cnt is_w m (concat h2)).
        { assert (L : forall q, cnt is_c m q <= cnt is_w m q).
          { induction q as [|[a md] q IH]; [reflexivity|]. rewrite !cnt_cons. destruct (lock_dec a m), md; cbn [is_c is_w]; lia. }
          pose proof (L (concat h1)). pose proof (L h'). pose proof (L (concat h2)). lia. }
        destruct (w_taken (f m)), (closed (f m)); cbn [b2n] in *; lia.
      + destruct (lock_dec m x); [congruence|]. lia.
    - destruct Fx as (h' & -> & Hm & Ab & Ok'); cbn [tl]. split; [exact Ok'|]. intros x. specialize (C x). rewrite !E in C |- *.
      rewrite !cnt_cons in C |- *. destruct (readers (f m)) eqn:R; [|discriminate]. injection Hv as <-.
      unfold set_lock. destruct (lock_dec x m) as [->|Nx]; cbn [is_w is_c is_r] in *.
      + rewrite R in *. destruct (lock_dec m m); [|congruence]. exact C.
      + destruct (lock_dec m x); [congruence|]. exact C.
    - destruct Fx as (h' & -> & Hm & Ok'); cbn [tl]. split; [exact Ok'|]. intros x. specialize (C x). rewrite !E in C |- *.
      rewrite !cnt_cons in C |- *. injection Hv as <-. unfold set_lock. destruct (lock_dec x m) as [->|Nx]; cbn [is_w is_c is_r w_taken closed readers b2n] in *.
      + destruct (lock_dec m m); [|congruence]. destruct (closed (f m)); cbn [b2n] in *; lia.
      + destruct (lock_dec m x); [congruence|]. lia.
    - destruct Fx as (h' & -> & Hm & Ok'); cbn [tl]. split; [exact Ok'|]. intros x. specialize (C x). rewrite !E in C |- *.
      rewrite !cnt_cons in C. injection Hv as <-. unfold set_lock. destruct (lock_dec x m) as [->|Nx]; cbn [is_w is_c is_r w_taken closed readers b2n] in *.
      + destruct (lock_dec m m); [|congruence]. destruct (w_taken (f m)); cbn [b2n] in *; lia.
      + destruct (lock_dec m x); [congruence|]. lia.
    - destruct Fx as (Ab & Ok'). split; [exact Ok'|]. intros x. specialize (C x). rewrite !E in C |- *.
      rewrite !cnt_cons. destruct (closed (f m)) eqn:T; [discriminate|]. injection Hv as <-.
      unfold set_lock. destruct (lock_dec x m) as [->|Nx]; cbn [is_w is_c is_r w_taken closed readers b2n] in *.
      + rewrite T in C. destruct (lock_dec m m); [|congruence]. cbn [b2n] in *. lia.
      + destruct (lock_dec m x); [congruence|]. lia.
    - destruct Fx as (h' & -> & Ok'); cbn [tl]. split; [exact Ok'|]. intros x. specialize (C x). rewrite !E in C |- *.
      rewrite !cnt_cons in C. injection Hv as <-. unfold set_lock. destruct (lock_dec x m) as [->|Nx]; cbn [is_w is_c is_r w_taken closed readers b2n] in *.
      + destruct (lock_dec m m); [|congruence]. lia.
      + destruct (lock_dec m x); [congruence|]. lia.
    - discriminate.
  Qed.
  Lemma inv_step ps y y' : inv ps y -> step y y' -> inv ps y'.
  Proof.
    intros (dq & Ht & Hp & F & C) St. destruct St as [f l1 o k l2 v Hv]. cbn [y_threads y_locks] in *.
    symmetry in Ht. apply map_eq_app in Ht as (a1 & r & -> & E1 & E2). destruct r as [|[d q] a2]; [discriminate|].
    cbn [map snd] in E2. injection E2 as -> E2. rewrite !map_app in Hp, C. cbn [map fst snd] in Hp, C.
    apply Forall_app in F as [F1 F2]. inversion F2 as [|x r Fx Fr]; subst x r. cbn [fst snd] in Fx.
    destruct (okops_step f o k _ _ _ v Fx C Hv) as [G1 G2].
    assert (E : stk (d ++ [o]) = stk1 (stk d) o) by (unfold stk; rewrite fold_left_app; reflexivity).
    exists (a1 ++ (d ++ [o], k) :: a2). cbn [y_threads y_locks]. rewrite !map_app. cbn [map fst snd]. rewrite E.
    split; [congruence|]. split; [rewrite <- app_assoc; exact Hp|]. split; [|exact G2].
    apply Forall_app. split; [exact F1|]. constructor; [cbn [fst snd]; rewrite E; exact G1|exact Fr].
  Qed.
  Lemma inv_run ps y y' n : inv ps y -> run y y' n -> inv ps y'.
  Proof. intros I R. induction R as [|x y z n R IH St]; [exact I|]. apply (inv_step ps y); [apply IH; exact I|exact St]. Qed.

  (** a lock held for writing is contended *)
  Lemma held_hot os : forall h m md, okops h os -> In (m, md) h -> is_w md = true -> hot m.
  Proof.
    induction os as [|o os IH]; intros h m md Ok' I J; cbn [okops] in Ok'; [subst h; destruct I|].
    destruct o as [x|x|x|x|x|x|x|].
    - destruct Ok' as (_ & _ & Ok'). apply (IH _ m md Ok'); [right; exact I|exact J].
    - destruct Ok' as (h' & -> & Hx & _ & Ok'). destruct I as [[= -> _]|I]; [exact Hx|]. apply (IH _ m md Ok'); [right; exact I|exact J].
    - destruct Ok' as (h' & -> & Hx & _ & Ok'). destruct I as [[= -> _]|I]; [exact Hx|]. apply (IH _ m md Ok'); [right; exact I|exact J].
    - destruct Ok' as (h' & -> & Hx & Ok'). destruct I as [[= -> _]|I]; [exact Hx|]. apply (IH _ m md Ok'); [right; exact I|exact J].
    - destruct Ok' as (h' & -> & Hx & Ok'). destruct I as [[= -> _]|I]; [exact Hx|]. apply (IH _ m md Ok'); assumption.
    - destruct Ok' as (_ & Ok'). apply (IH _ m md Ok'); [right; exact I|exact J].
    - destruct Ok' as (h' & -> & Ok'). destruct I as [[= -> <-]|I]; [discriminate|]. apply (IH _ m md Ok'); assumption.
    - destruct Ok' as (_ & Ok'). apply (IH _ m md Ok'); assumption.
  Qed.

End Disc.

Section Ranked.
  Variable rk : lock -> nat.
  Variable hot : lock -> Prop.
  (** everything contended that is held has a higher rank than [m] *)
  Definition above (m : lock) (h : held) : Prop := forall x md, In (x, md) h -> hot x -> rk m < rk x.
  Definition none_hot (h : held) : Prop := forall x md, In (x, md) h -> ~ hot x.
  Notation okops := (okops hot above none_hot).
  Notation inv := (inv hot above none_hot).
  (** ** nobody can go on *)
  Lemma stuck_op f ts o k : stuck (Sys f ts) -> In (o :: k) ts -> act o (f (lock_of o)) = None.
  Proof.
    intros St I. apply in_split in I as (l1 & l2 & ->). destruct (act o (f (lock_of o))) as [v|] eqn:E; [|reflexivity].
    exfalso. exact (St _ (S_op f l1 o k l2 v E)).
  Qed.
  Lemma holder hs ts x : Forall2 okops hs ts -> In x (concat hs) -> exists h os, In os ts /\ okops h os /\ In x h.
  Proof.
    intros F. induction F as [|h os hs ts Ho F IH]; cbn [concat]; [intros []|]. intros I. apply in_app_iff in I as [I|I].
    - exists h, os. split; [left; reflexivity|]. split; assumption.
    - destruct (IH I) as (h' & os' & A1 & A2 & A3). exists h', os'. split; [right; exact A1|]. split; assumption.
  Qed.
  Section Stuck.
    Variables (f : lock -> rw) (ts : list (list op)) (hs : list held).
    Hypothesis St : stuck (Sys f ts).
    Hypothesis F : Forall2 okops hs ts.
    Hypothesis C : consistent f (concat hs).

    Lemma closed_holder m : closed (f m) = true -> exists h os md, In os ts /\ okops h os /\ In (m, md) h /\ is_c md = true.
    Proof.
      intros E. destruct (C m) as (_ & C2 & _). rewrite E in C2. cbn [b2n] in C2.
      destruct (cnt_in is_c m (concat hs)) as (md & I & J); [lia|].
      destruct (holder hs ts _ F I) as (h & os & A1 & A2 & A3). exists h, os, md.
      split; [exact A1|]. split; [exact A2|]. split; assumption.
    Qed.
    Lemma closed_hot m : closed (f m) = true -> hot m.
    Proof.
      intros E. destruct (closed_holder m E) as (h & os & md & A1 & A2 & A3 & A4).
      apply (held_hot _ _ _ os h m md A2 A3). destruct md; try discriminate; reflexivity.
    Qed.
    (** who holds a contended lock and cannot go on waits for a lower one, or for this one's readers *)
    Lemma holder_waits h o k m md : In (o :: k) ts -> okops h (o :: k) -> In (m, md) h -> hot m ->
      (o <> Halt /\ rk (lock_of o) < rk m) \/ (o = Enter m /\ md = MClosed).
    Proof.
      intros I Ok' Im Hm. pose proof (stuck_op f ts o k St I) as Bl.
      destruct o as [x|x|x|x|x|x|x|]; cbn [act lock_of okops] in *; try discriminate.
      - left. destruct Ok' as (_ & Ab & _). split; [discriminate|]. apply (Ab m md Im Hm).
      - destruct Ok' as (h' & -> & Hx & Ab & _). destruct Im as [[= -> <-]|Im]; [right; split; reflexivity|].
        left. split; [discriminate|]. apply (Ab m md Im Hm).
      - destruct (closed (f x)) eqn:E; [|discriminate]. destruct Ok' as (Ab & _). left. split; [discriminate|].
        apply (Ab (closed_hot x E) m md Im Hm).
      - destruct Ok' as (Ab & _). exfalso. exact (Ab m md Im Hm).
    Qed.
    Lemma nonempty h os m md : okops h os -> In (m, md) h -> exists o k, os = o :: k.
    Proof. intros Ok' I. destruct os as [|o k]; [cbn in Ok'; subst h; destruct I|]. exists o, k. reflexivity. Qed.
    (** somebody waits for the readers of [m]: then somebody waits for a lower lock *)
    Lemma enter_waits m k : In (Enter m :: k) ts -> exists o k', In (o :: k') ts /\ o <> Halt /\ rk (lock_of o) < rk m.
    Proof.
      intros I. pose proof (stuck_op f ts _ k St I) as Bl. cbn [act lock_of] in Bl.
      destruct (readers (f m)) as [|n] eqn:R; [discriminate|]. destruct (C m) as (_ & _ & C3). rewrite R in C3.
      destruct (cnt_in is_r m (concat hs)) as (md & Im & J); [lia|].
      assert (Hm : hot m).
      { clear - I F. induction F as [|h os hs ts Ho F' IH]; [destruct I|]. destruct I as [->|I]; [|apply IH; assumption].
        cbn [okops] in Ho. destruct Ho as (_ & _ & Hx & _). exact Hx. }
      destruct (holder hs ts _ F Im) as (h & os & A1 & A2 & A3).
      destruct (nonempty h os m md A2 A3) as (o & k' & ->).
      destruct (holder_waits h o k' m md A1 A2 A3 Hm) as [[B1 B2]|[_ ->]]; [|discriminate].
      exists o, k'. split; [exact A1|]. split; assumption.
    Qed.
    Lemma write_waits m h os md : In os ts -> okops h os -> In (m, md) h -> is_w md = true ->
      exists o k', In (o :: k') ts /\ o <> Halt /\ rk (lock_of o) < rk m.
    Proof.
      intros A1 A2 A3 J. destruct (nonempty h os m md A2 A3) as (o & k' & ->).
      destruct (holder_waits h o k' m md A1 A2 A3 (held_hot _ _ _ _ h m md A2 A3 J)) as [[B1 B2]|[-> _]].
      - exists o, k'. split; [exact A1|]. split; assumption.
      - exact (enter_waits m k' A1).
    Qed.
    Lemma nobody_waits : forall n o k, rk (lock_of o) = n -> In (o :: k) ts -> o <> Halt -> False.
    Proof.
      intros n. induction n as [n IH] using lt_wf_ind. intros o k En I Nh.
      assert (G : exists o' k', In (o' :: k') ts /\ o' <> Halt /\ rk (lock_of o') < rk (lock_of o)).
      { pose proof (stuck_op f ts o k St I) as Bl. destruct o as [m|m|m|m|m|m|m|]; cbn [act lock_of] in *; try discriminate; try congruence.
        - destruct (w_taken (f m)) eqn:T; [|discriminate]. destruct (C m) as (C1 & _). rewrite T in C1. cbn [b2n] in C1.
          destruct (cnt_in is_w m (concat hs)) as (md & Im & J); [lia|].
          destruct (holder hs ts _ F Im) as (h & os & A1 & A2 & A3). exact (write_waits m h os md A1 A2 A3 J).
        - exact (enter_waits m k I).
        - destruct (closed (f m)) eqn:T; [|discriminate].
          destruct (closed_holder m T) as (h & os & md & A1 & A2 & A3 & A4). apply (write_waits m h os md A1 A2 A3).
          destruct md; try discriminate; reflexivity. }
      destruct G as (o' & k' & G1 & G2 & G3). apply (IH (rk (lock_of o'))) with (o := o') (k := k'); [lia|reflexivity|exact G1|exact G2].
    Qed.
  End Stuck.
  Lemma stuck_means ps y : inv ps y -> stuck y -> Forall (fun os => os = [] \/ exists k, os = Halt :: k) (y_threads y).
  Proof.
    destruct y as [f ts]. intros (dq & Ht & _ & F0 & C) St. cbn [y_threads y_locks] in *.
    assert (F : Forall2 okops (map (fun x => stk (fst x)) dq) ts).
    { rewrite Ht. clear Ht St C. induction F0 as [|x l H F0 IH]; cbn [map]; constructor; assumption. }
    revert C F. generalize (map (fun x => stk (fst x)) dq) as hs. intros hs C F. apply Forall_forall. intros os I.
    destruct os as [|o k]; [left; reflexivity|right]. exists k.
    destruct o as [m|m|m|m|m|m|m|];
      try (exfalso; eapply (nobody_waits f ts hs St F C _ _ k eq_refl I); discriminate). reflexivity.
  Qed.
End Ranked.

(** ** Calls *)
Section CallInd.
  Variable P : call -> Prop.
  Hypothesis H_leaf : forall c, (forall l u, c <> CLog l u) -> (forall l cf u, c <> CDebugf l cf u) -> (forall u, c <> CServerDebugf u) ->
    (forall n s a b r ab l, c <> CServe n s a b r ab l) -> P c.
  Hypothesis H_log : forall l u, Forall P u -> P (CLog l u).
  Hypothesis H_debugf : forall l cf u, Forall P u -> P (CDebugf l cf u).
  Hypothesis H_sdebugf : forall u, Forall P u -> P (CServerDebugf u).
  Hypothesis H_serve : forall n s a b r ab l, Forall P a -> Forall P b -> Forall P r -> Forall P l -> P (CServe n s a b r ab l).
  Fixpoint call_ind' (c : call) : P c :=
    let all := (fix all (u : list call) : Forall P u :=
                  match u with [] => Forall_nil P | x :: u' => Forall_cons x (call_ind' x) (all u') end) in
    match c with
    | CLog l u => H_log l u (all u)
    | CDebugf l cf u => H_debugf l cf u (all u)
    | CServerDebugf u => H_sdebugf u (all u)
    | CServe n s a b r ab l => H_serve n s a b r ab l (all a) (all b) (all r) (all l)
    | _ => ltac:(apply H_leaf; intros; discriminate)
    end.
End CallInd.

Definition obj_lock (o : obj) : lock := match o with OSet s => LSet s | OLogger l => LLogger l end.
Section Calls.
  Variable num : obj -> nat.
  Variable M : nat -> Prop.                                  (* modified sets *)
  Definition rk_of (m : lock) : nat :=
    match m with
    | LSet s => 2 + num (OSet s) | LLogger l => 2 + num (OLogger l)
    | LRouter _ => 1 | LNode _ | LConfig _ => 0
    end.
  Definition hot_of (m : lock) : Prop := match m with LSet s => M s | _ => True end.
  Definition hot_obj (o : obj) : Prop := match o with OSet s => M s | OLogger _ => True end.
  Definition pass (h : held) (os : list op) : Prop := forall k, okops hot_of (above rk_of hot_of) (none_hot hot_of) h k -> okops hot_of (above rk_of hot_of) (none_hot hot_of) h (os ++ k).
  Lemma pass_nil h : pass h [].
  Proof. intros k H. exact H. Qed.
  Lemma pass_app h a b : pass h a -> pass h b -> pass h (a ++ b).
  Proof. intros Ha Hb k H. rewrite <- app_assoc. apply Ha, Hb, H. Qed.
  Lemma pass_write h m b : hot_of m -> above rk_of hot_of m h -> pass ((m, MEntered) :: h) (flat_map flat b) -> pass h (flat (SWrite m b)).
  Proof.
    intros Hm Ab Pb k H. cbn [flat]. rewrite <- !app_assoc. cbn [app okops]. split; [exact Hm|]. split; [exact Ab|].
    exists h. split; [reflexivity|]. split; [exact Hm|]. split; [exact Ab|].
    exists h. split; [reflexivity|]. split; [exact Hm|]. split; [exact Ab|].
    apply Pb. cbn [okops]. exists h. split; [reflexivity|]. split; [exact Hm|]. exists h. split; [reflexivity|]. split; [exact Hm|exact H].
  Qed.
  Lemma pass_read h m b : (hot_of m -> above rk_of hot_of m h) -> pass ((m, MRead) :: h) (flat_map flat b) -> pass h (flat (SRead m b)).
  Proof.
    intros Ab Pb k H. cbn [flat]. rewrite <- !app_assoc. cbn [app okops]. split; [exact Ab|].
    apply Pb. cbn [okops]. exists h. split; [reflexivity|exact H].
  Qed.
  Lemma pass_flat_map {A} h (f : A -> list sec) l : (forall x, In x l -> pass h (flat_map flat (f x))) -> pass h (flat_map flat (flat_map f l)).
  Proof.
    intros H. induction l as [|x l IH]; cbn [flat_map]; [apply pass_nil|]. rewrite flat_map_app. apply pass_app.
    - apply H. left. reflexivity.
    - apply IH. intros y I. apply H. right. exact I.
  Qed.

  (** the objects held at a point of user code *)
  Definition of_objects (h : held) : Prop := forall x md, In (x, md) h -> exists o, x = obj_lock o.
  Record good (h : held) (c : call) : Prop := Good {
    g_modifies : forall x s, part c x -> modifies x s -> M s;
    g_below : forall y b a md, part c y -> uses y b -> hot_obj b -> In (obj_lock a, md) h -> hot_obj a -> num b < num a;
    g_nested : forall x a c' y b, part c x -> code_inside x a c' -> part c' y -> uses y b -> hot_obj a -> hot_obj b -> num b < num a;
    g_block : part c CBlock -> forall a md, In (obj_lock a, md) h -> ~ hot_obj a;
    g_block_in : forall x a c', part c x -> code_inside x a c' -> hot_obj a -> ~ part c' CBlock
  }.
  Lemma hot_obj_lock o : hot_of (obj_lock o) <-> hot_obj o.
  Proof. destruct o; reflexivity. Qed.
  Lemma low_above h m : of_objects h -> rk_of m <= 1 -> above rk_of hot_of m h.
  Proof. intros Ho L x md I _. destruct (Ho x md I) as [o ->]. destruct o; cbn [obj_lock rk_of]; lia. Qed.
  Lemma obj_above h c b : of_objects h -> good h c -> uses c b -> hot_obj b -> above rk_of hot_of (obj_lock b) h.
  Proof.
    intros Ho G U Hb x md I Hx. destruct (Ho x md I) as [a ->].
    pose proof (g_below h c G c b a md (part_refl c) U Hb I (proj1 (hot_obj_lock a) Hx)) as L.
    destruct a, b; cbn [obj_lock rk_of]; lia.
  Qed.
  (** user code inside [c] *)
  Lemma good_sub h c d : good h c -> (forall x, part d x -> part c x) -> good h d.
  Proof.
    intros [G1 G2 G3 G4 G5] S'. constructor.
    - intros x s Px. apply G1. apply S', Px.
    - intros y b a md Py. apply G2. apply S', Py.
    - intros x a c' y b Px. apply (G3 x a c' y b). apply S', Px.
    - intros Pb. apply G4. apply S', Pb.
    - intros x a c' Px. apply (G5 x a c'). apply S', Px.
  Qed.
  Lemma good_inside h c o md d : good h c -> code_inside c o d -> (forall x, part d x -> part c x) -> good ((obj_lock o, md) :: h) d.
  Proof.
    intros G CI S'. destruct (good_sub h c d G S') as [G1 G2 G3 G4 G5]. constructor; try assumption.
    - intros y b a md' Py U Hb [[= E _]|I] Ha; [|exact (G2 y b a md' Py U Hb I Ha)].
      assert (a = o) as -> by (destruct a, o; cbn [obj_lock] in E; congruence).
      exact (g_nested h c G c o d y b (part_refl c) CI Py U Ha Hb).
    - intros Pb a md' [[= E _]|I]; [|exact (G4 Pb a md' I)].
      assert (a = o) as -> by (destruct a, o; cbn [obj_lock] in E; congruence).
      intros Ha. exact (g_block_in h c G c o d (part_refl c) CI Ha Pb).
  Qed.
  Lemma of_objects_cons h o md : of_objects h -> of_objects ((obj_lock o, md) :: h).
  Proof. intros Ho x md' [[= <- _]|I]; [exists o; reflexivity|exact (Ho x md' I)]. Qed.
  Lemma pass_low_write h m : of_objects h -> hot_of m -> rk_of m <= 1 -> pass h (flat (SWrite m [])).
  Proof. intros Ho Hm L. apply pass_write; [exact Hm|apply low_above; assumption|apply pass_nil]. Qed.
  Lemma pass_find h n : of_objects h -> pass h (flat_map flat (find_secs n)).
  Proof.
    intros Ho. destruct n as [n|]; cbn [find_secs flat_map]; [|apply pass_nil]. rewrite app_nil_r.
    apply pass_read; [|apply pass_nil]. intros _. apply low_above; [exact Ho|cbn [rk_of]; lia].
  Qed.
  Lemma pass_obj h c o : of_objects h -> good h c -> uses c o -> hot_obj o -> pass h (flat (SWrite (obj_lock o) [])).
  Proof.
    intros Ho G U Hh. apply pass_write; [apply hot_obj_lock, Hh|exact (obj_above h c o Ho G U Hh)|apply pass_nil].
  Qed.
  Lemma pass_get_config h c l cf : of_objects h -> good h c -> uses c (OLogger l) -> pass h (flat (SWrite (LLogger l) [SWrite (LConfig cf) []])).
  Proof.
    intros Ho G U. apply (pass_write h (obj_lock (OLogger l))); [exact I|exact (obj_above h c (OLogger l) Ho G U I)|].
    cbn [flat_map]. rewrite app_nil_r. apply pass_low_write; [apply of_objects_cons, Ho|exact I|cbn [rk_of]; lia].
  Qed.

  Lemma pass_call c : forall h, of_objects h -> good h c -> pass h (flat_map flat (secs c)).
  Proof.
    induction c as [c N1 N2 N3 N4|l u IH|l cf u IH|u IH|n s a b r ab la IHa IHb IHr IHl] using call_ind'; intros h Ho G.
    - destruct c; cbn [secs flat_map]; rewrite ?app_nil_r;
        try (exfalso; congruence).
      + apply pass_low_write; [exact Ho|exact I|cbn [rk_of]; lia].
      + (* Use *) apply pass_write; [exact I|apply low_above; [exact Ho|cbn [rk_of]; lia]|].
        cbn [flat_map]. rewrite app_nil_r. intros k Hk. apply pass_write; [exact I| |apply pass_nil|exact Hk].
        intros x md [[= <- _]|Ix] Hx; [cbn [rk_of]; lia|]. apply (low_above h (LNode 0) Ho) in Ix; [exact (Ix Hx)|cbn [rk_of]; lia].
      + apply (pass_obj h (CSet s) (OSet s) Ho G); [left; left; reflexivity|].
        apply (g_modifies h _ G (CSet s) s (part_refl _)). left. reflexivity.
      + apply pass_app.
        * apply (pass_obj h (CAdd s) (OSet s) Ho G); [left; right; reflexivity|].
          apply (g_modifies h _ G (CAdd s) s (part_refl _)). right. reflexivity.
        * apply pass_low_write; [exact Ho|exact I|cbn [rk_of]; lia].
      + apply pass_low_write; [exact Ho|exact I|cbn [rk_of]; lia].
      + apply pass_find, Ho.
      + apply (pass_obj h _ (OLogger l) Ho G); [reflexivity|exact I].
      + apply pass_low_write; [exact Ho|exact I|cbn [rk_of]; lia].
      + apply pass_app; [apply pass_low_write; [exact Ho|exact I|cbn [rk_of]; lia]|].
        apply (pass_obj h _ (OLogger l) Ho G); [reflexivity|exact I].
      + apply (pass_get_config h _ l c Ho G). reflexivity.
      + apply pass_app; [apply pass_low_write; [exact Ho|exact I|cbn [rk_of]; lia]|].
        apply (pass_obj h _ (OLogger l) Ho G); [reflexivity|exact I].
      + apply pass_app; [apply pass_low_write; [exact Ho|exact I|cbn [rk_of]; lia]|].
        apply (pass_obj h _ (OLogger l) Ho G); [reflexivity|exact I].
      + (* Block *) intros k Hk. cbn [flat app okops]. split; [|exact Hk]. intros x md Ix Hx.
        destruct (Ho x md Ix) as [o ->]. apply (g_block h _ G (part_refl _) o md Ix). apply hot_obj_lock, Hx.
    - (* Log *)
      cbn [secs flat_map]. rewrite app_nil_r.
      apply (pass_write h (obj_lock (OLogger l))); [exact I|exact (obj_above h _ (OLogger l) Ho G eq_refl I)|].
      apply pass_flat_map. intros d Id. apply (proj1 (Forall_forall _ _) IH d Id); [apply of_objects_cons, Ho|].
      apply (good_inside h _ (OLogger l) MEntered d G); [split; [reflexivity|exact Id]|]. intros x. apply part_log, Id.
    - (* Debugf *)
      cbn [secs]. change (flat_map flat (SWrite (LLogger l) [SWrite (LConfig cf) []] :: SWrite (LLogger l) [SWrite (LConfig cf) []] :: flat_map secs u))
        with (flat (SWrite (LLogger l) [SWrite (LConfig cf) []]) ++ flat (SWrite (LLogger l) [SWrite (LConfig cf) []]) ++ flat_map flat (flat_map secs u)).
      apply pass_app; [apply (pass_get_config h _ l cf Ho G); reflexivity|].
      apply pass_app; [apply (pass_get_config h _ l cf Ho G); reflexivity|].
      apply pass_flat_map. intros d Id. apply (proj1 (Forall_forall _ _) IH d Id); [exact Ho|].
      apply (good_sub h _ d G). intros x. apply part_debugf, Id.
    - cbn [secs]. change (flat_map flat (SWrite (LConfig 0) [] :: flat_map secs u)) with (flat (SWrite (LConfig 0) []) ++ flat_map flat (flat_map secs u)).
      apply pass_app; [apply pass_low_write; [exact Ho|exact I|cbn [rk_of]; lia]|].
      apply pass_flat_map. intros d Id. apply (proj1 (Forall_forall _ _) IH d Id); [exact Ho|].
      apply (good_sub h _ d G). intros x. apply part_sdebugf, Id.
    - (* Serve *)
      assert (Sub : forall d, In d (a ++ b ++ r ++ la) -> good h d).
      { intros d Id. apply (good_sub h _ d G). intros x. apply part_serve, Id. }
      assert (Rd : forall q, (forall d, In d q -> In d r \/ In d la) -> Forall (fun c => forall h, of_objects h -> good h c -> pass h (flat_map flat (secs c))) q ->
                pass h (flat (SRead (LSet s) (flat_map secs q)))).
      { intros q Iq IHq. apply (pass_read h (obj_lock (OSet s))).
        - intros Hs. apply (obj_above h _ (OSet s) Ho G); [|exact Hs]. right. exists n, a, b, r, ab, la. reflexivity.
        - apply pass_flat_map. intros d Id. apply (proj1 (Forall_forall _ _) IHq d Id); [apply of_objects_cons, Ho|].
          apply (good_inside h _ (OSet s) MRead d G); [split; [reflexivity|apply Iq, Id]|].
          intros x. apply part_serve. rewrite !in_app_iff. destruct (Iq d Id); tauto. }
      cbn [secs]. rewrite !flat_map_app. apply pass_app; [|apply pass_app; [apply pass_find, Ho|]]; [|apply pass_app].
      + apply pass_flat_map. intros d Id. apply (proj1 (Forall_forall _ _) IHa d Id); [exact Ho|]. apply Sub. rewrite !in_app_iff. tauto.
      + apply pass_flat_map. intros d Id. apply (proj1 (Forall_forall _ _) IHb d Id); [exact Ho|]. apply Sub. rewrite !in_app_iff. tauto.
      + apply pass_app; [cbn [flat_map]; rewrite app_nil_r; apply pass_low_write; [exact Ho|exact I|cbn [rk_of]; lia]|].
        apply pass_app.
        * cbn [flat_map]. rewrite app_nil_r. apply Rd; [intros d Id; left; exact Id|exact IHr].
        * destruct ab; [apply pass_nil|]. cbn [flat_map]. rewrite app_nil_r. apply Rd; [intros d Id; right; exact Id|exact IHl].
  Qed.
  Lemma program_ok cs : (forall c, In c cs -> good [] c) -> okops hot_of (above rk_of hot_of) (none_hot hot_of) [] (program cs).
  Proof.
    intros H. unfold program. rewrite <- (app_nil_r (flat_map flat _)). apply pass_flat_map; [|reflexivity].
    intros c Ic. apply pass_call; [intros x md []|apply H, Ic].
  Qed.
End Calls.

(** ** all goroutines *)
Lemma inv_start hot abv slp ts : (forall t, In t ts -> okops hot abv slp [] (program t)) -> inv hot abv slp (map program ts) (start ts).
Proof.
  intros G. exists (map (fun t => ([], program t)) ts). cbn [start y_threads y_locks].
  split; [rewrite map_map; reflexivity|]. split; [rewrite map_map; reflexivity|]. split.
  - apply Forall_forall. intros x Ix. apply in_map_iff in Ix as (t & <- & It). apply G, It.
  - intros m. replace (concat (map (fun x => stk (fst x)) (map (fun t => ([], program t)) ts))) with (@nil (lock * mode)); [cbn; auto|].
    clear. induction ts as [|t ts IH]; [reflexivity|exact IH].
Qed.
Lemma start_inv ts num : ordered ts num ->
  (forall x o c, makes ts x -> code_inside x o c -> contended ts o -> ~ part c CBlock) ->
  inv (hot_of (modified ts)) (above (rk_of num) (hot_of (modified ts))) (none_hot (hot_of (modified ts))) (map program ts) (start ts).
Proof.
  intros Or Bl. apply inv_start.
  intros t It. apply program_ok. intros c Ic.
  assert (Mk : forall x, part c x -> makes ts x) by (intros x Px; exists t, c; split; [exact It|]; split; assumption).
  constructor.
  - intros x s Px Ms. exists x. split; [apply Mk, Px|exact Ms].
  - intros y b a md _ _ _ [].
  - intros x a c' y b Px CI Py U Ha Hb. apply (Or a b); [exists x, c', y; split; [apply Mk, Px|]; split; [exact CI|]; split; assumption|exact Ha|exact Hb].
  - intros _ a md [].
  - intros x a c' Px CI Ha. apply (Bl x a c' (Mk x Px) CI Ha).
Qed.
(** a goroutine's remaining operations end its program *)
Lemma run_suffix x y n : run x y n -> Forall2 (fun p q => exists d, p = d ++ q) (y_threads x) (y_threads y).
Proof.
  intros R. induction R as [y|x y z n R IH St].
  - induction (y_threads y) as [|t l IH]; constructor; [exists []; reflexivity|exact IH].
  - destruct St as [f l1 o k l2 v Hv]. cbn [y_threads] in *.
    apply Forall2_app_inv_r in IH as (p1 & r & F1 & F2 & E). inversion F2 as [|p q p2 l2' (d & ->) Hr]; subst. rewrite E.
    apply Forall2_app; [exact F1|]. constructor; [|exact Hr]. exists (d ++ [o]). rewrite <- app_assoc. reflexivity.
Qed.
Lemma call_halt c : In Halt (flat_map flat (secs c)) -> part c CBlock.
Proof.
  assert (FM : forall (u : list call), Forall (fun c => In Halt (flat_map flat (secs c)) -> part c CBlock) u ->
    In Halt (flat_map flat (flat_map secs u)) -> exists d, In d u /\ part d CBlock).
  { intros u Fu H. apply in_flat_map in H as (x & Ix & Hx). apply in_flat_map in Ix as (d & Id & Ix). exists d. split; [exact Id|].
    apply (proj1 (Forall_forall _ _) Fu d Id). apply in_flat_map. exists x. split; assumption. }
  assert (Ro : forall m b, In Halt (flat (SWrite m b)) -> In Halt (flat_map flat b)).
  { intros m b. cbn [flat]. rewrite !in_app_iff. cbn [In]. intuition discriminate. }
  assert (Rr : forall m b, In Halt (flat (SRead m b)) -> In Halt (flat_map flat b)).
  { intros m b. cbn [flat]. rewrite !in_app_iff. cbn [In]. intuition discriminate. }
  assert (Ff : forall n, ~ In Halt (flat_map flat (find_secs n))).
  { intros [n|]; cbn; intuition discriminate. }
  induction c as [c N1 N2 N3 N4|l u IH|l cf u IH|u IH|n s a b r ab la IHa IHb IHr IHl] using call_ind'; intros H.
  - destruct c; try (exfalso; congruence); try apply part_refl; exfalso;
      try (cbn in H; intuition discriminate). exact (Ff n H).
  - cbn [secs flat_map] in H. rewrite app_nil_r in H. apply Ro in H. apply FM in H as (d & Id & Pd); [|exact IH].
    exact (part_log l u d CBlock Id Pd).
  - cbn [secs] in H.
    change (In Halt (flat (SWrite (LLogger l) [SWrite (LConfig cf) []]) ++ flat (SWrite (LLogger l) [SWrite (LConfig cf) []]) ++ flat_map flat (flat_map secs u))) in H.
    rewrite !in_app_iff in H. destruct H as [H|[H|H]]; [exfalso; cbn in H; intuition discriminate|exfalso; cbn in H; intuition discriminate|].
    apply FM in H as (d & Id & Pd); [|exact IH]. exact (part_debugf l cf u d CBlock Id Pd).
  - cbn [secs] in H. change (In Halt (flat (SWrite (LConfig 0) []) ++ flat_map flat (flat_map secs u))) in H.
    rewrite in_app_iff in H. destruct H as [H|H]; [exfalso; cbn in H; intuition discriminate|].
    apply FM in H as (d & Id & Pd); [|exact IH]. exact (part_sdebugf u d CBlock Id Pd).
  - cbn [secs] in H. rewrite !flat_map_app, !in_app_iff in H.
    assert (K : exists d, In d (a ++ b ++ r ++ la) /\ part d CBlock).
    { destruct H as [H|[H|[H|[H|[H|H]]]]].
      - apply FM in H as (d & Id & Pd); [|exact IHa]. exists d. rewrite !in_app_iff. tauto.
      - exfalso. exact (Ff n H).
      - apply FM in H as (d & Id & Pd); [|exact IHb]. exists d. rewrite !in_app_iff. tauto.
      - exfalso. cbn in H. intuition discriminate.
      - cbn [flat_map] in H. rewrite app_nil_r in H. apply Rr in H. apply FM in H as (d & Id & Pd); [|exact IHr]. exists d. rewrite !in_app_iff. tauto.
      - destruct ab; [destruct H|]. cbn [flat_map] in H. rewrite app_nil_r in H. apply Rr in H.
        apply FM in H as (d & Id & Pd); [|exact IHl]. exists d. rewrite !in_app_iff. tauto. }
    destruct K as (d & Id & Pd). exact (part_serve n s a b r ab la d CBlock Id Pd).
Qed.
Definition size (y : sys) : nat := length (concat (y_threads y)).
Lemma step_size y z : step y z -> size y = S (size z).
Proof. intros [f l1 o k l2 v Hv]. unfold size. cbn [y_threads]. rewrite !concat_app, !app_length. cbn [concat]. rewrite !app_length. cbn [length]. lia. Qed.
Lemma run_size x y n : run x y n -> size x = n + size y.
Proof. intros R. induction R as [|x y z n R IH St]; [reflexivity|]. apply step_size in St. lia. Qed.
Lemma run_length x y n : run x y n -> length (y_threads y) = length (y_threads x).
Proof.
  intros R. induction R as [|x y z n R IH St]; [reflexivity|]. rewrite <- IH. destruct St. cbn [y_threads]. rewrite !app_length. reflexivity.
Qed.

(** ** programs are well nested, whatever they do *)
Definition any : lock -> Prop := fun _ => True.
Definition anyh (m : lock) (h : held) : Prop := True.
Definition anys (h : held) : Prop := True.
Section SecInd.
  Variable P : sec -> Prop.
  Hypothesis H_w : forall m b, Forall P b -> P (SWrite m b).
  Hypothesis H_r : forall m b, Forall P b -> P (SRead m b).
  Hypothesis H_h : P SHalt.
  Fixpoint sec_ind' (x : sec) : P x :=
    let all := (fix all (u : list sec) : Forall P u :=
                  match u with [] => Forall_nil P | x :: u' => Forall_cons x (sec_ind' x) (all u') end) in
    match x with SWrite m b => H_w m b (all b) | SRead m b => H_r m b (all b) | SHalt => H_h end.
End SecInd.
Lemma nest_list xs : Forall (fun x => forall h k, okops any anyh anys h k -> okops any anyh anys h (flat x ++ k)) xs ->
  forall h k, okops any anyh anys h k -> okops any anyh anys h (flat_map flat xs ++ k).
Proof.
  intros F. induction F as [|x xs Hx F IH]; intros h k H; [exact H|]. cbn [flat_map]. rewrite <- app_assoc. apply Hx, IH, H.
Qed.
Lemma nest_sec x : forall h k, okops any anyh anys h k -> okops any anyh anys h (flat x ++ k).
Proof.
  induction x as [m b IH|m b IH|] using sec_ind'; intros h k H; cbn [flat]; rewrite <- ?app_assoc; cbn [app okops].
  - split; [exact I|]. split; [exact I|]. exists h. split; [reflexivity|]. split; [exact I|]. split; [exact I|].
    exists h. split; [reflexivity|]. split; [exact I|]. split; [exact I|]. apply (nest_list b IH). cbn [okops].
    exists h. split; [reflexivity|]. split; [exact I|]. exists h. split; [reflexivity|]. split; [exact I|exact H].
  - split; [intros _; exact I|]. apply (nest_list b IH). cbn [okops]. exists h. split; [reflexivity|exact H].
  - split; [exact I|exact H].
Qed.
Lemma nested_start ts : inv any anyh anys (map program ts) (start ts).
Proof.
  apply inv_start. intros t _. unfold program. rewrite <- (app_nil_r (flat_map flat _)). apply nest_list; [|reflexivity].
  apply Forall_forall. intros x _. apply nest_sec.
Qed.
Lemma stk_list xs : Forall (fun x => forall h, fold_left stk1 (flat x) h = h) xs -> forall h, fold_left stk1 (flat_map flat xs) h = h.
Proof.
  intros F. induction F as [|x xs Hx F IH]; intros h; [reflexivity|]. cbn [flat_map]. rewrite fold_left_app, Hx. apply IH.
Qed.
Lemma stk_sec x : forall h, fold_left stk1 (flat x) h = h.
Proof.
  induction x as [m b IH|m b IH|] using sec_ind'; intros h; cbn [flat]; rewrite ?fold_left_app; cbn [fold_left stk1 tl].
  - rewrite (stk_list b IH). reflexivity.
  - rewrite (stk_list b IH). reflexivity.
  - reflexivity.
Qed.
Lemma stk_secs xs h : fold_left stk1 (flat_map flat xs) h = h.
Proof. apply stk_list. apply Forall_forall. intros x _. apply stk_sec. Qed.
(** who waits for the readers of a lock it reads itself never goes on *)
Lemma cnt_pos p m md h : In (m, md) h -> p md = true -> 0 < cnt p m h.
Proof.
  induction h as [|[x e] h IH]; [intros []|]. rewrite cnt_cons. intros [[= -> ->]|I] Pm.
  - destruct (lock_dec m m); [|congruence]. rewrite Pm. lia.
  - specialize (IH I Pm). lia.
Qed.
Lemma cnt_concat p m h hs : In h hs -> cnt p m h <= cnt p m (concat hs).
Proof.
  induction hs as [|x hs IH]; [intros []|]. cbn [concat]. rewrite cnt_app. intros [->|I]; [lia|]. specialize (IH I). lia.
Qed.
Definition own (o : op) (h : held) : Prop :=
  (exists m, o = Enter m /\ In (m, MRead) h) \/ (exists m md, o = Want m /\ In (m, md) h /\ is_w md = true).
Lemma waits_for_itself ts i p d o0 k y n : nth_error ts i = Some p -> program p = d ++ o0 :: k ->
  own o0 (stk d) -> run (start ts) y n -> exists d', nth_error (y_threads y) i = Some (d' ++ o0 :: k).
Proof.
  intros Ei Ep Im R. remember (start ts) as x eqn:Ex. induction R as [x|x y z n R IH St].
  - subst x. exists d. cbn [start y_threads]. rewrite nth_error_map, Ei. cbn [option_map]. rewrite Ep. reflexivity.
  - destruct (IH Ex) as [d' E']. subst x.
    pose proof (inv_run any anyh anys _ _ _ _ (nested_start ts) R) as (dq & Ht & Hp & F & C).
    destruct St as [f l1 o q l2 v Hv]. cbn [y_threads y_locks] in *.
    destruct (Nat.eq_dec i (length l1)) as [->|Ni].
    + rewrite nth_error_app2, Nat.sub_diag in E' |- * by lia. cbn [nth_error] in E' |- *. injection E' as E'.
      destruct d' as [|o' d']; [exfalso|exists d'; cbn [app] in E'; congruence].
      cbn [app] in E'. injection E' as -> ->.
      assert (Hd : exists d0, In (d0, o0 :: k) dq /\ d0 ++ o0 :: k = program p).
      { assert (E1 : nth_error (map snd dq) (length l1) = Some (o0 :: k))
          by (rewrite <- Ht, nth_error_app2, Nat.sub_diag by lia; reflexivity).
        rewrite nth_error_map in E1. destruct (nth_error dq (length l1)) as [[d0 q0]|] eqn:E2; [|discriminate].
        cbn [option_map snd] in E1. injection E1 as ->. exists d0. split; [exact (nth_error_In _ _ E2)|].
        assert (E3 : nth_error (map (fun x => fst x ++ snd x) dq) (length l1) = Some (program p))
          by (rewrite <- Hp, nth_error_map, Ei; reflexivity).
        rewrite nth_error_map, E2 in E3. cbn [option_map fst snd] in E3. congruence. }
      destruct Hd as (d0 & Id & Ed). rewrite Ep in Ed. apply app_inv_tail in Ed. subst d0.
      pose proof (fun p m => cnt_concat p m (stk d) (map (fun x => stk (fst x)) dq) (in_map (fun x => stk (fst x)) dq _ Id)) as L2.
      cbn [fst] in L2. destruct Im as [(m & -> & Im)|(m & md & -> & Im & W)]; cbn [act lock_of] in Hv.
      * destruct (readers (f m)) as [|r] eqn:Rm; [|discriminate]. destruct (C m) as (_ & _ & C3). rewrite Rm in C3.
        pose proof (cnt_pos is_r m MRead (stk d) Im eq_refl) as L1. specialize (L2 is_r m). lia.
      * destruct (w_taken (f m)) eqn:Tm; [discriminate|]. destruct (C m) as (C1 & _). rewrite Tm in C1. cbn [b2n] in C1.
        pose proof (cnt_pos is_w m md (stk d) Im W) as L1. specialize (L2 is_w m). lia.
    + exists d'. destruct (Nat.lt_ge_cases i (length l1)) as [L|L].
      * rewrite nth_error_app1 in E' |- * by lia. exact E'.
      * rewrite nth_error_app2 in E' |- * by lia. destruct (i - length l1) as [|j] eqn:Ej; [lia|]. exact E'.
Qed.
