(** Races: the lockset argument, and exhibiting a race of two calls. *)
From Verif Require Import Base M_Share S_Share.

Definition loc_dec (a b : loc) : {a = b} + {a <> b}.
Proof. decide equality. Defined.

(** ** Accesses with the locks held *)
Definition access := (loc * bool * list lock)%type.
Fixpoint accs (held : list lock) (p : trace) : list access :=
  match p with
  | [] => []
  | Lk k :: p' => accs (k :: held) p'
  | Ul k :: p' => accs (release k held) p'
  | Rd l :: p' => (l, false, held) :: accs held p'
  | Wr l :: p' => (l, true, held) :: accs held p'
  end.
Fixpoint after (held : list lock) (p : trace) : list lock :=
  match p with
  | [] => held
  | Lk k :: p' => after (k :: held) p'
  | Ul k :: p' => after (release k held) p'
  | _ :: p' => after held p'
  end.
Lemma accs_app : forall p held q, accs held (p ++ q) = accs held p ++ accs (after held p) q.
Proof. induction p as [|[k|k|l|l] p IH]; intros; cbn [app accs after]; rewrite ?IH; reflexivity. Qed.

Definition apart (a b : access) : Prop :=
  let '(l, w, h) := a in let '(l', w', h') := b in
  l = l' -> w = true \/ w' = true -> exists k, In k h /\ In k h'.
Definition separate (p q : trace) : Prop := forall a b, In a (accs [] p) -> In b (accs [] q) -> apart a b.
Lemma apart_sym : forall a b, apart a b -> apart b a.
Proof.
  intros [[l w] h] [[l' w'] h'] H E W. destruct (H (eq_sym E) ltac:(tauto)) as (k & ? & ?). eauto.
Qed.

(** ** The invariant *)
Definition tracks (th : thread) (p : trace) : Prop :=
  forall a, In a (accs (t_held th) (t_prog th)) -> In a (accs [] p).
Definition inv (progs : list trace) (ths : list thread) : Prop :=
  Forall2 tracks ths progs /\
  (forall i j a b k, i <> j -> nth_error ths i = Some a -> nth_error ths j = Some b -> In k (t_held a) -> ~ In k (t_held b)).

Lemma release_in : forall k x l, In x (release k l) -> In x l.
Proof.
  induction l as [|y l IH]; cbn [release]; [tauto|]. destruct (lock_dec k y); [right; assumption|].
  intros [->|H]; [left; reflexivity|right; auto].
Qed.
Lemma nth_mid : forall {A} (l1 l2 : list A) a b i x, nth_error (l1 ++ b :: l2) i = Some x ->
  (i = length l1 /\ x = b) \/ (i <> length l1 /\ nth_error (l1 ++ a :: l2) i = Some x).
Proof.
  intros A l1 l2 a b i x H. destruct (Nat.eq_dec i (length l1)) as [->|Ne].
  - left. rewrite nth_error_app2, Nat.sub_diag in H by lia. cbn in H. inversion H. auto.
  - right. split; [assumption|]. destruct (Nat.lt_ge_cases i (length l1)).
    + rewrite nth_error_app1 in * by assumption. assumption.
    + rewrite nth_error_app2 in * by lia. destruct (i - length l1) eqn:E; [lia|]. exact H.
Qed.
Lemma Forall2_mid : forall {A C} (R : A -> C -> Prop) l1 l2 a b ps, Forall2 R (l1 ++ a :: l2) ps ->
  (forall p, R a p -> R b p) -> Forall2 R (l1 ++ b :: l2) ps.
Proof.
  induction l1 as [|x l1 IH]; intros l2 a b ps F H; inversion F; subst; constructor; eauto.
Qed.
Lemma in_nth : forall {A} (l : list A) i x, nth_error l i = Some x -> In x l.
Proof. intros A l i x. apply nth_error_In. Qed.

Lemma disj_mid : forall l1 l2 (a b : thread) (more : lock -> Prop),
  (forall i j x y k, i <> j -> nth_error (l1 ++ a :: l2) i = Some x -> nth_error (l1 ++ a :: l2) j = Some y -> In k (t_held x) -> ~ In k (t_held y)) ->
  (forall k, In k (t_held b) -> In k (t_held a) \/ more k) ->
  (forall k th, more k -> In th (l1 ++ a :: l2) -> ~ In k (t_held th)) ->
  forall i j x y k, i <> j -> nth_error (l1 ++ b :: l2) i = Some x -> nth_error (l1 ++ b :: l2) j = Some y -> In k (t_held x) -> ~ In k (t_held y).
Proof.
  intros l1 l2 a b more D Sub M i j x y k Ne Hi Hj Kx Ky.
  assert (Mid : nth_error (l1 ++ a :: l2) (length l1) = Some a) by (rewrite nth_error_app2, Nat.sub_diag by lia; reflexivity).
  destruct (nth_mid l1 l2 a b i x Hi) as [[-> ->]|[Ni Hi']]; destruct (nth_mid l1 l2 a b j y Hj) as [[-> ->]|[Nj Hj']].
  - congruence.
  - destruct (Sub k Kx) as [K|K]; [exact (D _ _ _ _ k Ne Mid Hj' K Ky)|exact (M k y K (in_nth _ _ _ Hj') Ky)].
  - destruct (Sub k Ky) as [K|K]; [exact (D _ _ _ _ k Ne Hi' Mid Kx K)|exact (M k x K (in_nth _ _ _ Hi') Kx)].
  - exact (D i j x y k Ne Hi' Hj' Kx Ky).
Qed.

Lemma inv_step : forall progs x y, inv progs x -> tstep x y -> inv progs y.
Proof.
  intros progs x y [F D] St. destruct St as [l1 l2 held k prog Free|l1 l2 held k prog|l1 l2 held l prog|l1 l2 held l prog]; split.
  - eapply Forall2_mid; [exact F|]. intros p T a Ha. apply T. exact Ha.
  - eapply (disj_mid _ _ _ _ (fun k' => k' = k) D); cbn [t_held].
    + intros k' [<-|K]; auto.
    + intros k' th -> I. exact (Free th I).
  - eapply Forall2_mid; [exact F|]. intros p T a Ha. apply T. exact Ha.
  - eapply (disj_mid _ _ _ _ (fun _ => False) D); cbn [t_held]; [|tauto]. intros k' K. left. eapply release_in; eassumption.
  - eapply Forall2_mid; [exact F|]. intros p T a Ha. apply T. right. exact Ha.
  - eapply (disj_mid _ _ _ _ (fun _ => False) D); cbn [t_held]; tauto.
  - eapply Forall2_mid; [exact F|]. intros p T a Ha. apply T. right. exact Ha.
  - eapply (disj_mid _ _ _ _ (fun _ => False) D); cbn [t_held]; tauto.
Qed.
Lemma inv_start : forall progs, inv progs (map (Th []) progs).
Proof.
  intros progs. split.
  - induction progs; constructor; [|assumption]. intros x H; exact H.
  - intros i j a b k _ Hi _ K. rewrite nth_error_map in Hi. destruct (nth_error progs i); [|discriminate].
    inversion Hi; subst. destruct K.
Qed.
Lemma inv_runs : forall progs ths, runs (map (Th []) progs) ths -> inv progs ths.
Proof.
  intros progs ths H. remember (map (Th []) progs) as x eqn:E. induction H as [x|x y z _ IH St]; subst.
  - apply inv_start.
  - eapply inv_step; [apply IH; reflexivity|eassumption].
Qed.

Lemma Forall2_nth : forall {A C} (R : A -> C -> Prop) l m i x, Forall2 R l m -> nth_error l i = Some x ->
  exists y, nth_error m i = Some y /\ R x y.
Proof.
  intros A C R l m i x F. revert i. induction F as [|a b l m Rab F IH]; intros [|i] H; cbn in *; try discriminate.
  - inversion H; subst. eauto.
  - auto.
Qed.
Lemma touch_acc : forall held p l w, touches p l w -> exists r, In (l, w, held) (accs held p) /\ r = tl p.
Proof. intros held p l w H. destruct p as [|[k|k|l'|l'] p]; cbn in *; try tauto; destruct H as [-> ->]; eauto. Qed.

Theorem lockset : forall progs,
  (forall i j p q, i <> j -> nth_error progs i = Some p -> nth_error progs j = Some q -> separate p q) ->
  race_free progs.
Proof.
  intros progs Sep ths R (i & j & a & b & l & w & w' & Ne & Hi & Hj & Ta & Tb & W).
  destruct (inv_runs _ _ R) as [F D].
  destruct (Forall2_nth _ _ _ _ _ F Hi) as (p & Hp & Tp), (Forall2_nth _ _ _ _ _ F Hj) as (q & Hq & Tq).
  destruct (touch_acc (t_held a) _ _ _ Ta) as (_ & Ia & _), (touch_acc (t_held b) _ _ _ Tb) as (_ & Ib & _).
  destruct (Sep i j p q Ne Hp Hq _ _ (Tp _ Ia) (Tq _ Ib) eq_refl W) as (k & K1 & K2).
  exact (D i j a b k Ne Hi Hj K1 K2).
Qed.

(** ** Deciding separation *)
Definition apartb (a b : access) : bool :=
  let '(l, w, h) := a in let '(l', w', h') := b in
  if loc_dec l l' then negb (w || w') || existsb (fun k => if in_dec lock_dec k h' then true else false) h else true.
Lemma apartb_ok : forall a b, apartb a b = true -> apart a b.
Proof.
  intros [[l w] h] [[l' w'] h'] H E W. unfold apartb in H. destruct (loc_dec l l'); [|congruence].
  destruct (w || w') eqn:Ew.
  - cbn in H. apply existsb_exists in H. destruct H as (k & I & Hk). destruct (in_dec lock_dec k h'); [eauto|discriminate].
  - destruct w, w'; cbn in Ew; try discriminate. destruct W; discriminate.
Qed.
Definition separateb (p q : trace) : bool := forallb (fun a => forallb (apartb a) (accs [] q)) (accs [] p).
Lemma separateb_ok : forall p q, separateb p q = true -> separate p q.
Proof.
  intros p q H a b Ia Ib. unfold separateb in H. rewrite forallb_forall in H. specialize (H a Ia).
  rewrite forallb_forall in H. apply apartb_ok. auto.
Qed.

(** ** Calls in sequence *)
Definition balanced (p : trace) : Prop := after [] p = [].
Lemma accs_concat : forall ts a, Forall balanced ts -> In a (accs [] (concat ts)) -> exists t, In t ts /\ In a (accs [] t).
Proof.
  induction ts as [|t ts IH]; intros a F I; [destruct I|]. inversion F as [|? ? Bt Fts]; subst.
  cbn [concat] in I. rewrite accs_app, Bt in I. apply in_app_or in I. destruct I as [I|I].
  - exists t. split; [left; reflexivity|assumption].
  - destruct (IH a Fts I) as (t' & ? & ?). exists t'. split; [right; assumption|assumption].
Qed.
Lemma separate_concat : forall ts us, Forall balanced ts -> Forall balanced us ->
  (forall t u, In t ts -> In u us -> separate t u) -> separate (concat ts) (concat us).
Proof.
  intros ts us Bt Bu H a b Ia Ib. destruct (accs_concat _ _ Bt Ia) as (t & It & Iat), (accs_concat _ _ Bu Ib) as (u & Iu & Ibu).
  exact (H t u It Iu a b Iat Ibu).
Qed.
Section Calls.
  Context {M : Type} (traces : M -> list trace) (clash : M -> M -> bool).
  Hypothesis balanced_all : forall m t, In t (traces m) -> balanced t.
  Hypothesis separate_all : forall m n t u, clash m n = false -> In t (traces m) -> In u (traces n) -> separate t u.
  Lemma calls_in : forall ms p, calls traces ms p -> exists ts, p = concat ts /\ (forall t, In t ts -> exists m, In m ms /\ In t (traces m)).
  Proof.
    intros ms p C. induction C as [|m t ms p It C IH].
    - exists []. split; [reflexivity|intros t []].
    - destruct IH as (ts & -> & H). exists (t :: ts). split; [reflexivity|].
      intros t' [<-|I]; [exists m; split; [left; reflexivity|assumption]|].
      destruct (H t' I) as (m' & ? & ?). exists m'. split; [right; assumption|assumption].
  Qed.
  Theorem calls_race_free : forall gs progs, Forall2 (calls traces) gs progs ->
    (forall i j a b m n, i <> j -> nth_error gs i = Some a -> nth_error gs j = Some b -> In m a -> In n b -> clash m n = false) ->
    race_free progs.
  Proof.
    intros gs progs F H. apply lockset. intros i j p q Ne Hp Hq.
    assert (F' : Forall2 (fun p ms => calls traces ms p) progs gs) by (clear -F; induction F; constructor; auto).
    destruct (Forall2_nth _ _ _ _ _ F' Hp) as (a & Ha & Ca), (Forall2_nth _ _ _ _ _ F' Hq) as (b & Hb & Cb).
    destruct (calls_in _ _ Ca) as (ts & -> & Ht), (calls_in _ _ Cb) as (us & -> & Hu).
    apply separate_concat.
    - apply Forall_forall. intros t I. destruct (Ht t I) as (m & _ & It). eauto.
    - apply Forall_forall. intros t I. destruct (Hu t I) as (m & _ & It). eauto.
    - intros t u It Iu. destruct (Ht t It) as (m & Im & Itm), (Hu u Iu) as (n & In' & Iun).
      eapply separate_all; [|eassumption|eassumption]. eapply H; eassumption.
  Qed.
End Calls.

(** ** Exhibiting a race: one goroutine up to its access, then the other *)
Definition advance (others : list lock) (th : thread) : option thread :=
  match t_prog th with
  | [] => None
  | Lk k :: p => if in_dec lock_dec k (others ++ t_held th) then None else Some (Th (k :: t_held th) p)
  | Ul k :: p => Some (Th (release k (t_held th)) p)
  | Rd _ :: p | Wr _ :: p => Some (Th (t_held th) p)
  end.
Lemma advance_first : forall a a' b, advance (t_held b) a = Some a' -> tstep [a; b] [a'; b].
Proof.
  intros [h p] a' b H. unfold advance in H. cbn [t_held t_prog] in H. destruct p as [|[k|k|l|l] p]; [discriminate| | | |].
  - destruct (in_dec lock_dec k (t_held b ++ h)) as [|N]; [discriminate|]. inversion H; subst.
    apply (T_lock [] [b]). intros th [<-|[<-|[]]] K; apply N, in_or_app; auto.
  - inversion H; subst. apply (T_unlock [] [b]).
  - inversion H; subst. apply (T_read [] [b]).
  - inversion H; subst. apply (T_write [] [b]).
Qed.
Lemma advance_second : forall a b b', advance (t_held a) b = Some b' -> tstep [a; b] [a; b'].
Proof.
  intros a [h p] b' H. unfold advance in H. cbn [t_held t_prog] in H. destruct p as [|[k|k|l|l] p]; [discriminate| | | |].
  - destruct (in_dec lock_dec k (t_held a ++ h)) as [|N]; [discriminate|]. inversion H; subst.
    apply (T_lock [a] []). intros th [<-|[<-|[]]] K; apply N, in_or_app; auto.
  - inversion H; subst. apply (T_unlock [a] []).
  - inversion H; subst. apply (T_read [a] []).
  - inversion H; subst. apply (T_write [a] []).
Qed.
(** all states of a goroutine running alone *)
Fixpoint ahead (fuel : nat) (others : list lock) (th : thread) : list thread :=
  th :: match fuel with
        | O => []
        | S n => match advance others th with Some th' => ahead n others th' | None => [] end
        end.
Definition touchb (a b : thread) : bool :=
  match t_prog a, t_prog b with
  | Rd l :: _, Wr l' :: _ | Wr l :: _, Rd l' :: _ | Wr l :: _, Wr l' :: _ => if loc_dec l l' then true else false
  | _, _ => false
  end.
Definition raceb (p q : trace) : bool :=
  existsb (fun a => existsb (fun b => touchb a b) (ahead (length q) (t_held a) (Th [] q))) (ahead (length p) [] (Th [] p)).
Lemma runs_trans : forall x y z, runs x y -> runs y z -> runs x z.
Proof. intros x y z H1 H2. revert H1. induction H2 as [|x0 y0 z0 R IH St]; intros H1; [assumption|]. eapply runs_more; [exact (IH H1)|exact St]. Qed.
Lemma ahead_first : forall n others th a b, others = t_held b -> In a (ahead n others th) -> runs [th; b] [a; b].
Proof.
  induction n as [|n IH]; intros others th a b -> I; cbn [ahead] in I.
  - destruct I as [<-|[]]. constructor.
  - destruct I as [<-|I]; [constructor|]. destruct (advance (t_held b) th) as [th'|] eqn:E; [|destruct I].
    specialize (IH _ th' a b eq_refl I). apply advance_first in E.
    eapply runs_trans; [eapply runs_more; [constructor|exact E]|exact IH].
Qed.
Lemma ahead_second : forall n others th a b, others = t_held a -> In b (ahead n others th) -> runs [a; th] [a; b].
Proof.
  induction n as [|n IH]; intros others th a b -> I; cbn [ahead] in I.
  - destruct I as [<-|[]]. constructor.
  - destruct I as [<-|I]; [constructor|]. destruct (advance (t_held a) th) as [th'|] eqn:E; [|destruct I].
    specialize (IH _ th' a b eq_refl I). apply advance_second in E.
    eapply runs_trans; [eapply runs_more; [constructor|exact E]|exact IH].
Qed.
Definition raceb2 (p q : trace) : bool :=
  existsb (fun b => existsb (fun a => touchb a b) (ahead (length p) (t_held b) (Th [] p))) (ahead (length q) [] (Th [] q)).
Lemma touchb_race : forall a b, touchb a b = true -> race [a; b].
Proof.
  intros a b T. unfold touchb in T.
  destruct a as [h pa], b as [h' pb]; cbn [t_prog] in T.
  destruct pa as [|[k|k|l|l] pa]; try discriminate; destruct pb as [|[k'|k'|l'|l'] pb]; try discriminate;
    destruct (loc_dec l l') as [->|]; try discriminate.
  - exists 0, 1, (Th h (Rd l' :: pa)), (Th h' (Wr l' :: pb)), l', false, true. repeat split; auto; discriminate.
  - exists 0, 1, (Th h (Wr l' :: pa)), (Th h' (Rd l' :: pb)), l', true, false. repeat split; auto; discriminate.
  - exists 0, 1, (Th h (Wr l' :: pa)), (Th h' (Wr l' :: pb)), l', true, true. repeat split; auto; discriminate.
Qed.
Theorem raceb_ok : forall p q, raceb p q || raceb2 p q = true -> ~ race_free [p; q].
Proof.
  intros p q H F. apply orb_prop in H. destruct H as [H|H].
  - unfold raceb in H. apply existsb_exists in H. destruct H as (a & Ia & H).
    apply existsb_exists in H. destruct H as (b & Ib & T).
    apply (F [a; b]); [|apply touchb_race; assumption].
    eapply runs_trans; [exact (ahead_first _ _ _ _ (Th [] q) eq_refl Ia)|exact (ahead_second _ _ _ _ _ eq_refl Ib)].
  - unfold raceb2 in H. apply existsb_exists in H. destruct H as (b & Ib & H).
    apply existsb_exists in H. destruct H as (a & Ia & T).
    apply (F [a; b]); [|apply touchb_race; assumption].
    eapply runs_trans; [exact (ahead_second _ _ _ (Th [] p) _ eq_refl Ib)|exact (ahead_first _ _ _ _ _ eq_refl Ia)].
Qed.

(** ** A clash table is exact *)
Section Exact.
  Context {M : Type} (traces : M -> list trace) (clash : M -> M -> bool) (all : list M).
  Hypothesis all_in : forall m, In m all.
  Definition exactb : bool :=
    forallb (fun m => forallb (fun n =>
      if clash m n then existsb (fun t => existsb (fun u => raceb t u || raceb2 t u) (traces n)) (traces m)
      else forallb (fun t => forallb (separateb t) (traces n)) (traces m)) all) all &&
    forallb (fun m => forallb (fun t => match after [] t with [] => true | _ => false end) (traces m)) all.
  Hypothesis exact : exactb = true.
  Lemma exact_pair : forall m n,
    (clash m n = true -> exists t u, In t (traces m) /\ In u (traces n) /\ ~ race_free [t; u]) /\
    (clash m n = false -> forall t u, In t (traces m) -> In u (traces n) -> separate t u).
  Proof.
    intros m n. unfold exactb in exact. apply andb_prop in exact. destruct exact as [E _].
    rewrite forallb_forall in E. specialize (E m (all_in m)). rewrite forallb_forall in E. specialize (E n (all_in n)).
    split; intros C; rewrite C in E.
    - apply existsb_exists in E. destruct E as (t & It & E). apply existsb_exists in E. destruct E as (u & Iu & E).
      exists t, u. split; [assumption|split; [assumption|apply raceb_ok; assumption]].
    - intros t u It Iu. rewrite forallb_forall in E. specialize (E t It). rewrite forallb_forall in E.
      apply separateb_ok. auto.
  Qed.
  Lemma exact_balanced : forall m t, In t (traces m) -> balanced t.
  Proof.
    intros m t I. unfold exactb in exact. apply andb_prop in exact. destruct exact as [_ E].
    rewrite forallb_forall in E. specialize (E m (all_in m)). rewrite forallb_forall in E. specialize (E t I).
    unfold balanced. destruct (after [] t); [reflexivity|discriminate].
  Qed.
  Theorem exact_clash : forall m n, clash m n = true <-> exists t u, In t (traces m) /\ In u (traces n) /\ ~ race_free [t; u].
  Proof.
    intros m n. split; [apply exact_pair|]. intros (t & u & It & Iu & R). destruct (clash m n) eqn:E; [reflexivity|].
    exfalso. apply R, lockset. destruct (exact_pair n m) as [_ Snm]. destruct (exact_pair m n) as [_ Smn].
    pose proof (Smn E t u It Iu) as Sep.
    intros i j p q Ne Hi Hj.
    destruct i as [|[|i]]; destruct j as [|[|j]]; cbn in Hi, Hj; try congruence;
      try (destruct i; discriminate); try (destruct j; discriminate).
    - inversion Hi; inversion Hj; subst. exact Sep.
    - inversion Hi; inversion Hj; subst. intros a b Ia Ib. apply apart_sym. auto.
  Qed.
  Theorem exact_calls : forall gs progs, Forall2 (calls traces) gs progs ->
    (forall i j a b m n, i <> j -> nth_error gs i = Some a -> nth_error gs j = Some b -> In m a -> In n b -> clash m n = false) ->
    race_free progs.
  Proof.
    intros gs progs. apply calls_race_free; [apply exact_balanced|].
    intros m n t u C. apply (proj2 (exact_pair m n) C).
  Qed.
End Exact.

(** ** A race of two goroutines is a race whatever other goroutines there are *)
Lemma lift_step : forall l0 l1 l2 x y, (forall th, In th (l0 ++ l1 ++ l2) -> t_held th = []) -> tstep x y ->
  forall a b, x = [a; b] -> exists a' b', y = [a'; b'] /\ tstep (l0 ++ a :: l1 ++ b :: l2) (l0 ++ a' :: l1 ++ b' :: l2).
Proof.
  intros l0 l1 l2 x y Idle St a b E.
  assert (Two : forall (p q : list thread) (c : thread), p ++ c :: q = [a; b] ->
            (p = [] /\ c = a /\ q = [b]) \/ (p = [a] /\ c = b /\ q = [])).
  { intros [|p1 [|p2 p]] q c H; cbn in H; inversion H; subst; auto. destruct p; discriminate. }
  assert (Free : forall k th, In th (l0 ++ a :: l1 ++ b :: l2) -> ~ In k (t_held a) -> ~ In k (t_held b) -> ~ In k (t_held th)).
  { intros k th I Na Nb. apply in_app_or in I. destruct I as [I|[<-|I]]; [|assumption|].
    - rewrite (Idle th); [intros []|apply in_or_app; left; assumption].
    - apply in_app_or in I. destruct I as [I|[<-|I]]; [|assumption|].
      + rewrite (Idle th); [intros []|apply in_or_app; right; apply in_or_app; left; assumption].
      + rewrite (Idle th); [intros []|apply in_or_app; right; apply in_or_app; right; assumption]. }
  assert (Sec : forall (c : thread), l0 ++ a :: l1 ++ c :: l2 = (l0 ++ a :: l1) ++ c :: l2).
  { intros c. rewrite <- app_assoc. reflexivity. }
  destruct St as [p q held k prog F|p q held k prog|p q held l prog|p q held l prog];
    destruct (Two _ _ _ E) as [(-> & <- & ->)|(-> & <- & ->)]; cbn [app].
  - exists (Th (k :: held) prog), b. split; [reflexivity|]. apply T_lock.
    intros th I. apply Free; [assumption|apply (F (Th held (Lk k :: prog))); left; reflexivity|apply (F b); right; left; reflexivity].
  - exists a, (Th (k :: held) prog). split; [reflexivity|]. rewrite !Sec. apply T_lock. rewrite <- Sec.
    intros th I. apply Free; [assumption|apply (F a); left; reflexivity|apply (F (Th held (Lk k :: prog))); right; left; reflexivity].
  - exists (Th (release k held) prog), b. split; [reflexivity|]. apply T_unlock.
  - exists a, (Th (release k held) prog). split; [reflexivity|]. rewrite !Sec. apply T_unlock.
  - exists (Th held prog), b. split; [reflexivity|]. apply T_read.
  - exists a, (Th held prog). split; [reflexivity|]. rewrite !Sec. apply T_read.
  - exists (Th held prog), b. split; [reflexivity|]. apply T_write.
  - exists a, (Th held prog). split; [reflexivity|]. rewrite !Sec. apply T_write.
Qed.
Lemma lift_runs : forall l0 l1 l2 x y, (forall th, In th (l0 ++ l1 ++ l2) -> t_held th = []) -> runs x y ->
  forall a b, x = [a; b] -> exists a' b', y = [a'; b'] /\ runs (l0 ++ a :: l1 ++ b :: l2) (l0 ++ a' :: l1 ++ b' :: l2).
Proof.
  intros l0 l1 l2 x y Idle R. induction R as [x|x y z R IH St]; intros a b E.
  - exists a, b. split; [assumption|constructor].
  - destruct (IH a b E) as (a' & b' & -> & R').
    destruct (lift_step l0 l1 l2 _ _ Idle St a' b' eq_refl) as (a'' & b'' & -> & St').
    exists a'', b''. split; [reflexivity|]. eapply runs_more; eassumption.
Qed.
Lemma lift_race : forall l0 l1 l2 a b, race [a; b] -> race (l0 ++ a :: l1 ++ b :: l2).
Proof.
  intros l0 l1 l2 a b (i & j & x & y & l & w & w' & Ne & Hi & Hj & T & T' & W).
  assert (Na : nth_error (l0 ++ a :: l1 ++ b :: l2) (length l0) = Some a)
    by (rewrite nth_error_app2, Nat.sub_diag by lia; reflexivity).
  assert (Nb : nth_error (l0 ++ a :: l1 ++ b :: l2) (length l0 + S (length l1)) = Some b).
  { rewrite nth_error_app2 by lia. replace (length l0 + S (length l1) - length l0) with (S (length l1)) by lia.
    cbn [nth_error]. rewrite nth_error_app2, Nat.sub_diag by lia. reflexivity. }
  destruct i as [|[|i]]; destruct j as [|[|j]]; cbn in Hi, Hj; try congruence;
    try (destruct i; discriminate); try (destruct j; discriminate); inversion Hi; inversion Hj; subst.
  - exists (length l0), (length l0 + S (length l1)), x, y, l, w, w'. repeat split; try assumption. lia.
  - exists (length l0 + S (length l1)), (length l0), x, y, l, w, w'. repeat split; try assumption. lia.
Qed.
Theorem race_among_others : forall l0 l1 l2 p q, raceb p q || raceb2 p q = true -> ~ race_free (l0 ++ p :: l1 ++ q :: l2).
Proof.
  intros l0 l1 l2 p q H F. apply (raceb_ok p q H). intros ths R Hr.
  destruct (lift_runs (map (Th []) l0) (map (Th []) l1) (map (Th []) l2) _ _ ltac:(intros th I;
    rewrite <- !map_app in I; apply in_map_iff in I; destruct I as (z & <- & _); reflexivity) R (Th [] p) (Th [] q) eq_refl)
    as (a' & b' & -> & R').
  apply (F (map (Th []) l0 ++ a' :: map (Th []) l1 ++ b' :: map (Th []) l2)).
  - rewrite map_app. cbn [map]. rewrite map_app. cbn [map]. exact R'.
  - apply lift_race. assumption.
Qed.
