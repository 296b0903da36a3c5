(** Proofs for C128. *)
From Verif Require Import Base GoStrings M_Tree S_Route S_Choice.
From Coq Require Import Sorting.Sorted.

Lemma Forall2_length {A C} (P : A -> C -> Prop) l l' : Forall2 P l l' -> length l = length l'.
Proof. induction 1; cbn; congruence. Qed.

Section Rel.
  Variable pat : nat -> list seg -> Prop.
  Hypothesis fn : forall i P Q, pat i P -> pat i Q -> P = Q.
  Lemma lits_inj p : forall q P Q, length p = length q -> map Lit p ++ P = map Lit q ++ Q -> p = q /\ P = Q.
  Proof.
    induction p as [|x p IH]; intros [|y q] P Q L E; cbn in *; try discriminate; [auto|]. injection E as -> E.
    destruct (IH q P Q ltac:(lia) E) as [-> ->]. auto.
  Qed.
  Lemma together_sym k i j : together pat k i j -> together pat k j i.
  Proof. intros [->|(p & P & Q & L & A & B0)]; [left; reflexivity|right; exists p, Q, P; auto]. Qed.
  Lemma together_trans k i j l : together pat k i j -> together pat k j l -> together pat k i l.
  Proof.
    intros [->|(p & P & Q & L & A & A')] H; [exact H|]. destruct H as [<-|(p2 & P2 & Q2 & L2 & A2 & A2')]; [right; exists p, P, Q; auto|].
    destruct (lits_inj p p2 Q P2 ltac:(lia) (fn _ _ _ A' A2)) as [<- <-]. right. exists p, P, Q2. auto.
  Qed.
  Lemma together_less k k' i j : k <= k' -> together pat k' i j -> together pat k i j.
  Proof.
    intros Le [->|(p & P & Q & L & A & A')]; [left; reflexivity|]. right. exists (firstn k p), (map Lit (skipn k p) ++ P), (map Lit (skipn k p) ++ Q).
    assert (Sp : forall X, map Lit (firstn k p) ++ map Lit (skipn k p) ++ X = map Lit p ++ X) by (intros X; rewrite app_assoc, <- map_app, firstn_skipn; reflexivity).
    rewrite !Sp. split; [rewrite firstn_length; lia|]. auto.
  Qed.
  Lemma opened_same k i j t u : together pat k i j -> opened pat k i t -> opened pat k j u -> t = u.
  Proof.
    intros T [A1 A2] [B1 B2]. assert (t <= u) by (apply A2; apply (together_trans _ _ j); [exact B1|apply together_sym, T]).
    assert (u <= t) by (apply B2; apply (together_trans _ _ i); [exact A1|exact T]). lia.
  Qed.
  Lemma before_asym i j : before pat i j -> before pat j i -> False.
  Proof.
    intros (k & t & u & T & O1 & O2 & L) (k' & t' & u' & T' & O1' & O2' & L'). destruct (Nat.lt_trichotomy k k') as [H|[->|H]].
    - assert (Z : together pat (S k) i j) by (apply (together_less _ k'); [lia|apply together_sym, T']). pose proof (opened_same _ _ _ _ _ Z O1 O2). lia.
    - assert (t = u') by (apply (opened_same (S k') i i); [left; reflexivity|assumption|assumption]). assert (u = t') by (apply (opened_same (S k') j j); [left; reflexivity|assumption|assumption]). lia.
    - assert (Z : together pat (S k') j i) by (apply (together_less _ k); [lia|apply together_sym, T]). pose proof (opened_same _ _ _ _ _ Z O1' O2'). lia.
  Qed.
End Rel.

Section Ends.
  Context {HS : Type}.
  Definition ent := entry (nat * HS).
  Implicit Types (tbl sub R : list ent) (e : ent).
  Definition tag (e : ent) : nat := fst (snd (snd e)).
  Definition tpat (tbl : list ent) (i : nat) (P : list seg) : Prop := exists m s, In (P, (m, (i, s))) tbl.
  Definition sorted (tbl : list ent) : Prop := StronglySorted lt (map tag tbl).
  Lemma sorted_fn tbl e e' : sorted tbl -> In e tbl -> In e' tbl -> tag e = tag e' -> e = e'.
  Proof.
    unfold sorted. induction tbl as [|a tbl IH]; intros S0 I1 I2 E; [destruct I1|]. cbn in S0. inversion S0 as [|x l S1 F]; subst. rewrite Forall_forall in F.
    assert (G : forall z, In z tbl -> tag a < tag z) by (intros z Iz; apply F, in_map, Iz).
    destruct I1 as [->|I1], I2 as [->|I2]; [reflexivity|specialize (G e' I2); lia|specialize (G e I1); lia|exact (IH S1 I1 I2 E)].
  Qed.
  Lemma tpat_fn tbl : sorted tbl -> forall i P Q, tpat tbl i P -> tpat tbl i Q -> P = Q.
  Proof. intros S0 i P Q (m & s & I1) (m' & s' & I2). pose proof (sorted_fn tbl _ _ S0 I1 I2 eq_refl) as E. congruence. Qed.
  Lemma sorted_snoc tbl e : sorted (tbl ++ [e]) <-> sorted tbl /\ Forall (fun x => tag x < tag e) tbl.
  Proof.
    unfold sorted. induction tbl as [|a tbl IH]; cbn; [split; [intros _; split; constructor|intros _; constructor; constructor]|].
    split.
    - intros H. inversion H as [|x l S1 F]; subst. destruct (proj1 IH S1) as [A1 A2]. rewrite map_app in F. apply Forall_app in F. destruct F as [F1 F2]. inversion F2; subst.
      split; [constructor; assumption|constructor; assumption].
    - intros [H F]. inversion H as [|x l S1 F1]; subst. inversion F; subst. constructor; [apply IH; auto|]. rewrite map_app. apply Forall_app. split; [exact F1|constructor; [assumption|constructor]].
  Qed.

  (** everything still on a branch when the path ends *)
  Fixpoint ends (path : list bytes) (tbl : list ent) (b : args) : list (list ent * args) :=
    match path with
    | [] => [(tbl, b)]
    | x :: rest => flat_map (fun ga => if seg_fits (fst ga) x then ends rest (snd ga) (b ++ bind (fst ga) x) else []) (alternatives tbl)
    end.
  Definition complete (R : list ent) : list (bytes * (nat * HS)) := flat_map (fun e => match fst e with [] => [snd e] | _ => [] end) R.
  Lemma endpoints_ends : forall path tbl b, endpoints path tbl b = map (fun x => (complete (fst x), snd x)) (ends path tbl b).
  Proof.
    induction path as [|x path IH]; intros tbl b; [reflexivity|]. cbn [endpoints ends]. generalize (alternatives tbl) as gs. induction gs as [|[g sub] gs IHg]; [reflexivity|].
    cbn [flat_map fst snd]. rewrite map_app, <- IHg. f_equal. destruct (seg_fits g x); [apply IH|reflexivity].
  Qed.

  (** ** Alternatives *)
  Definition tails (a : bytes) (tbl : list ent) : list ent :=
    flat_map (fun e => match fst e with Lit b :: t => if beq a b then [(t, snd e)] else [] | _ => [] end) tbl.
  Definition first_tag (sub : list ent) : nat := match sub with e :: _ => tag e | [] => 0 end.
  Record alts (tbl : list ent) (gs : list (seg * list ent)) : Prop := Alts {
    A_lit : forall a sub, In (Lit a, sub) gs -> sub = tails a tbl /\ sub <> [];
    A_par : forall n sub, In (Par n, sub) gs -> exists t v, sub = [(t, v)] /\ In (Par n :: t, v) tbl;
    A_all : forall g t v, In (g :: t, v) tbl -> exists sub, In (g, sub) gs /\ In (t, v) sub;
    A_ord : StronglySorted lt (map (fun ga => first_tag (snd ga)) gs);
    A_tag : forall g sub, In (g, sub) gs -> exists e, In e tbl /\ tag e = first_tag sub
  }.
  Lemma tails_app a t1 t2 : tails a (t1 ++ t2) = tails a t1 ++ tails a t2.
  Proof. apply flat_map_app. Qed.
  Lemma in_tails a tbl t v : In (t, v) (tails a tbl) <-> In (Lit a :: t, v) tbl.
  Proof.
    unfold tails. rewrite in_flat_map. split.
    - intros ([P w] & I1 & I2). cbn in I2. destruct P as [|[b|n] P]; try contradiction. destruct (beq a b) eqn:E; [|destruct I2].
      apply beq_eq in E. subst b. destruct I2 as [I2|[]]. inversion I2; subst. exact I1.
    - intros I. exists (Lit a :: t, v). split; [exact I|]. cbn. rewrite beq_refl. left. reflexivity.
  Qed.
  Lemma ins_alt_hit a e : forall gs1 gs2 sub, (forall s, ~ In (Lit a, s) gs1) -> ins_alt (Lit a) e (gs1 ++ (Lit a, sub) :: gs2) = gs1 ++ (Lit a, sub ++ [e]) :: gs2.
  Proof.
    induction gs1 as [|[g tb] gs1 IH]; intros gs2 sub N; cbn [app ins_alt].
    - cbn [same_lit]. rewrite beq_refl. reflexivity.
    - destruct (same_lit (Lit a) g) eqn:E.
      + destruct g as [b|n]; [|discriminate]. cbn in E. apply beq_eq in E. subst b. exfalso. apply (N tb). left. reflexivity.
      + f_equal. apply IH. intros s I. apply (N s). right. exact I.
  Qed.
  Lemma ins_alt_miss h e : forall gs, (forall a s, h = Lit a -> ~ In (Lit a, s) gs) -> ins_alt h e gs = gs ++ [(h, [e])].
  Proof.
    induction gs as [|[g tb] gs IH]; intros N; cbn [app ins_alt]; [reflexivity|].
    destruct (same_lit h g) eqn:E.
    - destruct h as [a|n], g as [b|n']; cbn in E; try discriminate. apply beq_eq in E. subst b. exfalso. apply (N a tb eq_refl). left. reflexivity.
    - f_equal. apply IH. intros a s Eh I. apply (N a s Eh). right. exact I.
  Qed.
  Lemma has_lit a (gs : list (seg * list ent)) : (exists gs1 sub gs2, gs = gs1 ++ (Lit a, sub) :: gs2 /\ forall s, ~ In (Lit a, s) gs1) \/ forall s, ~ In (Lit a, s) gs.
  Proof.
    induction gs as [|[g tb] gs IH]; [right; intros s []|].
    destruct g as [b|n].
    - destruct (beq a b) eqn:E.
      + apply beq_eq in E. subst b. left. exists [], tb, gs. split; [reflexivity|]. intros s [].
      + destruct IH as [(gs1 & sub & gs2 & -> & N)|N].
        * left. exists ((Lit b, tb) :: gs1), sub, gs2. split; [reflexivity|]. intros s [I|I]; [|exact (N s I)]. inversion I; subst. rewrite beq_refl in E. discriminate.
        * right. intros s [I|I]; [|exact (N s I)]. inversion I; subst. rewrite beq_refl in E. discriminate.
    - destruct IH as [(gs1 & sub & gs2 & -> & N)|N].
      + left. exists ((Par n, tb) :: gs1), sub, gs2. split; [reflexivity|]. intros s [I|I]; [discriminate|exact (N s I)].
      + right. intros s [I|I]; [discriminate|exact (N s I)].
  Qed.
  Lemma ssorted_snoc (l : list nat) x : StronglySorted lt l -> Forall (fun y => y < x) l -> StronglySorted lt (l ++ [x]).
  Proof.
    induction l as [|a l IH]; intros S0 F; cbn; [constructor; constructor|]. inversion S0; inversion F; subst. constructor; [apply IH; assumption|].
    apply Forall_app. split; [assumption|constructor; [assumption|constructor]].
  Qed.
  Lemma alternatives_snoc tbl e : alternatives (tbl ++ [e]) = step_alt (alternatives tbl) e.
  Proof. unfold alternatives. rewrite fold_left_app. reflexivity. Qed.
  Lemma alts_ok : forall tbl, sorted tbl -> alts tbl (alternatives tbl).
  Proof.
    induction tbl as [|[P w] tbl IH] using rev_ind; intros S0.
    { constructor; try (intros; contradiction). constructor. }
    apply sorted_snoc in S0. destruct S0 as [S1 F]. specialize (IH S1). rewrite alternatives_snoc. destruct IH as [A1 A2 A3 A4 A5]. set (gs := alternatives tbl) in *.
    destruct P as [|h t]; cbn [step_alt].
    { constructor.
      - intros a sub I. destruct (A1 a sub I) as [-> N]. rewrite tails_app. cbn. rewrite app_nil_r. auto.
      - intros n sub I. destruct (A2 n sub I) as (t & v & -> & It). exists t, v. split; [reflexivity|]. apply in_or_app. auto.
      - intros g t v I. apply in_app_or in I. destruct I as [I|[I|[]]]; [exact (A3 g t v I)|discriminate].
      - exact A4.
      - intros g sub I. destruct (A5 g sub I) as (e & Ie & Et). exists e. split; [apply in_or_app; auto|exact Et]. }
    assert (Miss : (forall a s, h = Lit a -> ~ In (Lit a, s) gs) -> alts (tbl ++ [(h :: t, w)]) (gs ++ [(h, [(t, w)])])).
    { intros N. constructor.
      - intros a sub I. rewrite tails_app. apply in_app_or in I. destruct I as [I|[I|[]]].
        + destruct (A1 a sub I) as [-> Ns]. assert (Ha : h <> Lit a) by (intros ->; exact (N a _ eq_refl I)).
          cbn. destruct h as [b|n]; [|rewrite app_nil_r; auto]. destruct (beq a b) eqn:E; [apply beq_eq in E; congruence|]. cbn. rewrite app_nil_r. auto.
        + inversion I; subst. cbn. rewrite beq_refl. cbn.
          assert (Em : tails a tbl = []).
          { destruct (tails a tbl) as [|[t0 v0] l] eqn:E; [reflexivity|]. exfalso. assert (I0 : In (t0, v0) (tails a tbl)) by (rewrite E; left; reflexivity).
            apply in_tails in I0. destruct (A3 _ _ _ I0) as (s & Is & _). exact (N a s eq_refl Is). }
          rewrite Em. split; [reflexivity|discriminate].
      - intros n sub I. apply in_app_or in I. destruct I as [I|[I|[]]].
        + destruct (A2 n sub I) as (t0 & v & -> & It). exists t0, v. split; [reflexivity|]. apply in_or_app. auto.
        + inversion I; subst. exists t, w. split; [reflexivity|]. apply in_or_app. right. left. reflexivity.
      - intros g t0 v I. apply in_app_or in I. destruct I as [I|[I|[]]].
        + destruct (A3 g t0 v I) as (s & I1 & I2). exists s. split; [apply in_or_app; auto|exact I2].
        + inversion I; subst. exists [(t0, v)]. split; [apply in_or_app; right; left; reflexivity|left; reflexivity].
      - rewrite map_app. cbn. apply ssorted_snoc; [exact A4|]. rewrite Forall_forall in F |- *. intros y Iy. apply in_map_iff in Iy. destruct Iy as ([g sub] & <- & I). cbn.
        destruct (A5 g sub I) as (e & Ie & <-). exact (F e Ie).
      - intros g sub I. apply in_app_or in I. destruct I as [I|[I|[]]].
        + destruct (A5 g sub I) as (e & Ie & Et). exists e. split; [apply in_or_app; auto|exact Et].
        + inversion I; subst. exists (g :: t, w). split; [apply in_or_app; right; left; reflexivity|reflexivity]. }
    destruct h as [a|n].
    - destruct (has_lit a gs) as [(gs1 & sub & gs2 & E & N)|N].
      + rewrite E, ins_alt_hit by exact N. rewrite E in A1, A2, A3, A4, A5.
        assert (Isub : In (Lit a, sub) (gs1 ++ (Lit a, sub) :: gs2)) by (apply in_or_app; right; left; reflexivity).
        destruct (A1 a sub Isub) as [Es Ns].
        (* no second alternative for the same literal *)
        assert (Uni : forall s, ~ In (Lit a, s) gs2).
        { intros s I. destruct (A1 a s ltac:(apply in_or_app; right; right; exact I)) as [E2 _]. rewrite map_app in A4. cbn [map] in A4.
          assert (Z : StronglySorted lt (first_tag sub :: map (fun ga => first_tag (snd ga)) gs2)).
          { clear - A4. cbn [snd] in A4. induction (map (fun ga : seg * list ent => first_tag (snd ga)) gs1) as [|z l IHl]; [exact A4|]. inversion A4; subst. apply IHl. assumption. }
          apply StronglySorted_inv in Z. destruct Z as [_ Fz]. rewrite Forall_forall in Fz. assert (H : In (first_tag s) (map (fun ga => first_tag (snd ga)) gs2)) by (apply in_map_iff; exists (Lit a, s); auto).
          specialize (Fz _ H). rewrite E2, <- Es in Fz. lia. }
        assert (Mem : forall g s, In (g, s) (gs1 ++ (Lit a, sub ++ [(t, w)]) :: gs2) -> (g = Lit a /\ s = sub ++ [(t, w)]) \/ (In (g, s) (gs1 ++ (Lit a, sub) :: gs2) /\ g <> Lit a)).
        { intros g s I. apply in_app_or in I. destruct I as [I|[I|I]].
          - right. split; [apply in_or_app; auto|]. intros ->. exact (N s I).
          - inversion I; subst. auto.
          - right. split; [apply in_or_app; right; right; exact I|]. intros ->. exact (Uni s I). }
        constructor.
        * intros b s I. rewrite tails_app. destruct (Mem _ _ I) as [[Z ->]|[I0 Nb]].
          -- inversion Z; subst b. cbn. rewrite beq_refl. rewrite <- Es. cbn. split; [reflexivity|]. destruct sub; discriminate.
          -- destruct (A1 b s I0) as [-> Nn]. cbn. destruct (beq b a) eqn:Eb; [apply beq_eq in Eb; congruence|]. cbn. rewrite app_nil_r. auto.
        * intros n s I. destruct (Mem _ _ I) as [[Z _]|[I0 _]]; [discriminate|]. destruct (A2 n s I0) as (t0 & v & -> & It). exists t0, v. split; [reflexivity|]. apply in_or_app. auto.
        * intros g t0 v I. apply in_app_or in I. destruct I as [I|[I|[]]].
          -- destruct (A3 g t0 v I) as (s & I1 & I2). apply in_app_or in I1. destruct I1 as [I1|[I1|I1]].
             ++ exists s. split; [apply in_or_app; auto|exact I2].
             ++ inversion I1; subst g s. exists (sub ++ [(t, w)]). split; [apply in_or_app; right; left; reflexivity|apply in_or_app; auto].
             ++ exists s. split; [apply in_or_app; right; right; exact I1|exact I2].
          -- inversion I; subst. exists (tails a tbl ++ [(t0, v)]). split; [apply in_or_app; right; left; reflexivity|apply in_or_app; right; left; reflexivity].
        * rewrite map_app in A4 |- *. cbn [map snd] in A4 |- *. destruct sub as [|e0 sub]; [congruence|]. exact A4.
        * intros g s I. destruct (Mem _ _ I) as [[-> ->]|[I0 _]].
          -- destruct (A5 _ _ Isub) as (e & Ie & Et). exists e. split; [apply in_or_app; auto|]. destruct sub as [|e0 sub]; [congruence|]. exact Et.
          -- destruct (A5 g s I0) as (e & Ie & Et). exists e. split; [apply in_or_app; auto|exact Et].
      + rewrite ins_alt_miss by (intros b s Z I; inversion Z; subst; exact (N s I)). apply Miss. intros b s Z I. inversion Z; subst. exact (N s I).
    - rewrite ins_alt_miss by (intros b s Z; discriminate Z). apply Miss. intros b s Z. discriminate Z.
  Qed.

  Lemma flat_map_head {A C} (f : A -> list C) : forall l y ys, flat_map f l = y :: ys -> exists l1 a l2 zs, l = l1 ++ a :: l2 /\ f a = y :: zs /\ forall c, In c l1 -> f c = [].
  Proof.
    induction l as [|a l IH]; intros y ys E; [discriminate|]. cbn in E. destruct (f a) as [|z zs] eqn:Fa.
    - destruct (IH y ys E) as (l1 & c & l2 & w & -> & Fc & N). exists (a :: l1), c, l2, w. split; [reflexivity|]. split; [exact Fc|]. intros d [<-|I]; [exact Fa|exact (N d I)].
    - cbn in E. inversion E; subst. exists [], a, l, zs. split; [reflexivity|]. split; [exact Fa|]. intros c [].
  Qed.
  Lemma flat_map_none {A C} (f : A -> list C) l : flat_map f l = [] -> forall c, In c l -> f c = [].
  Proof. induction l as [|a l IH]; intros E c I; [destruct I|]. cbn in E. apply app_eq_nil in E. destruct E as [E1 E2]. destruct I as [<-|I]; auto. Qed.
  Lemma tails_sorted a tbl : sorted tbl -> sorted (tails a tbl).
  Proof.
    induction tbl as [|[P w] tbl IH] using rev_ind; intros S0; [exact S0|]. apply sorted_snoc in S0. destruct S0 as [S1 F]. rewrite tails_app.
    cbn. destruct P as [|[b|n] P]; cbn; rewrite ?app_nil_r; auto. destruct (beq a b); cbn; rewrite ?app_nil_r; auto.
    apply sorted_snoc. split; [auto|]. rewrite Forall_forall in F |- *. intros [t v] I. apply in_tails in I. exact (F _ I).
  Qed.
  Lemma sub_sorted tbl g sub : sorted tbl -> In (g, sub) (alternatives tbl) -> sorted sub.
  Proof.
    intros S0 I. destruct (alts_ok tbl S0) as [A1 A2 _ _ _]. destruct g as [a|n].
    - destruct (A1 a sub I) as [-> _]. apply tails_sorted, S0.
    - destruct (A2 n sub I) as (t & v & -> & _). constructor; constructor.
  Qed.
  (** where the entries of an alternative come from *)
  Lemma sub_in tbl g sub t v : sorted tbl -> In (g, sub) (alternatives tbl) -> In (t, v) sub -> In (g :: t, v) tbl.
  Proof.
    intros S0 I It. destruct (alts_ok tbl S0) as [A1 A2 _ _ _]. destruct g as [a|n].
    - destruct (A1 a sub I) as [-> _]. apply in_tails, It.
    - destruct (A2 n sub I) as (t0 & v0 & -> & I0). destruct It as [E|[]]. inversion E; subst. exact I0.
  Qed.
  Lemma sub_ne tbl g sub : sorted tbl -> In (g, sub) (alternatives tbl) -> sub <> [].
  Proof.
    intros S0 I. destruct (alts_ok tbl S0) as [A1 A2 _ _ _]. destruct g as [a|n].
    - apply (A1 a sub I).
    - destruct (A2 n sub I) as (t0 & v0 & -> & I0). discriminate.
  Qed.
  Lemma first_least (sub : list ent) e : sorted sub -> In e sub -> first_tag sub <= tag e.
  Proof.
    destruct sub as [|e0 sub]; intros S0 I; [destruct I|]. destruct I as [<-|I]; [cbn; lia|]. unfold sorted in S0. cbn [map] in S0. apply StronglySorted_inv in S0. destruct S0 as [_ F].
    rewrite Forall_forall in F. specialize (F (tag e) (in_map _ _ _ I)). cbn. lia.
  Qed.
  Lemma sub_opened tbl g sub t m i s : sorted tbl -> In (g, sub) (alternatives tbl) -> In (t, (m, (i, s))) sub -> opened (tpat tbl) 1 i (first_tag sub).
  Proof.
    intros S0 I It. pose proof (sub_in _ _ _ _ _ S0 I It) as Ii. pose proof (sub_sorted _ _ _ S0 I) as Ss. pose proof (first_least sub _ Ss It) as Le. cbn in Le.
    destruct (alts_ok tbl S0) as [A1 A2 _ _ _]. destruct g as [a|n].
    - destruct (A1 a sub I) as [Es Ne]. split.
      + destruct sub as [|[t0 [m0 [j0 s0]]] sub0] eqn:E0; [congruence|]. right. exists [a], t0, t. split; [reflexivity|].
        pose proof (sub_in _ _ _ t0 (m0, (j0, s0)) S0 I (or_introl eq_refl)) as I0. split; [exists m0, s0; exact I0|exists m, s; exact Ii].
      + intros u [->|(p & P & Q & L & (m1 & s1 & U1) & U2)]; [exact Le|]. destruct p as [|b [|]]; try discriminate. cbn in U1, U2.
        assert (Eq : Lit b :: Q = Lit a :: t) by (apply (tpat_fn tbl S0 i); [exact U2|exists m, s; exact Ii]). inversion Eq; subst b Q.
        assert (Iu : In (P, (m1, (u, s1))) sub) by (rewrite Es; apply in_tails; exact U1). pose proof (first_least sub _ Ss Iu) as Lu. exact Lu.
    - destruct (A2 n sub I) as (t0 & v0 & -> & I0). destruct It as [E|[]]. inversion E; subst t0 v0. cbn [first_tag tag snd fst]. split; [left; reflexivity|].
      intros u [->|(p & P & Q & L & U1 & U2)]; [lia|]. destruct p as [|b [|]]; try discriminate. exfalso. cbn in U2.
      assert (Eq : Lit b :: Q = Par n :: t) by (apply (tpat_fn tbl S0 i); [exact U2|exists m, s; exact Ii]). discriminate.
  Qed.

  (** from the entries after a literal to all *)
  Section Lift.
    Variable tbl : list ent.
    Hypothesis So : sorted tbl.
    Variable a : bytes.
    Let sub := tails a tbl.
    Lemma lift_pat i P : tpat sub i P <-> tpat tbl i (Lit a :: P).
    Proof. split; intros (m & s & I); exists m, s; apply in_tails; exact I. Qed.
    Lemma lift_together k i j : together (tpat sub) k i j -> together (tpat tbl) (S k) i j.
    Proof. intros [->|(p & P & Q & L & A & A')]; [left; reflexivity|]. right. exists (a :: p), P, Q. split; [cbn; lia|]. cbn. split; apply lift_pat; assumption. Qed.
    Lemma drop_together k i j P : tpat sub j P -> together (tpat tbl) (S k) i j -> together (tpat sub) k i j.
    Proof.
      intros Hj [->|(p & P1 & Q & L & A & A')]; [left; reflexivity|]. destruct p as [|b p]; [discriminate|]. cbn in A, A'. apply lift_pat in Hj.
      pose proof (tpat_fn tbl So j _ _ A' Hj) as E. inversion E; subst. right. exists p, P1, Q. split; [cbn in L; lia|]. split; apply lift_pat; assumption.
    Qed.
    Lemma lift_opened k i t P : tpat sub i P -> opened (tpat sub) k i t -> opened (tpat tbl) (S k) i t.
    Proof. intros Hi [A1 A2]. split; [apply lift_together, A1|]. intros u Hu. apply A2. exact (drop_together k u i P Hi Hu). Qed.
    Lemma lift_before i j P Q : tpat sub i P -> tpat sub j Q -> before (tpat sub) i j -> before (tpat tbl) i j.
    Proof.
      intros Hi Hj (k & t & u & T & O1 & O2 & L). exists (S k), t, u. split; [apply lift_together, T|]. split; [exact (lift_opened _ _ _ _ Hi O1)|]. split; [exact (lift_opened _ _ _ _ Hj O2)|exact L].
    Qed.
  End Lift.

  Lemma fits_cons g P x path : fits (g :: P) (x :: path) <-> seg_fits g x = true /\ fits P path.
  Proof. split; [intros H; inversion H; auto|intros [A1 A2]; constructor; assumption]. Qed.
  Lemma fits_nil P : fits P [] -> P = [].
  Proof. intros H. inversion H. reflexivity. Qed.

  Lemma ends_none : forall path tbl b, sorted tbl -> ends path tbl b = [] -> forall P1 Q v, In (P1 ++ Q, v) tbl -> fits P1 path -> False.
  Proof.
    induction path as [|x path IH]; intros tbl b S0 E P1 Q v I F; [discriminate|]. inversion F as [|g y P1' path' Hg F']; subst. cbn in I.
    destruct (alts_ok tbl S0) as [_ _ A3 _ _]. destruct (A3 _ _ _ I) as (sub & I1 & I2). cbn [ends] in E. pose proof (flat_map_none _ _ E (g, sub) I1) as N. cbn [fst snd] in N. rewrite Hg in N.
    exact (IH sub _ (sub_sorted _ _ _ S0 I1) N P1' Q v I2 F').
  Qed.
  Lemma ends_first : forall path tbl b R b' rest, sorted tbl -> ends path tbl b = (R, b') :: rest ->
    sorted R /\ (tbl <> [] -> R <> []) /\
    (forall Q m i s, In (Q, (m, (i, s))) R -> exists P1, In (P1 ++ Q, (m, (i, s))) tbl /\ fits P1 path /\ b' = b ++ bindings P1 path /\
       (forall P1' Q' m' j s', In (P1' ++ Q', (m', (j, s'))) tbl -> fits P1' path ->
          (In (Q', (m', (j, s'))) R /\ together (tpat tbl) (length path) i j) \/ before (tpat tbl) i j) /\
       (forall P' m' j s', In (P', (m', (j, s'))) tbl -> together (tpat tbl) (length path) i j -> exists Q' P1', P' = P1' ++ Q' /\ fits P1' path /\ In (Q', (m', (j, s'))) R)).
  Proof.
    induction path as [|x path IH]; intros tbl b R b' rest S0 E.
    - cbn in E. inversion E; subst. split; [exact S0|]. split; [auto|]. intros Q m i s I. exists []. split; [exact I|]. split; [constructor|]. split; [cbn; rewrite app_nil_r; reflexivity|]. split.
      + intros P1' Q' m' j s' I' F. apply fits_nil in F. subst. cbn in I'. left. split; [exact I'|]. right. exists [], Q, Q'. split; [reflexivity|]. cbn. split; [exists m, s; exact I|exists m', s'; exact I'].
      + intros P' m' j s' I' _. exists P', []. split; [reflexivity|]. split; [constructor|exact I'].
    - cbn [ends] in E. destruct (flat_map_head _ _ _ _ E) as (gs1 & [g sub] & gs2 & zs & Eg & Ea & Nn). cbn [fst snd] in Ea. clear E.
      destruct (seg_fits g x) eqn:Fx; [|discriminate].
      assert (Ig : In (g, sub) (alternatives tbl)) by (rewrite Eg; apply in_or_app; right; left; reflexivity).
      pose proof (sub_sorted _ _ _ S0 Ig) as Ss. pose proof (sub_ne _ _ _ S0 Ig) as Ne.
      destruct (IH sub _ R b' zs Ss Ea) as (SR & NR & Main). split; [exact SR|]. split; [auto|].
      destruct (alts_ok tbl S0) as [A1 A2 A3 A4 _].
      intros Q m i s I. destruct (Main Q m i s I) as (P1 & J1 & J2 & J3 & J4 & J5). exists (g :: P1).
      pose proof (sub_in _ _ _ _ _ S0 Ig J1) as K1.
      split; [exact K1|]. split; [apply fits_cons; auto|]. split; [rewrite J3, <- app_assoc; destruct g; reflexivity|]. split.
      + intros P1' Q' m' j s' I' F. inversion F as [|g' y P2 path' Hg' F']; subst. cbn [app] in I'. destruct (A3 _ _ _ I') as (sub' & I1 & I2).
        rewrite Eg in I1. apply in_app_or in I1. destruct I1 as [I1|[I1|I1]].
        * exfalso. pose proof (Nn _ I1) as Z. cbn [fst snd] in Z. rewrite Hg' in Z.
          assert (I1' : In (g', sub') (alternatives tbl)) by (rewrite Eg; apply in_or_app; auto).
          exact (ends_none _ _ _ (sub_sorted _ _ _ S0 I1') Z P2 Q' _ I2 F').
        * inversion I1; subst g' sub'. destruct g as [a|n].
          -- destruct (A1 a sub Ig) as [Es _].
             assert (Pi : tpat (tails a tbl) i (P1 ++ Q)) by (rewrite <- Es; exists m, s; exact J1). assert (Pj : tpat (tails a tbl) j (P2 ++ Q')) by (rewrite <- Es; exists m', s'; exact I2).
             destruct (J4 P2 Q' m' j s' I2 F') as [[H1 H2]|H]; rewrite Es in *.
             ++ left. split; [exact H1|]. cbn [length]. apply (lift_together tbl a). exact H2.
             ++ right. exact (lift_before tbl S0 a i j _ _ Pi Pj H).
          -- destruct (A2 n sub Ig) as (t0 & v0 & -> & _). destruct J1 as [J1|[]]. destruct I2 as [I2|[]]. rewrite J1 in I2. inversion I2; subst.
             left. split; [|left; reflexivity]. destruct (J4 P2 Q' m' j s' ltac:(left; congruence) F') as [[H1 _]|(k & t & u & _ & O1 & O2 & L)]; [exact H1|].
             exfalso. assert (t = u); [|lia]. apply (opened_same _ (tpat_fn [(t0, v0)] ltac:(constructor; constructor)) (S k) j j); [left; reflexivity|exact O1|exact O2].
        * right. assert (I1' : In (g', sub') (alternatives tbl)) by (rewrite Eg; apply in_or_app; right; right; exact I1).
          exists 0, (first_tag sub), (first_tag sub'). split; [right; exists [], (g :: P1 ++ Q), (g' :: P2 ++ Q'); split; [reflexivity|]; cbn; split; [exists m, s; exact K1|exists m', s'; exact I']|].
          split; [exact (sub_opened _ _ _ _ _ _ _ S0 Ig J1)|]. split; [exact (sub_opened _ _ _ _ _ _ _ S0 I1' I2)|].
          rewrite Eg, map_app in A4. cbn [map snd] in A4. clear - A4 I1. induction (map (fun ga : seg * list ent => first_tag (snd ga)) gs1) as [|z l IHl].
          -- cbn in A4. apply StronglySorted_inv in A4. destruct A4 as [_ Fz]. rewrite Forall_forall in Fz. apply Fz. apply in_map_iff. exists (g', sub'). auto.
          -- cbn in A4. apply StronglySorted_inv in A4. apply IHl. apply A4.
      + intros P' m' j s' I' [<-|(p & P & Q1 & L & U1 & U2)].
        * assert (E2 : (P', (m', (i, s'))) = (g :: P1 ++ Q, (m, (i, s)))) by (apply (sorted_fn tbl _ _ S0); [exact I'|exact K1|reflexivity]). inversion E2; subst.
          exists Q, (g :: P1). split; [reflexivity|]. split; [apply fits_cons; auto|exact I].
        * destruct p as [|y p]; [discriminate|]. cbn in U1, U2, L. pose proof (tpat_fn tbl S0 i _ _ U1 ltac:(exists m, s; exact K1)) as E2. inversion E2 as [[Eg1 Et]]. subst g. clear E2.
          assert (Pj : tpat tbl j P') by (exists m', s'; exact I'). pose proof (tpat_fn tbl S0 j _ _ U2 Pj) as E3. subst P'.
          destruct (A1 y sub Ig) as [Es _]. assert (Ij : In (map Lit p ++ Q1, (m', (j, s'))) sub) by (rewrite Es; apply in_tails; exact I').
          destruct (J5 _ m' j s' Ij) as (Q' & P2 & E4 & F' & IR).
          { right. exists p, P, Q1. split; [lia|]. rewrite Et. split; [exists m, s; exact J1|exists m', s'; exact Ij]. }
          exists Q', (Lit y :: P2). split; [rewrite E4; reflexivity|]. split; [apply fits_cons; auto|exact IR].
  Qed.
End Ends.

(** ** Tables and tagged tables *)
Section Nat.
  Context {A C : Type} (f : A -> C).
  Definition pmap (x : bytes * A) : bytes * C := (fst x, f (snd x)).
  Definition emap (e : entry A) : entry C := (fst e, pmap (snd e)).
  Definition gmap (ga : seg * list (entry A)) : seg * list (entry C) := (fst ga, map emap (snd ga)).
  Lemma ins_alt_map h e : forall gs, ins_alt h (emap e) (map gmap gs) = map gmap (ins_alt h e gs).
  Proof.
    induction gs as [|[g tb] gs IH]; [reflexivity|]. cbn [map ins_alt gmap fst snd]. destruct (same_lit h g).
    - cbn [map]. f_equal. unfold gmap. cbn [fst snd]. rewrite map_app. reflexivity.
    - cbn [map]. rewrite IH. reflexivity.
  Qed.
  Lemma alternatives_map tbl : alternatives (map emap tbl) = map gmap (alternatives tbl).
  Proof.
    unfold alternatives. change (@nil (seg * list (entry C))) with (map gmap []). generalize (@nil (seg * list (entry A))) as gs.
    induction tbl as [|[[|h t] v] tbl IH]; intros gs; [reflexivity| |]; cbn [map fold_left step_alt emap fst snd].
    - apply IH.
    - change (t, pmap v) with (emap (t, v)). rewrite ins_alt_map. apply IH.
  Qed.
  Lemma endpoints_map : forall path tbl b, endpoints path (map emap tbl) b = map (fun x => (map pmap (fst x), snd x)) (endpoints path tbl b).
  Proof.
    induction path as [|x path IH]; intros tbl b; cbn [endpoints].
    - cbn. f_equal. f_equal. induction tbl as [|[[|h t] v] tbl IHt]; cbn; [reflexivity| |]; rewrite IHt; reflexivity.
    - rewrite alternatives_map. generalize (alternatives tbl) as gs. induction gs as [|[g sub] gs IHg]; [reflexivity|].
      cbn [flat_map map gmap fst snd]. rewrite map_app, <- IHg. f_equal. destruct (seg_fits g x); [apply IH|reflexivity].
  Qed.
End Nat.

Section Top.
  Context {HS : Type}.
  Implicit Types (regs : list (reg HS)).
  Definition tagged regs : list (@ent HS) := map (fun x => (pattern_of (r_route (snd x)), (r_method (snd x), (fst x, r_set (snd x))))) (combine (seq 0 (length regs)) regs).
  Lemma untag_from regs : forall k, map (emap snd) (map (fun x : nat * reg HS => (pattern_of (r_route (snd x)), (r_method (snd x), (fst x, r_set (snd x))))) (combine (seq k (length regs)) regs)) = map entry_of regs.
  Proof. induction regs as [|r regs IH]; intros k; [reflexivity|]. cbn [length seq combine map]. rewrite (IH (S k)). reflexivity. Qed.
  Lemma in_combine_seq regs : forall k i r, In (i, r) (combine (seq k (length regs)) regs) <-> k <= i /\ nth_error regs (i - k) = Some r.
  Proof.
    induction regs as [|r0 regs IH]; intros k i r; cbn [length seq combine].
    - split; [intros []|]. intros [_ E]. destruct (i - k); discriminate.
    - split.
      + intros [E|I]; [inversion E; subst; split; [lia|]; rewrite Nat.sub_diag; reflexivity|]. apply IH in I. destruct I as [L E]. split; [lia|].
        replace (i - k) with (S (i - S k)) by lia. exact E.
      + intros [L E]. destruct (Nat.eq_dec i k) as [->|Ne].
        * rewrite Nat.sub_diag in E. cbn in E. inversion E; subst. left. reflexivity.
        * right. apply IH. split; [lia|]. replace (i - k) with (S (i - S k)) in E by lia. exact E.
  Qed.
  Lemma in_tagged regs P m i s : In (P, (m, (i, s))) (tagged regs) <-> exists r, nth_error regs i = Some r /\ P = pattern_of (r_route r) /\ m = r_method r /\ s = r_set r.
  Proof.
    unfold tagged. rewrite in_map_iff. split.
    - intros ([j r] & E & I). inversion E; subst. apply in_combine_seq in I. rewrite Nat.sub_0_r in I. exists r. destruct I as [_ I]. auto.
    - intros (r & E & -> & -> & ->). exists (i, r). split; [reflexivity|]. apply in_combine_seq. rewrite Nat.sub_0_r. split; [lia|exact E].
  Qed.
  Lemma tagged_sorted regs : sorted (tagged regs).
  Proof.
    unfold sorted, tagged. rewrite map_map. cbn. assert (E : forall k, map (fun x : nat * reg HS => tag (pattern_of (r_route (snd x)), (r_method (snd x), (fst x, r_set (snd x))))) (combine (seq k (length regs)) regs) = seq k (length regs)).
    { induction regs as [|r regs IH]; intros k; [reflexivity|]. cbn [length seq combine map]. rewrite IH. reflexivity. }
    rewrite E. clear E. generalize 0 as k. induction (length regs) as [|n IH]; intros k; cbn; constructor; [apply IH|]. apply Forall_forall. intros x I. apply in_seq in I. lia.
  Qed.
  Lemma tpat_tagged regs i P : tpat (tagged regs) i P <-> pattern_at regs i P.
  Proof.
    unfold tpat, pattern_at. split.
    - intros (m & s & I). apply in_tagged in I. destruct I as (r & E & EP & _). exists r. auto.
    - intros (r & E & ->). exists (r_method r), (r_set r). apply in_tagged. exists r. auto.
  Qed.
  Lemma together_eq (p q : nat -> list seg -> Prop) : (forall i P, p i P <-> q i P) -> forall k i j, together p k i j -> together q k i j.
  Proof. intros H k i j [->|(x & P & Q & L & A & A')]; [left; reflexivity|]. right. exists x, P, Q. split; [exact L|]. split; apply H; assumption. Qed.
  Lemma opened_eq (p q : nat -> list seg -> Prop) : (forall i P, p i P <-> q i P) -> forall k i t, opened p k i t -> opened q k i t.
  Proof. intros H k i t [A1 A2]. split; [exact (together_eq p q H _ _ _ A1)|]. intros u Hu. apply A2. apply (together_eq q p (fun i P => iff_sym (H i P)) _ _ _ Hu). Qed.
  Lemma before_eq (p q : nat -> list seg -> Prop) : (forall i P, p i P <-> q i P) -> forall i j, before p i j -> before q i j.
  Proof.
    intros H i j (k & t & u & T & O1 & O2 & L). exists k, t, u. split; [exact (together_eq p q H _ _ _ T)|]. split; [exact (opened_eq p q H _ _ _ O1)|]. split; [exact (opened_eq p q H _ _ _ O2)|exact L].
  Qed.

  Lemma in_complete (R : list (@ent HS)) v : In v (complete R) <-> In ([], v) R.
  Proof.
    unfold complete. rewrite in_flat_map. split.
    - intros ([[|h t] w] & I & J); cbn in J; [destruct J as [->|[]]; exact I|destruct J].
    - intros I. exists ([], v). split; [exact I|left; reflexivity].
  Qed.
  Lemma complete_app (R1 R2 : list (@ent HS)) : complete (R1 ++ R2) = complete R1 ++ complete R2.
  Proof. apply flat_map_app. Qed.
  (** the latest one *)
  Lemma find_latest (R : list (@ent HS)) m : sorted R -> forall v, find (fun e => covers (fst e) m) (rev (complete R)) = Some v <->
    In ([], v) R /\ covers (fst v) m = true /\ forall v', In ([], v') R -> covers (fst v') m = true -> fst (snd v') <= fst (snd v).
  Proof.
    intros S0 v. revert S0. induction R as [|[P w] R IH] using rev_ind; intros S0.
    - cbn. split; [discriminate|]. intros ([] & _).
    - apply sorted_snoc in S0. destruct S0 as [S1 F]. specialize (IH S1). rewrite complete_app, rev_app_distr. rewrite Forall_forall in F.
      destruct P as [|h t].
      + cbn [complete flat_map fst snd app rev find]. cbn [app find]. destruct (covers (fst w) m) eqn:Cw.
        * split.
          -- intros E. inversion E; subst. split; [apply in_or_app; right; left; reflexivity|]. split; [exact Cw|]. intros v' I _. apply in_app_or in I. destruct I as [I|[I|[]]]; [|inversion I; lia].
             specialize (F _ I). unfold tag in F. cbn in F. lia.
          -- intros (I & Cv & Mx). apply in_app_or in I. destruct I as [I|[I|[]]]; [|inversion I; reflexivity]. specialize (F _ I). unfold tag in F. cbn in F.
             specialize (Mx w ltac:(apply in_or_app; right; left; reflexivity) Cw). lia.
        * rewrite IH. split.
          -- intros (I & Cv & Mx). split; [apply in_or_app; auto|]. split; [exact Cv|]. intros v' I' Cv'. apply in_app_or in I'. destruct I' as [I'|[I'|[]]]; [auto|]. inversion I'; subst. congruence.
          -- intros (I & Cv & Mx). apply in_app_or in I. destruct I as [I|[I|[]]]; [|inversion I; subst; congruence]. split; [exact I|]. split; [exact Cv|]. intros v' I' Cv'. apply Mx; [apply in_or_app; auto|exact Cv'].
      + cbn [complete flat_map fst snd app rev]. cbn [app]. rewrite IH. split.
        * intros (I & Cv & Mx). split; [apply in_or_app; auto|]. split; [exact Cv|]. intros v' I' Cv'. apply in_app_or in I'. destruct I' as [I'|[I'|[]]]; [auto|discriminate].
        * intros (I & Cv & Mx). apply in_app_or in I. destruct I as [I|[I|[]]]; [|discriminate]. split; [exact I|]. split; [exact Cv|]. intros v' I' Cv'. apply Mx; [apply in_or_app; auto|exact Cv'].
  Qed.
  Lemma answer_map (m : bytes) (hs : list (bytes * (nat * HS))) : answer m (map (pmap snd) hs) = option_map (fun v => snd (snd v)) (find (fun e => covers (fst e) m) (rev hs)).
  Proof.
    unfold answer. rewrite <- map_rev. induction (rev hs) as [|v l IH]; [reflexivity|]. cbn [map find]. unfold pmap at 1. cbn [fst]. destruct (covers (fst v) m); [reflexivity|]. exact IH.
  Qed.

  Theorem ref_choice regs m path s a : ref_find (map entry_of regs) m path = (TFound s, a) <->
    exists i r, nth_error regs i = Some r /\ r_set r = s /\ a = bindings (pattern_of (r_route r)) path /\ answers regs m path i.
  Proof.
    pose proof (tagged_sorted regs) as S0. pose proof (tpat_tagged regs) as Eq. assert (Eq' : forall i P, pattern_at regs i P <-> tpat (tagged regs) i P) by (intros i P; apply iff_sym, Eq).
    unfold ref_find. rewrite <- (untag_from regs 0). fold (tagged regs). rewrite endpoints_map, endpoints_ends.
    destruct (ends path (tagged regs) []) as [|[R b'] rest] eqn:E.
    - cbn. split; [discriminate|]. intros (i & r & E1 & _ & _ & r1 & E1' & _ & Fi & _). assert (r1 = r) by congruence. subst r1. exfalso.
      apply (ends_none path (tagged regs) [] S0 E (pattern_of (r_route r)) [] (r_method r, (i, r_set r))); [|exact Fi]. rewrite app_nil_r. apply in_tagged. exists r. auto.
    - cbn [map fst snd]. rewrite answer_map. destruct (ends_first _ _ _ _ _ _ S0 E) as (SR & NR & Main).
      assert (Front : forall Q m0 i s0, In (Q, (m0, (i, s0))) R -> goes_first (pattern_at regs) path i).
      { intros Q m0 i s0 I. destruct (Main _ _ _ _ I) as (P1 & J1 & J2 & _ & J4 & _). apply in_tagged in J1. destruct J1 as (r & E1 & E2 & _). split.
        - exists (P1 ++ Q). split; [exists r; auto|]. exists P1, Q. auto.
        - intros j (P & (r' & E3 & ->) & P1' & Q' & E4 & F4).
          destruct (J4 P1' Q' (r_method r') j (r_set r')) as [[_ H]|H]; [apply in_tagged; exists r'; auto|exact F4|left; exact (together_eq _ _ Eq _ _ _ H)|right; exact (before_eq _ _ Eq _ _ H)]. }
      split.
      + destruct (find (fun e => covers (fst e) m) (rev (complete R))) as [v|] eqn:Fd; [|discriminate]. cbn [option_map]. intros H. inversion H; subst s b'.
        apply (find_latest R m SR) in Fd. destruct Fd as (I & Cv & Mx). destruct v as [m0 [i s0]]. cbn [fst snd] in *.
        destruct (Main _ _ _ _ I) as (P1 & J1 & J2 & J3 & J4 & J5). rewrite app_nil_r in J1. apply in_tagged in J1. destruct J1 as (r & E1 & -> & -> & ->).
        exists i, r. split; [exact E1|]. split; [reflexivity|]. split; [exact J3|]. exists r. split; [exact E1|]. split; [exact Cv|]. split; [exact J2|]. split; [exact (Front _ _ _ _ I)|].
        intros j r' E2 T Ln Cj. destruct (J5 (pattern_of (r_route r')) (r_method r') j (r_set r')) as (Q' & P1' & E3 & F3 & IR).
        * apply in_tagged. exists r'. auto.
        * exact (together_eq _ _ Eq' _ _ _ T).
        * assert (Q' = []).
          { pose proof (Forall2_length _ _ _ F3) as L3. rewrite E3, app_length in Ln. destruct Q'; [reflexivity|cbn in Ln; lia]. }
          subst Q'. exact (Mx (r_method r', (j, r_set r')) IR Cj).
      + intros (i & r & E1 & Es & Ea & r1 & E1' & Cv & Fi & Fr & Mx). assert (r1 = r) by congruence. subst r1.
        assert (It : In (pattern_of (r_route r) ++ [], (r_method r, (i, r_set r))) (tagged regs)) by (rewrite app_nil_r; apply in_tagged; exists r; auto).
        assert (IR : In ([], (r_method r, (i, r_set r))) R).
        { destruct R as [|[Q0 [m0 [i0 s0]]] R0]; [exfalso; apply NR; [intros Z; rewrite Z in It; destruct It|reflexivity]|].
          destruct (Main Q0 m0 i0 s0 (or_introl eq_refl)) as (P1 & J1 & J2 & _ & J4 & J5).
          destruct (J4 _ _ _ _ _ It Fi) as [[H _]|H]; [exact H|].
          apply in_tagged in J1. destruct J1 as (r0 & E2 & E3 & E4 & E5). destruct Fr as [_ Fr]. destruct (Fr i0) as [T|B0].
          - exists (P1 ++ Q0). split; [exists r0; auto|]. exists P1, Q0. auto.
          - destruct (J5 (pattern_of (r_route r)) (r_method r) i (r_set r)) as (Q' & P1' & E6 & F6 & I6).
            + rewrite app_nil_r in It. exact It.
            + apply (together_eq _ _ Eq'). apply together_sym. exact T.
            + assert (Q' = []) by (pose proof (Forall2_length _ _ _ F6) as L6; pose proof (Forall2_length _ _ _ Fi) as L7; rewrite E6, app_length in L7; destruct Q'; [reflexivity|cbn in L7; lia]).
              subst Q'. exact I6.
          - exfalso. apply (before_asym (tpat (tagged regs)) (tpat_fn _ S0) i0 i H). exact (before_eq _ _ Eq' _ _ B0). }
        assert (Fd : find (fun e => covers (fst e) m) (rev (complete R)) = Some (r_method r, (i, r_set r))).
        { apply (find_latest R m SR). split; [exact IR|]. split; [exact Cv|]. intros [m' [j s']] I' Cv'. cbn [fst snd] in *.
          destruct (Main _ _ _ _ I') as (P1 & J1 & J2 & _ & J4 & _). destruct (Main _ _ _ _ IR) as (P3 & J1i & _ & _ & J4i & _). rewrite app_nil_r in J1.
          pose proof J1 as J1'. apply in_tagged in J1. destruct J1 as (r' & E2 & -> & -> & ->). apply (Mx j r' E2); [|exact (Forall2_length _ _ _ J2)|exact Cv'].
          destruct (J4i (pattern_of (r_route r')) [] (r_method r') j (r_set r')) as [[_ T]|B1]; [rewrite app_nil_r; exact J1'|exact J2|exact (together_eq _ _ Eq _ _ _ T)|].
          destruct (J4 (pattern_of (r_route r)) [] (r_method r) i (r_set r) It Fi) as [[_ T]|B2]; [apply together_sym; exact (together_eq _ _ Eq _ _ _ T)|].
          exfalso. exact (before_asym (tpat (tagged regs)) (tpat_fn _ S0) i j B1 B2). }
        rewrite Fd. cbn. destruct (Main _ _ _ _ IR) as (P1 & J1 & J2 & J3 & _ & _). rewrite app_nil_r in J1. apply in_tagged in J1. destruct J1 as (r' & E2 & E3 & _).
        assert (r' = r) by congruence. subst r' P1. cbn in J3. rewrite J3, Es, Ea. reflexivity.
  Qed.

  (** ** Adding a route at the end *)
  Definition pat_of regs (i : nat) : option (list seg) := option_map (fun r => pattern_of (r_route r)) (nth_error regs i).
  Lemma pattern_at_fn regs : forall i P Q, pattern_at regs i P -> pattern_at regs i Q -> P = Q.
  Proof. intros i P Q (r & E & ->) (r' & E' & ->). congruence. Qed.
  Lemma pattern_at_app regs r i P : i < length regs -> (pattern_at (regs ++ [r]) i P <-> pattern_at regs i P).
  Proof. intros L. unfold pattern_at. rewrite nth_error_app1 by exact L. reflexivity. Qed.
  Lemma pattern_at_new regs r P : pattern_at (regs ++ [r]) (length regs) P <-> P = pattern_of (r_route r).
  Proof.
    unfold pattern_at. rewrite nth_error_app2, Nat.sub_diag by lia. cbn. split; [intros (r' & E & ->); congruence|intros ->; exists r; auto].
  Qed.
  Lemma pattern_at_lt regs i P : pattern_at regs i P -> i < length regs.
  Proof. intros (r & E & _). apply nth_error_Some. congruence. Qed.
  Lemma together_app regs r k i j : i < length regs -> j < length regs -> (together (pattern_at (regs ++ [r])) k i j <-> together (pattern_at regs) k i j).
  Proof.
    intros Li Lj. split; (intros [->|(p & P & Q & L & A & A')]; [left; reflexivity|right; exists p, P, Q; split; [exact L|]; split; apply (pattern_at_app regs r); assumption]).
  Qed.
  Lemma opened_app regs r k i t : i < length regs -> (opened (pattern_at (regs ++ [r])) k i t <-> opened (pattern_at regs) k i t).
  Proof.
    intros Li. split; intros [A1 A2].
    - assert (t <= i) by (apply A2; left; reflexivity). split; [apply (together_app regs r); [lia|lia|exact A1]|]. intros u Hu.
      destruct (Nat.le_gt_cases u i); [|lia]. apply A2. apply (together_app regs r); [lia|lia|exact Hu].
    - assert (t <= i) by (apply A2; left; reflexivity). split; [apply (together_app regs r); [lia|lia|exact A1]|]. intros u Hu.
      destruct (Nat.le_gt_cases u i); [|lia]. apply A2. apply (together_app regs r); [lia|lia|exact Hu].
  Qed.
  Lemma before_app regs r i j : i < length regs -> j < length regs -> (before (pattern_at (regs ++ [r])) i j <-> before (pattern_at regs) i j).
  Proof.
    intros Li Lj. split; intros (k & t & u & T & O1 & O2 & L); exists k, t, u; (split; [apply (together_app regs r); assumption|]); (split; [apply (opened_app regs r); assumption|]);
      (split; [apply (opened_app regs r); assumption|exact L]).
  Qed.

  (** ** Any two can be compared *)
  Lemma seg_dec (g h : seg) : {g = h} + {g <> h}.
  Proof. decide equality; apply (list_eq_dec ascii_dec). Qed.
  Lemma lead_dec k : forall P Q : list seg, {exists p P' Q', length p = k /\ P = map Lit p ++ P' /\ Q = map Lit p ++ Q'} + {~ exists p P' Q', length p = k /\ P = map Lit p ++ P' /\ Q = map Lit p ++ Q'}.
  Proof.
    induction k as [|k IH]; intros P Q.
    - left. exists [], P, Q. auto.
    - destruct P as [|[a|n] P]; try (right; intros ([|x p] & P' & Q' & L & E & _); discriminate).
      destruct Q as [|[b|n] Q]; try (right; intros ([|x p] & P' & Q' & L & _ & E); discriminate).
      destruct (list_eq_dec ascii_dec a b) as [->|Ne]; [|right; intros ([|x p] & P' & Q' & L & E1 & E2); try discriminate; cbn in E1, E2; congruence].
      destruct (IH P Q) as [Y|N].
      + left. destruct Y as (p & P' & Q' & L & -> & ->). exists (b :: p), P', Q'. cbn. split; [congruence|auto].
      + right. intros ([|x p] & P' & Q' & L & E1 & E2); [discriminate|]. apply N. cbn in E1, E2, L. exists p, P', Q'. split; [lia|]. split; congruence.
  Qed.
  Lemma together_dec regs k i j : {together (pattern_at regs) k i j} + {~ together (pattern_at regs) k i j}.
  Proof.
    destruct (Nat.eq_dec i j) as [->|Ne]; [left; left; reflexivity|].
    destruct (nth_error regs i) as [ri|] eqn:Ei; [|right; intros [Z|(p & P & Q & _ & (r & E & _) & _)]; congruence].
    destruct (nth_error regs j) as [rj|] eqn:Ej; [|right; intros [Z|(p & P & Q & _ & _ & (r & E & _))]; congruence].
    destruct (lead_dec k (pattern_of (r_route ri)) (pattern_of (r_route rj))) as [Y|N].
    - left. right. destruct Y as (p & P & Q & L & E1 & E2). exists p, P, Q. split; [exact L|]. split; [exists ri|exists rj]; auto.
    - right. intros [Z|(p & P & Q & L & (r & E & E1) & (r' & E' & E1'))]; [congruence|]. apply N. exists p, P, Q. split; [exact L|]. split; congruence.
  Qed.
  Lemma opened_exists regs k i : exists t, opened (pattern_at regs) k i t.
  Proof.
    assert (H : forall n, n <= i -> (exists t, opened (pattern_at regs) k i t) \/ forall u, u < n -> ~ together (pattern_at regs) k u i).
    { induction n as [|n IH]; intros L; [right; intros u Lu; lia|]. destruct (IH ltac:(lia)) as [Y|N]; [left; exact Y|].
      destruct (together_dec regs k n i) as [T|T].
      - left. exists n. split; [exact T|]. intros u Hu. destruct (Nat.le_gt_cases n u); [assumption|]. exfalso. exact (N u ltac:(lia) Hu).
      - right. intros u Lu. destruct (Nat.eq_dec u n) as [->|]; [exact T|apply N; lia]. }
    destruct (H i (le_n _)) as [Y|N]; [exact Y|]. exists i. split; [left; reflexivity|]. intros u Hu. destruct (Nat.le_gt_cases i u); [assumption|]. exfalso. exact (N u ltac:(lia) Hu).
  Qed.
  Lemma compare regs n i j P Q : pattern_at regs i P -> pattern_at regs j Q -> together (pattern_at regs) n i j \/ before (pattern_at regs) i j \/ before (pattern_at regs) j i.
  Proof.
    intros Hi Hj. induction n as [|n IH].
    - left. right. exists [], P, Q. auto.
    - destruct IH as [T|B0]; [|right; exact B0]. destruct (opened_exists regs (S n) i) as [t Ot]. destruct (opened_exists regs (S n) j) as [u Ou].
      destruct (Nat.lt_trichotomy t u) as [L|[->|L]].
      + right. left. exists n, t, u. auto.
      + left. apply (together_trans _ (pattern_at_fn regs) (S n) i u); [apply together_sym, Ot|apply Ou].
      + right. right. exists n, u, t. split; [apply together_sym, T|]. auto.
  Qed.

  Lemma answers_app regs r m path i : answers regs m path i -> (answers (regs ++ [r]) m path i <-> ~ takes_over regs r m path i).
  Proof.
    intros (ri & Ei & Cv & Fi & [Re Fr] & Mx). assert (Li : i < length regs) by (apply nth_error_Some; congruence). split.
    - intros (ri' & Ei' & _ & _ & [_ Fr'] & Mx') (Pf & Hto).
      assert (Rn : reaches (pattern_at (regs ++ [r])) path (length regs)) by (exists (pattern_of (r_route r)); split; [apply pattern_at_new; reflexivity|exact Pf]).
      destruct Hto as [(T & Ln & Cr)|(NT & B0)].
      + assert (length regs <= i); [|lia]. apply (Mx' (length regs) r); [rewrite nth_error_app2, Nat.sub_diag by lia; reflexivity|apply together_sym, T|exact Ln|exact Cr].
      + destruct (Fr' _ Rn) as [T|B1]; [exact (NT (together_sym _ _ _ _ T))|]. exact (before_asym _ (pattern_at_fn _) _ _ B0 B1).
    - intros No. exists ri. split; [rewrite nth_error_app1 by exact Li; exact Ei|]. split; [exact Cv|]. split; [exact Fi|]. split.
      + split; [destruct Re as (P & HP & Pf); exists P; split; [apply pattern_at_app; assumption|exact Pf]|].
        intros j (P & HP & Pf). pose proof (pattern_at_lt _ _ _ HP) as Lj. rewrite app_length in Lj. cbn in Lj. destruct (Nat.eq_dec j (length regs)) as [->|Nj].
        * apply pattern_at_new in HP. subst P. assert (Pi : pattern_at (regs ++ [r]) i (pattern_of (r_route ri))) by (apply pattern_at_app; [exact Li|exists ri; auto]).
          assert (Pn : pattern_at (regs ++ [r]) (length regs) (pattern_of (r_route r))) by (apply pattern_at_new; reflexivity).
          destruct (together_dec (regs ++ [r]) (length path) i (length regs)) as [T|NT]; [left; exact T|].
          destruct (compare (regs ++ [r]) (length path) i (length regs) _ _ Pi Pn) as [T|[H|H]]; [contradiction|right; exact H|]. exfalso. apply No. split; [exact Pf|]. right.
          split; [intros T; apply NT, together_sym, T|exact H].
        * assert (Lj' : j < length regs) by lia. apply (proj1 (pattern_at_app regs r j P Lj')) in HP. destruct (Fr j) as [T|H]; [exists P; auto| |].
          -- left. apply together_app; assumption.
          -- right. apply before_app; assumption.
      + intros j r' Ej T Ln Cj. assert (Lj : j < length (regs ++ [r])) by (apply nth_error_Some; congruence). rewrite app_length in Lj. cbn in Lj. destruct (Nat.eq_dec j (length regs)) as [->|Nj].
        * exfalso. rewrite nth_error_app2, Nat.sub_diag in Ej by lia. cbn in Ej. inversion Ej; subst r'. apply No. split.
          -- destruct T as [Z|(p & P & Q & L & A1 & A2)]; [lia|]. apply (proj1 (pattern_at_app regs r i _ Li)) in A1. apply pattern_at_new in A2.
             destruct A1 as (r1 & E1 & E2). assert (r1 = ri) by congruence. subst r1. exists (map Lit p), Q. split; [auto|].
             rewrite <- E2 in Fi. pose proof (Forall2_length _ _ _ Fi) as L2. rewrite app_length, map_length in L2. destruct P; [|cbn in L2; lia]. rewrite app_nil_r in Fi. exact Fi.
          -- left. split; [apply together_sym, T|]. auto.
        * assert (Lj' : j < length regs) by lia. rewrite nth_error_app1 in Ej by exact Lj'. apply (Mx j r' Ej); auto. apply (together_app regs r); assumption.
  Qed.

  (** ** Routes that can never answer *)
  Lemma general_fits : forall P1 P path, Forall2 (fun g' g => match g' with Par _ => True | Lit _ => g = g' end) P1 P -> fits P path -> fits P1 path.
  Proof.
    induction P1 as [|g' P1 IH]; intros P path H F; inversion H; subst; inversion F; subst; constructor; [|eapply IH; eassumption].
    destruct g'; [subst; assumption|reflexivity].
  Qed.
  (** a path for [P] on which parameters have a value [z] no route mentions *)
  Definition sample (z : bytes) (P : list seg) : list bytes := map (fun g => match g with Lit a => a | Par _ => z end) P.
  Lemma sample_fits z P : fits P (sample z P).
  Proof. induction P as [|[a|n] P IH]; constructor; auto; cbn; apply beq_refl. Qed.
  Lemma sample_general z : forall P P1, (forall a, In (Lit a) P1 -> a <> z) -> fits P1 (sample z P) -> Forall2 (fun g' g => match g' with Par _ => True | Lit _ => g = g' end) P1 P.
  Proof.
    induction P as [|g P IH]; intros P1 N F; inversion F as [|g' x P1' path' Hg F']; subst; constructor.
    - destruct g' as [a|n]; [|exact I]. cbn in Hg. apply beq_eq in Hg. destruct g as [b|n]; [congruence|]. exfalso. apply (N a); [left; reflexivity|exact Hg].
    - apply IH; [intros a Ia; apply N; right; exact Ia|exact F'].
  Qed.
End Top.

Section Taken.
  Lemma before_left (pat : nat -> list seg -> Prop) (fn : forall i P Q, pat i P -> pat i Q -> P = Q) n a i j : together pat n a i -> before pat i j -> together pat n a j \/ before pat a j.
  Proof.
    intros T (k & t & u & T' & O1 & O2 & L). destruct (Nat.le_gt_cases n k) as [H|H].
    - left. apply (together_trans pat fn n a i); [exact T|]. apply (together_less pat n k); assumption.
    - right. assert (Tk : together pat (S k) a i) by (apply (together_less pat _ n); [lia|exact T]). exists k, t, u.
      split; [apply (together_trans pat fn k a i); [apply (together_less pat _ (S k)); [lia|exact Tk]|exact T']|]. split; [|auto]. destruct O1 as [A1 A2]. split.
      + apply (together_trans pat fn _ t i); [exact A1|apply together_sym, Tk].
      + intros v Hv. apply A2. apply (together_trans pat fn _ v a); assumption.
  Qed.
  Lemma before_right (pat : nat -> list seg -> Prop) (fn : forall i P Q, pat i P -> pat i Q -> P = Q) n a i j : before pat a i -> together pat n i j -> together pat n a j \/ before pat a j.
  Proof.
    intros (k & t & u & T' & O1 & O2 & L) T. destruct (Nat.le_gt_cases n k) as [H|H].
    - left. apply (together_trans pat fn n a i); [|exact T]. apply (together_less pat n k); assumption.
    - right. assert (Tk : together pat (S k) i j) by (apply (together_less pat _ n); [lia|exact T]). exists k, t, u.
      split; [apply (together_trans pat fn k a i); [exact T'|apply (together_less pat _ (S k)); [lia|exact Tk]]|]. split; [exact O1|]. split; [|exact L]. destruct O2 as [A1 A2]. split.
      + apply (together_trans pat fn _ u i); [exact A1|exact Tk].
      + intros v Hv. apply A2. apply (together_trans pat fn _ v j); [exact Hv|apply together_sym, Tk].
  Qed.
  Lemma before_trans (pat : nat -> list seg -> Prop) (fn : forall i P Q, pat i P -> pat i Q -> P = Q) i j l : before pat i j -> before pat j l -> before pat i l.
  Proof.
    intros H1 (k' & t' & u' & T' & O1' & O2' & L'). pose proof H1 as (k & t & u & T & O1 & O2 & L). destruct (Nat.lt_trichotomy k k') as [H|[->|H]].
    - assert (Z : together pat (S k) j l) by (apply (together_less pat _ k'); [lia|exact T']). exists k, t, u. split; [apply (together_trans pat fn k i j); [exact T|apply (together_less pat _ (S k)); [lia|exact Z]]|].
      split; [exact O1|]. split; [|exact L]. destruct O2 as [A1 A2]. split; [apply (together_trans pat fn _ u j); assumption|]. intros v Hv. apply A2, (together_trans pat fn _ v l); [exact Hv|apply together_sym, Z].
    - assert (u = t') by (apply (opened_same pat fn (S k') j j); [left; reflexivity|assumption|assumption]). exists k', t, u'. split; [apply (together_trans pat fn k' i j); assumption|]. split; [exact O1|]. split; [exact O2'|lia].
    - assert (Z : together pat (S k') i j) by (apply (together_less pat _ k); [lia|exact T]). exists k', t', u'. split; [apply (together_trans pat fn k' i j); [apply (together_less pat _ (S k')); [lia|exact Z]|exact T']|].
      split; [|auto]. destruct O1' as [A1 A2]. split; [apply (together_trans pat fn _ t' j); [exact A1|apply together_sym, Z]|]. intros v Hv. apply A2, (together_trans pat fn _ v i); assumption.
  Qed.
  Context {HS : Type}.
  Implicit Types (regs : list (reg HS)) (r : reg HS).
  Lemma taken_first regs r m path i : answers regs m path i -> takes_over regs r m path i -> goes_first (pattern_at (regs ++ [r])) path (length regs).
  Proof.
    intros (ri & Ei & Cv & Fi & [Re Fr] & Mx) (Pf & Hto). assert (Li : i < length regs) by (apply nth_error_Some; congruence). split.
    { exists (pattern_of (r_route r)). split; [apply pattern_at_new; reflexivity|exact Pf]. }
    intros j (P & HP & Pj). pose proof (pattern_at_lt _ _ _ HP) as Lj. rewrite app_length in Lj. cbn in Lj. destruct (Nat.eq_dec j (length regs)) as [->|Nj]; [left; left; reflexivity|].
    assert (Lj' : j < length regs) by lia. apply (proj1 (pattern_at_app regs r j P Lj')) in HP.
    assert (Ij : together (pattern_at (regs ++ [r])) (length path) i j \/ before (pattern_at (regs ++ [r])) i j).
    { destruct (Fr j) as [T|H]; [exists P; auto| |]; [left; apply together_app; assumption|right; apply before_app; assumption]. }
    pose proof (pattern_at_fn (regs ++ [r])) as fn. destruct Hto as [(T & _ & _)|(_ & B0)], Ij as [T'|B1].
    - left. apply (together_trans _ fn _ _ i); assumption.
    - apply (before_left _ fn _ _ i); assumption.
    - apply (before_right _ fn _ _ i); assumption.
    - right. apply (before_trans _ fn _ i); assumption.
  Qed.
  (** Once another registration has taken over, it answers or nobody does. *)
  Lemma taken_answers regs r m path i j : answers regs m path i -> takes_over regs r m path i ->
    (answers (regs ++ [r]) m path j <-> j = length regs /\ fits (pattern_of (r_route r)) path /\ covers (r_method r) m = true).
  Proof.
    intros An To. pose proof (taken_first regs r m path i An To) as Gn. pose proof (pattern_at_fn (regs ++ [r])) as fn. split.
    - intros Aj. destruct Aj as (rj & Ej & Cj & Fj & Gj & Mj). assert (Lj : j < length (regs ++ [r])) by (apply nth_error_Some; congruence). rewrite app_length in Lj. cbn in Lj.
      destruct (Nat.eq_dec j (length regs)) as [->|Nj].
      { rewrite nth_error_app2, Nat.sub_diag in Ej by lia. cbn in Ej. inversion Ej; subst rj. auto. }
      exfalso. assert (Lj' : j < length regs) by lia.
      assert (T : together (pattern_at (regs ++ [r])) (length path) (length regs) j).
      { destruct Gn as [Rn Fn], Gj as [Rj Fj']. destruct (Fn j Rj) as [T|B1]; [exact T|]. destruct (Fj' _ Rn) as [T|B2]; [apply together_sym, T|]. exfalso. exact (before_asym _ fn _ _ B1 B2). }
      destruct An as (ri & Ei & Cv & Fi & [Re Fr] & Mx). assert (Li : i < length regs) by (apply nth_error_Some; congruence). destruct To as (Pf & [(Tn & Ln & Cn)|(NT & B0)]).
      + assert (length regs <= j); [|lia]. apply (Mj (length regs) r); [rewrite nth_error_app2, Nat.sub_diag by lia; reflexivity|apply together_sym, T|exact Ln|exact Cn].
      + destruct Gj as [(P & HP & Pj) _]. apply (proj1 (pattern_at_app regs r j P Lj')) in HP.
        assert (Ij : together (pattern_at (regs ++ [r])) (length path) i j \/ before (pattern_at (regs ++ [r])) i j).
        { destruct (Fr j) as [T'|H]; [exists P; auto| |]; [left; apply together_app; assumption|right; apply before_app; assumption]. }
        destruct Ij as [T'|B1]; [apply NT; apply (together_trans _ fn _ _ j); [exact T|apply together_sym, T']|].
        destruct (before_left _ fn (length path) j (length regs) i (together_sym _ _ _ _ T) B0) as [T'|B2].
        * apply NT. apply (together_trans _ fn _ _ j); assumption.
        * exact (before_asym _ fn _ _ B1 B2).
    - intros (-> & F & C). exists r. split; [rewrite nth_error_app2, Nat.sub_diag by lia; reflexivity|]. split; [exact C|]. split; [exact F|]. split; [exact Gn|].
      intros j r' Ej _ _ _. assert (Lj : j < length (regs ++ [r])) by (apply nth_error_Some; congruence). rewrite app_length in Lj. cbn in Lj. lia.
  Qed.
End Taken.
Lemma answers_drop {HS} (regs : list (reg HS)) r m path j : answers (regs ++ [r]) m path j -> j < length regs -> answers regs m path j.
Proof.
  intros (rj & Ej & Cj & Fj & [Rj Gj] & Mj) L. exists rj. rewrite nth_error_app1 in Ej by exact L. split; [exact Ej|]. split; [exact Cj|]. split; [exact Fj|]. split; [split|].
  - exists (pattern_of (r_route rj)). split; [exists rj; auto|]. exists (pattern_of (r_route rj)), []. rewrite app_nil_r. auto.
  - intros k (P & HP & F). pose proof (pattern_at_lt _ _ _ HP) as Lk. destruct (Gj k) as [T|T].
    + exists P. split; [apply pattern_at_app; assumption|exact F].
    + left. apply (together_app regs r); assumption.
    + right. apply (before_app regs r); assumption.
  - intros k rk Ek T Ln Ck. assert (Lk : k < length regs) by (apply nth_error_Some; congruence). apply (Mj k rk); [rewrite nth_error_app1 by exact Lk; exact Ek| |exact Ln|exact Ck].
    apply (together_app regs r); assumption.
Qed.
