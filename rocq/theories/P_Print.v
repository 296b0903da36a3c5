(** Proofs about the text of a routing table. *)
From Verif Require Import Base GoStrings M_Tree M_Print S_Print P_TreeFind.
From Coq Require Import Permutation.

(** ** cutting *)
Lemma cut_char (c : ascii) : forall a b x y, ~ In c a -> ~ In c b -> a ++ c :: x = b ++ c :: y -> a = b /\ x = y.
Proof.
  induction a as [|u a IH]; intros [|v b] x y Na Nb E.
  - injection E as ->. auto.
  - injection E as -> _. exfalso. apply Nb. left. reflexivity.
  - injection E as <- _. exfalso. apply Na. left. reflexivity.
  - injection E as <- E. destruct (IH b x y) as [-> ->]; [intros X; apply Na; right; exact X|intros X; apply Nb; right; exact X|exact E|auto].
Qed.
Lemma cut_lines (c : ascii) : forall ls ls' : list bytes,
  Forall (fun l => exists b, l = b ++ [c] /\ ~ In c b) ls -> Forall (fun l => exists b, l = b ++ [c] /\ ~ In c b) ls' -> concat ls = concat ls' -> ls = ls'.
Proof.
  induction ls as [|l ls IH]; intros [|l' ls'] F F' E.
  - reflexivity.
  - inversion F' as [|? ? (b & -> & _) _]; subst. exfalso. cbn [concat] in E. destruct b; discriminate E.
  - inversion F as [|? ? (b & -> & _) _]; subst. exfalso. cbn [concat] in E. destruct b; discriminate E.
  - inversion F as [|? ? (b & -> & Nb) F1]; subst. inversion F' as [|? ? (b' & -> & Nb') F1']; subst. cbn [concat] in E.
    rewrite <- !app_assoc in E. apply (cut_char c b b' (concat ls) (concat ls') Nb Nb') in E as [-> E]. f_equal. apply IH; assumption.
Qed.
Lemma cut_tabs d : forall d' (x y : bytes), repeat (ch 9) d ++ "P"%char :: x = repeat (ch 9) d' ++ "P"%char :: y -> d = d' /\ x = y.
Proof.
  induction d as [|d IH]; intros [|d'] x y E; cbn [repeat app] in E.
  - injection E as ->. auto.
  - discriminate E.
  - discriminate E.
  - injection E as E. destruct (IH d' x y E) as [-> ->]. auto.
Qed.

Section Text.
  Context {HS : Type}.
  Variable id_of : HS -> bytes.
  Notation shown x := (B"/" ++ fst x ++ B"[" ++ id_of (snd x) ++ B"]").
  Notation ids := (map (fun x : bytes * HS => (fst x, id_of (snd x)))).
  Definition clean_set (x : bytes * HS) : Prop :=
    ~ In (ch 10) (fst x) /\ ~ In "["%char (fst x) /\ ~ In (ch 10) (id_of (snd x)) /\ ~ In "]"%char (id_of (snd x)).

  Lemma cut_sets : forall hs hs', Forall clean_set hs -> Forall clean_set hs' ->
    concat (map (fun x => shown x) hs) ++ [ch 10] = concat (map (fun x => shown x) hs') ++ [ch 10] -> ids hs = ids hs'.
  Proof.
    induction hs as [|[m s] hs IH]; intros [|[m' s'] hs'] F F' E.
    - reflexivity.
    - discriminate E.
    - discriminate E.
    - inversion F as [|? ? (_ & N1 & _ & N2) F1]; subst. inversion F' as [|? ? (_ & N1' & _ & N2') F1']; subst. cbn [fst snd] in *.
      cbn [map concat fst snd] in E |- *. rewrite <- !app_assoc in E. change (B"/" ++ ?x) with ("/"%char :: x) in E. injection E as E.
      apply (cut_char "["%char m m' _ _ N1 N1') in E as [-> E]. apply (cut_char "]"%char (id_of s) (id_of s') _ _ N2 N2') in E as [-> E].
      f_equal. apply IH; assumption.
  Qed.
  Lemma sets_clean n hs : clean_node id_of n -> sets_of n hs -> Forall clean_set hs.
  Proof.
    intros (_ & _ & _ & _ & C) P. apply Forall_forall. intros [m s] H. apply (C m s). eapply Permutation_in; [exact P|].
    apply in_map_iff. exists (m, s). auto.
  Qed.
  Lemma line_shape e x : clean_node id_of (snd e) -> line_of id_of e x -> exists b, x = b ++ [ch 10] /\ ~ In (ch 10) b.
  Proof.
    intros Cn (hs & P & ->). pose proof (sets_clean _ _ Cn P) as Ch. destruct Cn as (C1 & _ & C2 & _).
    exists (repeat (ch 9) (fst e) ++ B"Path: " ++ n_path (snd e) ++ B", UrlId: " ++ n_urlid (snd e) ++ B" => " ++ concat (map (fun x => shown x) hs)).
    split; [rewrite <- !app_assoc; reflexivity|]. intros H. apply in_app_or in H as [H|H]; [apply repeat_spec in H; discriminate H|].
    apply in_app_or in H as [H|H]; [vm_compute in H; intuition discriminate|]. apply in_app_or in H as [H|H]; [exact (C1 H)|].
    apply in_app_or in H as [H|H]; [vm_compute in H; intuition discriminate|]. apply in_app_or in H as [H|H]; [exact (C2 H)|].
    apply in_app_or in H as [H|H]; [vm_compute in H; intuition discriminate|].
    apply in_concat in H as (y & Hy & H). apply in_map_iff in Hy as (z & <- & Hz). rewrite Forall_forall in Ch. destruct (Ch z Hz) as (D1 & _ & D2 & _).
    apply in_app_or in H as [H|H]; [vm_compute in H; intuition discriminate|]. apply in_app_or in H as [H|H]; [exact (D1 H)|].
    apply in_app_or in H as [H|H]; [vm_compute in H; intuition discriminate|]. apply in_app_or in H as [H|H]; [exact (D2 H)|].
    vm_compute in H; intuition discriminate.
  Qed.
  (** what two entries with the same line have in common *)
  Definition match_ (e e' : nat * node HS) : Prop :=
    fst e = fst e' /\ n_path (snd e) = n_path (snd e') /\ n_urlid (snd e) = n_urlid (snd e') /\
    Permutation (map (fun x => (fst x, option_map id_of (snd x))) (n_handlers (snd e))) (map (fun x => (fst x, option_map id_of (snd x))) (n_handlers (snd e'))).
  Lemma line_cut e e' x : clean_node id_of (snd e) -> clean_node id_of (snd e') -> line_of id_of e x -> line_of id_of e' x -> match_ e e'.
  Proof.
    intros C C' (hs & P & E) (hs' & P' & E'). pose proof (sets_clean _ _ C P) as Ch. pose proof (sets_clean _ _ C' P') as Ch'.
    destruct C as (_ & C1 & _ & C2 & _). destruct C' as (_ & C1' & _ & C2' & _). rewrite E in E'. clear E x.
    change (B"Path: " ++ ?x) with ("P"%char :: (B"ath: " ++ x)) in E'. apply cut_tabs in E' as [Ed E'].
    apply app_inv_head in E'. apply (cut_char ","%char) in E' as [Ep E']; [|exact C1|exact C1'].
    assert (E2 : B" UrlId: " ++ (n_urlid (snd e) ++ B" ") ++ "="%char :: (B"> " ++ concat (map (fun x => shown x) hs) ++ [ch 10]) =
                 B" UrlId: " ++ (n_urlid (snd e') ++ B" ") ++ "="%char :: (B"> " ++ concat (map (fun x => shown x) hs') ++ [ch 10])).
    { rewrite <- !app_assoc. exact E'. }
    apply app_inv_head in E2. apply (cut_char "="%char) in E2 as [Eu E2];
      [|intros H; apply in_app_or in H as [H|H]; [exact (C2 H)|vm_compute in H; intuition discriminate]
       |intros H; apply in_app_or in H as [H|H]; [exact (C2' H)|vm_compute in H; intuition discriminate]].
    apply app_inv_tail in Eu. apply app_inv_head in E2. apply (cut_sets hs hs' Ch Ch') in E2.
    split; [exact Ed|]. split; [exact Ep|]. split; [exact Eu|].
    assert (Q : forall n l, sets_of n l -> Permutation (map (fun x => (fst x, Some (snd x))) (ids l)) (map (fun x => (fst x, option_map id_of (snd x))) (n_handlers n))).
    { intros n l H. unfold sets_of in H. rewrite <- H. rewrite !map_map. reflexivity. }
    rewrite <- (Q _ _ P), <- (Q _ _ P'), E2. reflexivity.
  Qed.

  (** ** from the list of nodes to the tree *)
  Definition shallow (d : nat) (l : list (nat * node HS)) : Prop := match l with [] => True | e :: _ => fst e <= d end.
  Lemma preorder_head d (n : node HS) : exists l, preorder d n = (d, n) :: l.
  Proof. destruct n. eexists. reflexivity. Qed.
  Lemma preorder_eq d (n : node HS) : preorder d n = (d, n) :: flat_map (preorder (S d)) (n_children n).
  Proof. destruct n. reflexivity. Qed.
  Lemma rebuild : forall (t t' : node HS) d r r', shallow d r -> shallow d r' ->
    Forall2 match_ (preorder d t ++ r) (preorder d t' ++ r') -> alike id_of t t' /\ Forall2 match_ r r'.
  Proof.
    induction t as [cs p u h IH] using node_ind'. intros t' d r r' Sr Sr' F. rewrite !preorder_eq in F. cbn [app n_children] in F.
    inversion F as [|? ? ? ? (_ & Ep & Eu & Pm) F1]; subst. cbn [snd] in Ep, Eu, Pm. cbn [n_children] in F1.
    assert (X : Forall2 (alike id_of) cs (n_children t') /\ Forall2 match_ r r').
    { clear F Ep Eu Pm. revert F1. generalize (n_children t'). clear t'. induction IH as [|c cs Hc _ IHcs]; intros [|c' cs'] F1.
      - split; [constructor|exact F1].
      - cbn [flat_map app] in F1. rewrite preorder_eq in F1. cbn [app] in F1. inversion F1 as [|e ? ? ? (D & _) _]; subst. cbn [fst] in D. cbn [shallow] in Sr. lia.
      - cbn [flat_map app] in F1. rewrite preorder_eq in F1. cbn [app] in F1. inversion F1 as [|? e ? ? (D & _) _]; subst. cbn [fst] in D. cbn [shallow] in Sr'. lia.
      - cbn [flat_map] in F1. rewrite <- !app_assoc in F1.
        assert (Sh : forall l x, shallow d x -> shallow (S d) (flat_map (preorder (S d)) l ++ x)).
        { intros [|y l] x Hx; cbn [flat_map app]; [destruct x; [exact I|cbn [shallow] in *; lia]|]. rewrite preorder_eq. cbn [app shallow fst]. lia. }
        apply Hc in F1 as [A F1]; [|apply Sh; exact Sr|apply Sh; exact Sr'].
        apply IHcs in F1 as [A2 F1]. split; [constructor; assumption|exact F1]. }
    destruct X as [X1 X2]. split; [|exact X2]. constructor; [exact Ep|exact Eu|exact Pm|exact X1].
  Qed.
  Lemma Forall2_common {A C} (P Q : A -> C -> Prop) (R : A -> A -> Prop) (T : A -> Prop) : (forall a b x, T a -> T b -> P a x -> P b x -> R a b) ->
    forall l l' xs, Forall T l -> Forall T l' -> Forall2 P l xs -> Forall2 P l' xs -> Forall2 R l l'.
  Proof.
    intros H l l' xs Tl Tl' F. revert l' Tl'. induction F as [|a x l xs Pa F IH]; intros l' Tl' F'.
    - inversion F'; subst. constructor.
    - inversion F' as [|b ? l1 ? Pb F1]; subst. inversion Tl; subst. inversion Tl'; subst. constructor; [eapply H; eassumption|apply IH; assumption].
  Qed.
  Lemma clean_all t : clean id_of t -> Forall (fun e => clean_node id_of (snd e)) (preorder 0 t).
  Proof. intros C. apply Forall_forall. intros [d n] H. exact (C d n H). Qed.
  Lemma lines_shape es xs : Forall (fun e => clean_node id_of (snd e)) es -> Forall2 (line_of id_of) es xs ->
    Forall (fun l => exists b, l = b ++ [ch 10] /\ ~ In (ch 10) b) xs.
  Proof. intros C F. induction F; inversion C; subst; constructor; [eapply line_shape; eassumption|auto]. Qed.
  Theorem unambiguous t t' x : clean id_of t -> clean id_of t' -> shows id_of t x -> shows id_of t' x -> alike id_of t t'.
  Proof.
    intros C C' (ls & F & E) (ls' & F' & E'). apply clean_all in C. apply clean_all in C'.
    assert (ls = ls') as <- by (apply (cut_lines (ch 10)); [exact (lines_shape _ _ C F)|exact (lines_shape _ _ C' F')|congruence]).
    assert (M : Forall2 match_ (preorder 0 t) (preorder 0 t')).
    { eapply (Forall2_common (line_of id_of) (line_of id_of)); [|exact C|exact C'|exact F|exact F']. intros a b y Ca Cb. apply line_cut; assumption. }
    apply (rebuild t t' 0 [] []); [exact I|exact I|]. rewrite !app_nil_r. exact M.
  Qed.

  (** ** what is printed *)
  Variable order : list nat -> @hmap HS -> @hmap HS.
  Hypothesis order_ok : forall pos h, Permutation (order pos h) h.
  Lemma handlers_text h : match print_handlers id_of h with
    | Ok t => exists hs, map (fun x => (fst x, Some (snd x))) hs = h /\ t = concat (map (fun x => shown x) hs)
    | Panic => exists m, In (m, None) h
    end.
  Proof.
    induction h as [|[m [s|]] h IH]; cbn [print_handlers].
    - exists []. auto.
    - destruct (print_handlers id_of h) as [t|].
      + destruct IH as (hs & <- & ->). exists ((m, s) :: hs). split; [reflexivity|]. cbn [map concat fst snd]. rewrite <- !app_assoc. reflexivity.
      + destruct IH as [m' H]. exists m'. right. exact H.
    - exists m. left. reflexivity.
  Qed.
  Lemma nones hs (h : @hmap HS) m : map (fun x => (fst x, Some (snd x))) hs = h -> ~ In (m, None) h.
  Proof. intros <- H. apply in_map_iff in H as (x & E & _). discriminate E. Qed.
  Lemma print_text : forall n d pos, match print id_of order (repeat (ch 9) d) pos n with
    | Ok t => (exists ls, Forall2 (line_of id_of) (preorder d n) ls /\ t = concat ls) /\
              forall e m, In e (preorder d n) -> ~ In (m, None) (n_handlers (snd e))
    | Panic => exists e m, In e (preorder d n) /\ In (m, None) (n_handlers (snd e))
    end.
  Proof.
    induction n as [cs p u h IH] using node_ind'. intros d pos. cbn [print].
    pose proof (handlers_text (order pos h)) as H. destruct (print_handlers id_of (order pos h)) as [hs|].
    2:{ destruct H as [m H]. exists (d, Node cs p u h), m. split; [left; reflexivity|]. cbn [snd n_handlers]. eapply Permutation_in; [apply order_ok|exact H]. }
    destruct H as (l & El & ->). cbv zeta. replace (repeat (ch 9) d ++ [ch 9]) with (repeat (ch 9) (S d)) by exact (repeat_cons d (ch 9)).
    match goal with |- context [?f 0 cs] => set (go := f) end.
    assert (X : forall i, match go i cs with
      | Ok t => (exists ls, Forall2 (line_of id_of) (flat_map (preorder (S d)) cs) ls /\ t = concat ls) /\
                forall e m, In e (flat_map (preorder (S d)) cs) -> ~ In (m, None) (n_handlers (snd e))
      | Panic => exists e m, In e (flat_map (preorder (S d)) cs) /\ In (m, None) (n_handlers (snd e))
      end).
    { induction IH as [|c cs Hc _ IHcs]; intros i; cbn [go flat_map].
      - split; [exists []; split; [constructor|reflexivity]|intros e m []].
      - specialize (Hc (S d) (pos ++ [i])). change (repeat (ch 9) (S d)) with (ch 9 :: repeat (ch 9) d) in *.
        destruct (print id_of order (ch 9 :: repeat (ch 9) d) (pos ++ [i]) c) as [t|].
        + destruct Hc as [(ls & F & ->) N]. specialize (IHcs (S i)). destruct (go (S i) cs) as [t'|].
          * destruct IHcs as [(ls' & F' & ->) N']. split.
            -- exists (ls ++ ls'). split; [apply Forall2_app; assumption|rewrite concat_app; reflexivity].
            -- intros e m H. apply in_app_or in H as [H|H]; [exact (N e m H)|exact (N' e m H)].
          * destruct IHcs as (e & m & H & Hm). exists e, m. split; [apply in_or_app; right; exact H|exact Hm].
        + destruct Hc as (e & m & H & Hm). exists e, m. split; [apply in_or_app; left; exact H|exact Hm]. }
    specialize (X 0). destruct (go 0 cs) as [t|].
    - destruct X as [(ls & F & ->) N]. split.
      + eexists (_ :: ls). split.
        * cbn [preorder]. constructor; [|exact F]. exists l. split; [|reflexivity]. unfold sets_of. rewrite El. apply order_ok.
        * cbn [concat fst snd n_path n_urlid]. rewrite <- !app_assoc. reflexivity.
      + intros e m [<-|H]; [|exact (N e m H)]. cbn [snd n_handlers]. intros Hm. apply (nones l _ m El).
        eapply Permutation_in; [symmetry; apply order_ok|exact Hm].
    - destruct X as (e & m & H & Hm). exists e, m. split; [right; exact H|exact Hm].
  Qed.
End Text.

(** ** every such text is possible *)
Lemma reorder {A} (l l' : list A) : Permutation l l' -> exists g : list A -> list A, (forall h, Permutation (g h) h) /\ g l = l'.
Proof.
  induction 1 as [|x l l' _ (g & G & E)|x y l|l l' l'' _ (g & G & E) _ (g' & G' & E')].
  - exists (fun h => h). split; reflexivity.
  - exists (fun h => match h with [] => [] | y :: r => y :: g r end). split; [|rewrite E; reflexivity]. intros [|y r]; [constructor|constructor; apply G].
  - exists (fun h => match h with a :: b :: r => b :: a :: r | _ => h end). split; [|reflexivity]. intros [|a [|b r]]; [constructor|reflexivity|apply perm_swap].
  - exists (fun h => g' (g h)). split; [|rewrite E, E'; reflexivity]. intros h. rewrite G'. apply G.
Qed.
Section Possible.
  Context {HS : Type}.
  Variable id_of : HS -> bytes.
  Notation ord := (list nat -> @hmap HS -> @hmap HS).
  Notation shown x := (B"/" ++ fst x ++ B"[" ++ id_of (snd x) ++ B"]").
  Lemma handlers_shown hs : print_handlers id_of (map (fun x => (fst x, Some (snd x))) hs) = Ok (concat (map (fun x => shown x) hs)).
  Proof. induction hs as [|[m s] hs IH]; [reflexivity|]. cbn [map print_handlers fst snd concat]. rewrite IH, <- !app_assoc. reflexivity. Qed.
  Lemma possible_node : forall n d ls, Forall2 (line_of id_of) (preorder d n) ls ->
    exists o : ord, (forall pos h, Permutation (o pos h) h) /\
      forall (big : ord) pos0, (forall pos h, big (pos0 ++ pos) h = o pos h) -> print id_of big (repeat (ch 9) d) pos0 n = Ok (concat ls).
  Proof.
    induction n as [cs p u h IH] using node_ind'. intros d ls F. cbn [preorder] in F. inversion F as [|? x ? xs (hs & P & ->) F1]; subst. clear F.
    unfold sets_of in P. cbn [fst snd n_handlers n_path n_urlid] in P |- *. apply Permutation_sym in P. destruct (reorder _ _ P) as (g & G & Eg).
    assert (X : exists os : list ord, Forall (fun o => forall pos h, Permutation (o pos h) h) os /\
      forall (big : ord) pos0 i, (forall k pos h, big (pos0 ++ (i + k) :: pos) h = nth k os (fun _ h => h) pos h) ->
        (fix go (i : nat) (cs : list (node HS)) : res bytes :=
                     match cs with
                     | [] => Ok []
                     | c :: cs' =>
                         match print id_of big (repeat (ch 9) (S d)) (pos0 ++ [i]) c with
                         | Panic => Panic
                         | Ok t => match go (S i) cs' with Ok t' => Ok (t ++ t') | Panic => Panic end
                         end
                     end) i cs = Ok (concat xs)).
    { clear P Eg G g h hs. revert xs F1. induction IH as [|c cs Hc _ IHcs]; intros xs F1.
      - inversion F1; subst. exists []. split; [constructor|]. intros big pos0 i _. reflexivity.
      - cbn [flat_map] in F1. apply Forall2_app_inv_l in F1 as (l1 & l2 & Fc & Fcs & ->). destruct (Hc _ _ Fc) as (o & Po & Eo).
        destruct (IHcs _ Fcs) as (os & Pos & Eos). exists (o :: os). split; [constructor; assumption|]. intros big pos0 i Hb.
        rewrite (Eo big (pos0 ++ [i])).
        2:{ intros pos h. rewrite <- app_assoc. specialize (Hb 0 pos h). rewrite Nat.add_0_r in Hb. exact Hb. }
        rewrite (Eos big pos0 (S i)); [rewrite concat_app; reflexivity|]. intros k pos h. specialize (Hb (S k) pos h). rewrite Nat.add_succ_r in Hb. exact Hb. }
    destruct X as (os & Pos & Eos).
    exists (fun pos h => match pos with [] => g h | i :: pos' => nth i os (fun _ h => h) pos' h end). split.
    - intros [|i pos] h'; [apply G|]. destruct (nth_in_or_default i os (fun _ h => h)) as [H| ->]; [|reflexivity]. rewrite Forall_forall in Pos. exact (Pos _ H pos h').
    - intros big pos0 Hb. cbn [print]. specialize (Hb [] h) as H0. rewrite app_nil_r in H0. rewrite H0, Eg, handlers_shown. cbv zeta.
      replace (repeat (ch 9) d ++ [ch 9]) with (repeat (ch 9) (S d)) by exact (repeat_cons d (ch 9)).
      rewrite (Eos big pos0 0); [|intros k pos h'; exact (Hb (k :: pos) h')]. cbn [concat]. rewrite <- !app_assoc. reflexivity.
  Qed.
End Possible.
