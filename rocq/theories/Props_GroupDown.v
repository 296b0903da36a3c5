(** C152: what brings the process down, and what can keep a handler or goroutine waiting. *)
From Verif Require Import Base GoErrors M_Pipeline M_Group S_Group P_Group P_Group2 P_Group3 P_Group4 P_Group5 Props_Group.

(** the process is dead *)
Definition down (y : sys) : Prop := h_crashed (y_sh y) = true.
(** what is next for the request (None) or a goroutine *)
Definition has_next (y : sys) (w : option nat) (q : prog) : Prop :=
  match w with None => y_main y = q | Some i => nth_error (y_gos y) i = Some (Run q) end.
(** it does something *)
Definition does (y : sys) (w : option nat) (e : event) : Prop := exists y', step y y' /\ y_trace y' = (w, e) :: y_trace y.
Definition goes_on (y : sys) (w : option nat) : Prop := exists e, does y w e /\ e <> EShutdown.
(** what each waits for *)
Definition free (tr : log) (w : option nat) (q : prog) : Prop :=
  match q with
  | Await _ => ended_context tr
  | Go _ _ => forall n, limit tr = Some n -> started tr < ended tr + n
  | Wait _ => w = None /\ all_gone tr
  | Ret _ => w <> None                      (* the request itself is over then *)
  | _ => True
  end.
(** a panic that nothing recovers *)
Definition panicked (tr : log) : Prop := happened EPanic tr \/ happened (EMark (MReturn RPanic)) tr.

Lemma down_cons : forall w e tr, panicked ((w, e) :: tr) <-> (e = EPanic \/ e = EMark (MReturn RPanic) \/ panicked tr).
Proof.
  intros w e tr. unfold panicked. rewrite !happened_cons. split.
  - intros [[<-|H]|[<-|H]]; auto.
  - intros [->|[->|[H|H]]]; auto.
Qed.
Lemma crash_pstep : forall idle h q e h' o q', pstep idle h q e h' o q' -> h_crashed h = false ->
  (h_crashed h' = true <-> (e = EPanic \/ e = EMark (MReturn RPanic))).
Proof.
  intros idle h q e h' o q' P Hc. destruct P; cbn [crash set_sem set_group h_crashed]; rewrite ?Hc;
    try (split; [discriminate|intros [K|K]; discriminate]).
  - destruct m as [?|? ?|[?|]]; cbn; rewrite ?Hc; (split; [try discriminate; auto|intros [K|K]; first [discriminate|reflexivity]]).
  - destruct a; cbn; rewrite Hc; (split; [discriminate|intros [K|K]; discriminate]).
  - split; auto.
Qed.
Theorem C152_down_iff : forall s ses path y, reaches s ses path y -> (down y <-> panicked (y_trace y)).
Proof.
  intros s ses path y R. unfold down. induction R as [|y y' R IH St].
  - cbn. unfold panicked, happened. split; [discriminate|]. intros [(w & [])|(w & [])].
  - destruct St; cbn [y_sh y_trace] in IH |- *; rewrite down_cons; rewrite H in IH;
      (assert (Np : ~ panicked tr) by (intros K; apply IH in K; discriminate)).
    + rewrite (crash_pstep _ _ _ _ _ _ _ H0 H). tauto.
    + rewrite (crash_pstep _ _ _ _ _ _ _ H0 H). tauto.
    + assert (h_crashed (record_err e h) = false) as ->.
      { unfold record_err. destruct e; [|exact H]. destruct (h_err h); exact H. }
      split; [discriminate|]. intros [K|[K|K]]; [discriminate|discriminate|destruct (Np K)].
    + cbn. tauto.
    + rewrite H. split; [discriminate|]. intros [K|[K|K]]; [discriminate|discriminate|destruct (Np K)].
    + cbn. rewrite H. split; [discriminate|]. intros [K|[K|K]]; [discriminate|discriminate|destruct (Np K)].
    + cbn. rewrite H. split; [discriminate|]. intros [K|[K|K]]; [discriminate|discriminate|destruct (Np K)].
Qed.
(** it is the last thing that happens *)
Theorem C152_nothing_after : forall s ses path y post w e pre, reaches s ses path y -> y_trace y = post ++ (w, e) :: pre ->
  e = EPanic \/ e = EMark (MReturn RPanic) -> post = [] /\ forall y', ~ step y y'.
Proof.
  intros s ses path y post w e pre R E K.
  assert (Hd : forall y0 y', reaches s ses path y0 -> panicked (y_trace y0) -> ~ step y0 y').
  { intros y0 y' R0 P St. apply (C152_down_iff _ _ _ _ R0) in P. unfold down in P. destruct St; cbn [y_sh] in P; congruence. }
  assert (P : forall tr po, tr = po ++ (w, e) :: pre -> panicked tr).
  { intros tr po ->. destruct K as [->| ->]; [left|right]; exists w; apply in_or_app; right; left; reflexivity. }
  split; [|intros y'; exact (Hd y y' R (P _ _ E))].
  destruct post as [|a post]; [reflexivity|]. exfalso. destruct R as [|y1 y' R1 St]; [discriminate|].
  apply (Hd y1 y' R1); [|exact St]. apply (P _ post). destruct St; cbn [y_trace app] in E |- *; injection E as _ E; exact E.
Qed.

Lemma pstep_free : forall y s ses path p w q, areach s ses path y p -> limits_idle (y_trace y) -> has_next y w q ->
  free (y_trace y) w q -> (forall o, q <> Ret o) ->
  exists e h' o q', pstep (match w with None => forallb (fun g => negb (active g)) (y_gos y) | Some _ => false end) (y_sh y) q e h' o q' /\ e <> EShutdown.
Proof.
  intros y s ses path p w q A L N F Nr.
  pose proof (sem_areach _ _ _ _ _ A L) as Sm. unfold sem_of in Sm. pose proof (books_areach _ _ _ _ _ A) as Bk. pose proof (books_le _ Bk) as Le.
  destruct q as [o|m k|a k|k|k|k|b k|b k|z k|k]; cbn [free] in F.
  - destruct (Nr o eq_refl).
  - do 4 eexists; split; [apply P_mark|discriminate].
  - do 4 eexists; split; [apply P_act|discriminate].
  - do 4 eexists; split; [apply P_look|discriminate].
  - do 4 eexists; split; [apply P_done|discriminate].
  - do 4 eexists; split; [apply P_await|discriminate]. apply (context_areach _ _ _ _ _ A). exact F.
  - destruct (limit (y_trace y)) as [n|] eqn:El.
    + specialize (F n eq_refl). do 4 eexists; split; [eapply P_go_token; [exact Sm|lia]|discriminate].
    + do 4 eexists; split; [apply P_go; exact Sm|discriminate].
  - destruct (limit (y_trace y)) as [n|] eqn:El.
    + destruct (Nat.ltb_spec (started (y_trace y) - ended (y_trace y)) n).
      * do 4 eexists; split; [eapply P_try_token; [exact Sm|assumption]|discriminate].
      * do 4 eexists; split; [eapply P_try_full; [exact Sm|assumption]|discriminate].
    + do 4 eexists; split; [apply P_try; exact Sm|discriminate].
  - destruct (Z.ltb_spec z 0).
    + do 4 eexists; split; [apply P_unlimit; assumption|discriminate].
    + destruct (h_sem (y_sh y)) as [[cap [|n]]|] eqn:Es.
      * do 4 eexists; split; [apply P_limit; [assumption|intros c n E; rewrite Es in E; congruence]|discriminate].
      * do 4 eexists; split; [eapply P_limit_panic; [assumption|exact Es]|discriminate].
      * do 4 eexists; split; [apply P_limit; [assumption|intros c n E; rewrite Es in E; congruence]|discriminate].
  - destruct F as [-> F]. do 4 eexists; split; [apply P_wait|discriminate]. apply idle_bool'. apply all_gone_idle; assumption.
Qed.
Lemma pstep_needs : forall y s ses path p (w : option nat) q idle e h' o q', areach s ses path y p -> limits_idle (y_trace y) ->
  pstep idle (y_sh y) q e h' o q' ->
  (idle = true -> w = None /\ forallb (fun g => negb (active g)) (y_gos y) = true) -> free (y_trace y) w q.
Proof.
  intros y s ses path p w q idle e h' o q' A L P Hi.
  pose proof (sem_areach _ _ _ _ _ A L) as Sm. unfold sem_of in Sm. pose proof (books_areach _ _ _ _ _ A) as Bk. pose proof (books_le _ Bk) as Le.
  pose proof (context_areach _ _ _ _ _ A) as C. unfold context_ok in C.
  remember (y_sh y) as h eqn:Eh. destruct P; cbn [free]; try exact I.
  - unfold ended_context. apply C. assumption.
  - intros n E. rewrite E in Sm. congruence.
  - intros c E. rewrite E in Sm. rewrite H in Sm. injection Sm as -> ->. lia.
  - destruct (Hi H) as [-> F]. split; [reflexivity|]. apply idle_all_gone; [exact Bk|]. apply idle_bool. exact F.
Qed.
(** A handler or a goroutine waits exactly for: Ctx(), if it waits for it; the number of active
    goroutines to be below the limit, if it calls EGGo; all goroutines, if a handler calls
    EGWait; for ever, if a goroutine does.  Nothing else ever waits. *)
Theorem C152_waits_exactly : forall s ses path y w q, user_request s ses -> reaches s ses path y -> ~ down y ->
  limits_idle (y_trace y) -> has_next y w q -> (goes_on y w <-> free (y_trace y) w q).
Proof.
  intros s ses path y w q U R Nd L N. assert (Hc : h_crashed (y_sh y) = false) by (unfold down in Nd; destruct (h_crashed (y_sh y)); congruence).
  destruct (reaches_at _ _ _ U y R) as (p & A & _). split.
  - intros (e & (y' & St & E) & Ne). destruct St as [h m gs tr e1 h' o p' _ P|h m g1 q1 g2 tr e1 h' o q' _ P|h m g1 g2 tr e1 _|h m g1 g2 tr _|h m g1 g2 tr _ Hs|h m g1 g2 tr cap n _ Hs|h m gs tr _ Hs];
      cbn [y_trace] in E; inversion E; subst; clear E.
    + cbn [has_next y_main] in N. subst m. eapply pstep_needs; [exact A|exact L|exact P|]. cbn. auto.
    + cbn [has_next y_gos] in N. rewrite nth_error_app2, Nat.sub_diag in N by lia. injection N as ->.
      eapply pstep_needs; [exact A|exact L|exact P|]. discriminate.
    + cbn [has_next y_gos] in N. rewrite nth_error_app2, Nat.sub_diag in N by lia. injection N as <-. discriminate.
    + cbn [has_next y_gos] in N. rewrite nth_error_app2, Nat.sub_diag in N by lia. injection N as <-. discriminate.
    + cbn [has_next y_gos] in N. rewrite nth_error_app2, Nat.sub_diag in N by lia. discriminate.
    + cbn [has_next y_gos] in N. rewrite nth_error_app2, Nat.sub_diag in N by lia. discriminate.
    + congruence.
  - intros F. destruct q as [o| | | | | | | | |] eqn:Eq; [|
      (destruct (pstep_free _ _ _ _ _ _ _ A L N F) as (e & h' & o & q' & P & Ne); [discriminate|exists e; split; [|exact Ne]];
       destruct y as [hh mm gs tr]; cbn [y_sh y_gos y_trace] in *; destruct w as [i|]; cbn [has_next y_gos y_main] in N;
       [apply nth_error_split in N; destruct N as (g1 & g2 & -> & <-); eexists; split; [eapply S_go; [exact Hc|exact P]|reflexivity]
       |subst mm; eexists; split; [eapply S_main; [exact Hc|exact P]|reflexivity]])..].
    cbn [free] in F. destruct w as [i|]; [|congruence]. destruct y as [h m gs tr]. cbn [has_next y_gos y_sh] in N, Hc.
    apply nth_error_split in N. destruct N as (g1 & g2 & -> & <-). destruct o as [x|].
    + exists (EReturned x). split; [|discriminate]. eexists. split; [apply S_returned; exact Hc|reflexivity].
    + exists EPanic. split; [|discriminate]. eexists. split; [apply S_panic; exact Hc|reflexivity].
Qed.
(** The process is brought down - other than by the panic of a handler - exactly by a goroutine
    whose function panics, and by a limit set, over another one, while goroutines are active. *)
Theorem C152_panics_exactly : forall s ses path y w q, user_request s ses -> reaches s ses path y -> ~ down y ->
  limits_idle (y_trace y) -> has_next y w q ->
  (does y w EPanic <->
   (w <> None /\ q = Ret HPanic) \/
   (exists z k n, q = Limit z k /\ (0 <= z)%Z /\ limit (y_trace y) = Some n /\ ended (y_trace y) < started (y_trace y))).
Proof.
  intros s ses path y w q U R Nd L N. assert (Hc : h_crashed (y_sh y) = false) by (unfold down in Nd; destruct (h_crashed (y_sh y)); congruence).
  destruct (reaches_at _ _ _ U y R) as (p & A & _).
  pose proof (sem_areach _ _ _ _ _ A L) as Sm. unfold sem_of in Sm. split.
  - intros (y' & St & E). destruct St as [h m gs tr e1 h' o p' _ P|h m g1 q1 g2 tr e1 h' o q' _ P|h m g1 g2 tr e1 _|h m g1 g2 tr _|h m g1 g2 tr _ Hs|h m g1 g2 tr cap n _ Hs|h m gs tr _ Hs];
      cbn [y_trace] in E; inversion E; subst; clear E; cbn [has_next y_main y_gos y_sh y_trace] in *.
    + right. inversion P as [| | | | | | | | | | | |h0 z k cap n Hz Hs|]; subst. exists z. eexists. rewrite Hs in Sm.
      destruct (limit tr) as [l|]; [|discriminate]. exists l. injection Sm as -> Sm. split; [reflexivity|]. split; [assumption|]. split; [reflexivity|lia].
    + right. rewrite nth_error_app2, Nat.sub_diag in N by lia. injection N as ->.
      inversion P as [| | | | | | | | | | | |h0 z k cap n Hz Hs|]; subst. exists z. eexists. rewrite Hs in Sm.
      destruct (limit tr) as [l|]; [|discriminate]. exists l. injection Sm as -> Sm. split; [reflexivity|]. split; [assumption|]. split; [reflexivity|lia].
    + left. rewrite nth_error_app2, Nat.sub_diag in N by lia. injection N as <-. split; [discriminate|reflexivity].
  - intros [[Nw ->]|(z & k & n & -> & Hz & El & Lt)]; destruct y as [h m gs tr]; unfold has_next in N; cbn [y_sh y_trace] in Hc, Sm.
    + destruct w as [i|]; [|congruence]. cbn [y_gos] in N. apply nth_error_split in N. destruct N as (g1 & g2 & -> & <-).
      eexists. split; [apply S_panic; exact Hc|reflexivity].
    + cbn [y_trace] in El, Lt. rewrite El in Sm. destruct (started tr - ended tr) as [|c] eqn:Ec; [lia|]. destruct w as [i|].
      * cbn [y_gos] in N. apply nth_error_split in N. destruct N as (g1 & g2 & -> & <-).
        eexists. split; [eapply S_go; [exact Hc|eapply P_limit_panic; eassumption]|reflexivity].
      * cbn [y_main] in N. subst m. eexists. split; [eapply S_main; [exact Hc|eapply P_limit_panic; eassumption]|reflexivity].
Qed.
(** a handler that starts one goroutine under a limit of one, and then another: it waits; and
    one that sets a limit instead: the process goes down *)
Definition second : gset := set_of ok (Limit 1 (Go (Await ok) (Go ok ok))) None.
Definition again : gset := set_of ok (Limit 1 (Go (Await ok) (Limit 2 ok))) None.
Example C152_example :
  (exists y q, reaches second None [] y /\ has_next y None q /\ ~ down y /\ limits_idle (y_trace y) /\ ~ goes_on y None) /\
  (exists y q, reaches again None [] y /\ has_next y None q /\ ~ down y /\ limits_idle (y_trace y) /\ does y None EPanic).
Proof.
  assert (U1 : user_request second None) by (apply user_set; cbn; auto; discriminate).
  assert (U2 : user_request again None) by (apply user_set; cbn; auto; discriminate).
  split.
  - eexists _, _. match goal with |- ?A /\ ?B /\ _ => assert (RN : A /\ B) end.
    { split; [unfold reaches, second; lazy; do 6 main; apply reach_start|reflexivity]. }
    destruct RN as [R N]. split; [exact R|]. split; [exact N|].
    match goal with |- ?C /\ ?D /\ _ => assert (Nd : C) by (unfold down; cbn; discriminate); assert (L : D) end.
    { cbn [y_trace]. intros post w z pre E. repeat (destruct post as [|? post]; [first [discriminate E|inversion E; reflexivity]|injection E as _ E]). destruct post; discriminate. }
    split; [exact Nd|]. split; [exact L|]. intros K. apply (C152_waits_exactly _ _ _ _ _ _ U1 R Nd L N) in K. cbn in K. specialize (K 1 eq_refl). lia.
  - eexists _, _. match goal with |- ?A /\ ?B /\ _ => assert (RN : A /\ B) end.
    { split; [unfold reaches, again; lazy; do 6 main; apply reach_start|reflexivity]. }
    destruct RN as [R N]. split; [exact R|]. split; [exact N|].
    match goal with |- ?C /\ ?D /\ _ => assert (Nd : C) by (unfold down; cbn; discriminate); assert (L : D) end.
    { cbn [y_trace]. intros post w z pre E. repeat (destruct post as [|? post]; [first [discriminate E|inversion E; reflexivity]|injection E as _ E]). destruct post; discriminate. }
    split; [exact Nd|]. split; [exact L|]. apply (C152_panics_exactly _ _ _ _ _ _ U2 R Nd L N).
    right. do 3 eexists. split; [reflexivity|]. split; [lia|]. split; [reflexivity|]. cbn. lia.
Qed.
Print Assumptions C152_down_iff.
Print Assumptions C152_nothing_after.
Print Assumptions C152_waits_exactly.
Print Assumptions C152_panics_exactly.
