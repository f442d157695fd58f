From Coq Require Import List Bool Arith Lia.
From Verif Require Import SessionModel SessionSpec.
Import ListNotations.

Definition quiet (e : event) : Prop := e <> ECreate /\ e <> EClose /\ ~ goodbye e.

Definition Live (s : state) (w : world) : Prop :=
  w_state w = s /\ w_open w = true /\ exists l, w_log w = ECreate :: l /\ Forall quiet l.

Definition Dead (m : msg) (w : world) : Prop :=
  w_state w = CLOSED /\ w_open w = false /\ closed_once (w_log w) /\ ended_by m (w_log w).

Section Proofs.
Variable sys : nat -> option exc.

Lemma call_same r w w' : call sys w = (r, w') ->
  w_open w' = w_open w /\ w_log w' = w_log w /\ w_state w' = w_state w /\ w_counter w' = w_counter w /\
  w_call w' = S (w_call w) /\ r = match sys (w_call w) with None => inl tt | Some e => inr e end.
Proof. unfold call. destruct (sys (w_call w)); intros [= <- <-]; auto 10. Qed.

Lemma sock_call_same r w w' : sock_call sys w = (r, w') ->
  w_open w' = w_open w /\ w_log w' = w_log w /\ w_state w' = w_state w /\
  (w_call w <= w_call w') /\ (calm sys -> r = inl tt \/ r = inr XSocket) /\ (sys (w_call w) = None -> r = inl tt).
Proof.
  unfold sock_call. destruct (call sys w) as [x w1] eqn:C. apply call_same in C as (A & B & D & _ & F & R).
  intros E. assert (X : w' = w1) by (destruct x as [|[]]; injection E; auto). subst w1.
  split; auto. split; auto. split; auto. split; [lia|]. split.
  - intros K. specialize (K (w_call w)). destruct (sys (w_call w)) as [e|]; subst x; [destruct e|]; injection E as <-; auto. congruence.
  - intros N. rewrite N in R. subst x. injection E as <-. auto.
Qed.

Lemma send_live s n r w w' : send sys (MData n) w = (r, w') -> Live s w -> Live s w'.
Proof.
  intros E (A & B & l & C & D). unfold send in E. rewrite B in E.
  destruct (call sys w) as [x w1] eqn:K. apply call_same in K as (K1 & K2 & K3 & _).
  assert (X : exists ok, w_open w' = w_open w1 /\ w_log w' = w_log w1 ++ [ESend (MData n) ok] /\ w_state w' = w_state w1).
  { destruct x; cbn in E; injection E as <- <-; eexists; repeat split. }
  destruct X as (ok & X1 & X2 & X3). split; [congruence|]. split; [congruence|].
  exists (l ++ [ESend (MData n) ok]). split; [rewrite X2, K2, C; auto|].
  apply Forall_app. split; auto. constructor; [|constructor]. split; [discriminate|]. split; [discriminate|]. intros [].
Qed.

Lemma recv_live s r w w' : recv sys w = (r, w') -> Live s w -> Live s w'.
Proof.
  intros E (A & B & l & C & D). unfold recv in E. rewrite B in E. apply call_same in E as (K1 & K2 & K3 & _).
  split; [congruence|]. split; [congruence|]. exists l. rewrite K2. auto.
Qed.

Lemma run_live s : forall l r w w', run sys l w = (r, w') -> Live s w -> Live s w'.
Proof.
  induction l as [|[n|] l IH]; intros r w w' E L; cbn [run] in E.
  - injection E as <- <-. auto.
  - unfold bind in E. destruct (send _ _ _) as [[]w1] eqn:S; apply send_live with (s := s) in S; auto; [eauto|].
    injection E as <- <-. auto.
  - unfold bind in E. destruct (recv _ _) as [[]w1] eqn:S; apply recv_live with (s := s) in S; auto; [eauto|].
    injection E as <- <-. auto.
Qed.

Lemma run_dead : forall l r w w', run sys l w = (r, w') -> w_open w = false -> w' = w.
Proof.
  intros [|[n|] l] r w w' E O; cbn [run] in E.
  - injection E as <- <-. auto.
  - unfold bind, send in E. rewrite O in E. injection E as <- <-. auto.
  - unfold bind, recv in E. rewrite O in E. injection E as <- <-. auto.
Qed.

Lemma command_live s l r w w' : command sys l w = (r, w') -> Live s w -> Live s w'.
Proof.
  unfold command, bind. cbn [next_handle]. intros E (A & B & C). eapply run_live; eauto. split; auto.
Qed.

Lemma command_dead m l r w w' : command sys l w = (r, w') -> Dead m w -> Dead m w'.
Proof.
  unfold command, bind. cbn [next_handle]. intros E (A & B & C). apply run_dead in E; auto. subst w'. split; auto.
Qed.

Definition after_calls (w : world) : Prop := forall n, w_call w <= n -> sys n = None.

Lemma close_socket_ok w r w' : calm sys -> close_socket sys w = (r, w') -> w_open w = true ->
  w_open w' = false /\ w_state w' = w_state w /\ w_log w' = w_log w ++ [EShutdown; EClose] /\
  (r = inl tt \/ r = inr XSocket) /\ (after_calls w -> r = inl tt).
Proof.
  intros K E O. unfold close_socket, bind in E. rewrite O in E. cbn [note] in E.
  destruct (sock_call _ _) as [x w1] eqn:S. apply sock_call_same in S as (S1 & S2 & S3 & S4 & S5 & S6).
  cbn [w_open w_log w_state w_call] in *.
  assert (E' : close_sock sys w1 = (r, w')) by (destruct (S5 K) as [-> | ->]; auto). clear E.
  unfold close_sock in E'. rewrite S1, O in E'.
  destruct (sock_call _ _) as [y w2] eqn:T. apply sock_call_same in T as (T1 & T2 & T3 & T4 & T5 & T6).
  injection E' as <- <-. cbn [w_open w_log w_state]. split; auto. split; [congruence|].
  split; [rewrite T2, S2, <- app_assoc; auto|]. split; auto.
Qed.

(* Saying goodbye and closing. *)
Lemma close_live s w r w' : calm sys -> close sys w = (r, w') -> Live s w -> s = HANDSHAKE \/ s = TRANSMISSION ->
  exists m, Dead m w' /\ (s = HANDSHAKE -> m = MAbort) /\ (s = TRANSMISSION -> exists h, m = MDisc h) /\
    (r = inl tt \/ r = inr XSocket) /\ (after_calls w -> r = inl tt).
Proof.
  intros K E (A & B & l & C & D) S. unfold close in E. rewrite A in E.
  assert (E1 : soft_disconnect sys w = (r, w')) by (destruct S as [-> | ->]; auto). clear E. unfold soft_disconnect in E1. rewrite A in E1.
  assert (X : exists m x w1, (match s with
     | HANDSHAKE => send sys MAbort w
     | TRANSMISSION => bind next_handle (fun h => send sys (MDisc h)) w
     | _ => (inr XError, w) end) = (x, w1) /\ x <> inr XBase /\ (s = HANDSHAKE -> m = MAbort) /\ (s = TRANSMISSION -> exists h, m = MDisc h) /\
     w_open w1 = true /\ w_call w <= w_call w1 /\ exists ok, w_log w1 = w_log w ++ [ESend m ok]).
  { assert (G : forall m w0 x w1, w_open w0 = true -> send sys m w0 = (x, w1) -> x <> inr XBase /\ w_open w1 = true /\
        w_call w0 <= w_call w1 /\ exists ok, w_log w1 = w_log w0 ++ [ESend m ok]).
    { intros m w0 x w1 O0 Z. unfold send in Z. rewrite O0 in Z. destruct (call sys w0) as [y w2] eqn:Y.
      apply call_same in Y as (Y1 & Y2 & Y3 & _ & Y4 & Y5). destruct y as [u|e]; cbn in Z; injection Z as <- <-; cbn.
      - split; [discriminate|]. split; [congruence|]. split; [lia|]. exists true. rewrite Y2. auto.
      - split. { specialize (K (w_call w0)). destruct (sys (w_call w0)); congruence. }
        split; [congruence|]. split; [lia|]. exists false. rewrite Y2. auto. }
    destruct S as [-> | ->].
    - destruct (send sys MAbort w) as [x w1] eqn:Z. destruct (G _ _ _ _ B Z) as (G1 & G2 & G3 & G4).
      exists MAbort, x, w1. split; auto. split; auto. split; auto. split; [discriminate|]. auto.
    - unfold bind, next_handle. destruct (send _ _ _) as [x w1] eqn:Z. apply G in Z as (G1 & G2 & G3 & G4); auto.
      exists (MDisc (w_counter w)), x, w1. split; auto. split; auto. split; [discriminate|]. split; [eauto|]. auto. }
  destruct X as (m & x & w1 & X & NB & M1 & M2 & O1 & C1 & ok & L1).
  assert (E2 : bind (become CLOSED) (fun _ => close_socket sys) w1 = (r, w')).
  { destruct S as [-> | ->]; rewrite X in E1; destruct x as [u|[]]; auto; congruence. }
  clear E1. unfold bind, become in E2. apply close_socket_ok in E2 as (F1 & F2 & F3 & F4 & F5); auto.
  cbn [w_state w_log w_call] in *. exists m. rewrite L1, C in F3. cbn [app] in F3. rewrite <- app_assoc in F3. cbn [app] in F3.
  assert (QL : forall e, In e l -> quiet e) by (apply Forall_forall; auto).
  split; [|split; [auto|split; [auto|split; [auto|]]]].
  - split; auto. split; auto. split.
    + exists (l ++ [ESend m ok; EShutdown]). rewrite F3, <- app_assoc. split; auto.
      split; intros I; apply in_app_or in I as [I|[I|[I|[]]]]; try discriminate; apply QL in I; destruct I as (I1 & I2 & _); congruence.
    + exists (ECreate :: l), [EShutdown; EClose], ok. split; auto. split.
      * intros e [<-|I]; [intros []|]. apply QL in I. apply I.
      * intros e [<-|[<-|[]]] [].
  - intros A1. apply F5. intros n N. apply A1. cbn in N. lia.
Qed.

Lemma close_dead m w r w' : close sys w = (r, w') -> Dead m w -> w' = w /\ r = inl tt.
Proof. intros E (A & _). unfold close, hard_disconnect in E. rewrite A in E. injection E as <- <-. auto. Qed.

(* ---- creating a client ---- *)

Lemma connect_ok r w w' : calm sys -> connect sys w = (r, w') -> w_log w = [] -> w_open w = false ->
  (r = inl tt /\ Live (w_state w) w') \/
  ((exists e, r = inr e) /\ w_open w' = false /\ (w_log w' = [] \/ w_log w' = [ECreate; EClose])).
Proof.
  intros K E L O. unfold connect, bind in E. destruct (call sys w) as [x w1] eqn:C.
  apply call_same in C as (C1 & C2 & C3 & _). destruct x as [u|e].
  2:{ injection E as <- <-. right. split; eauto. split; [congruence|]. left. congruence. }
  destruct (call sys _) as [y w2] eqn:D. apply call_same in D as (D1 & D2 & D3 & _). cbn [w_open w_log w_state] in *.
  destruct y as [v|e].
  - injection E as <- <-. left. split; [destruct v; auto|]. split; [congruence|]. split; auto. exists []. rewrite D2, C2, L. auto.
  - unfold close_sock in E. rewrite D1 in E. destruct (sock_call _ _) as [z w3] eqn:F.
    apply sock_call_same in F as (F1 & F2 & F3 & _).
    right. assert (X : w_open w' = false /\ w_log w' = w_log w3 ++ [EClose] /\ exists e, r = inr e).
    { destruct z; injection E as <- <-; cbn; eauto. }
    destruct X as (X1 & X2 & X3). split; auto. split; auto. right. rewrite X2, F2, D2, C2, L. auto.
Qed.

Lemma init_ok hs r w w' : calm sys -> init sys hs w = (r, w') -> w_log w = [] -> w_open w = false ->
  (r = inl tt /\ Live TRANSMISSION w') \/
  ((exists e, r = inr e) /\ w_open w' = false /\ (w_log w' = [] \/ w_log w' = [ECreate; EClose] \/ Dead MAbort w')).
Proof.
  intros K E L O. unfold init, bind in E. cbn [become] in E. destruct (connect _ _) as [x w1] eqn:C.
  apply connect_ok in C as [(-> & C)|((e & ->) & C1 & C2)]; auto.
  2:{ injection E as <- <-. right. split; eauto. split; auto. destruct C2; auto. }
  cbn [w_state] in C. destruct (handshake sys hs w1) as [y w2] eqn:H. unfold handshake, bind in H.
  destruct C as (C1 & C2 & C3). rewrite C1 in H. cbn [become] in H.
  destruct (run _ _ _) as [z w3] eqn:R. apply run_live with (s := HANDSHAKE) in R; [|split; auto].
  destruct z as [u|e]; cbn in H; injection H as <- <-.
  - injection E as <- <-. left. split; auto. destruct R as (R1 & R2 & R3). split; auto.
  - destruct (close sys w3) as [q w4] eqn:Q. eapply close_live in Q as (m & Dm & M1 & _ & R1 & _); eauto.
    rewrite (M1 eq_refl) in Dm. right.
    assert (X : w' = w4 /\ exists e, r = inr e) by (destruct q; injection E as <- <-; eauto).
    destruct X as (-> & X). split; auto. split; [apply Dm|]. auto.
Qed.

(* ---- using it ---- *)

Definition Mid (w : world) : Prop := Live TRANSMISSION w \/ exists h, Dead (MDisc h) w.

Lemma body_ok : calm sys -> forall us raises r w w', body sys us raises w = (r, w') -> Mid w -> Mid w'.
Proof.
  intros K. assert (CM : forall l r w w', command sys l w = (r, w') -> Mid w -> Mid w').
  { intros l r w w' E [L|(h & D)]; [left; eapply command_live; eauto|right; exists h; eapply command_dead; eauto]. }
  induction us as [|[l|l|] us IH]; intros raises r w w' E M; cbn [body] in E.
  - destruct raises; injection E as <- <-; auto.
  - unfold bind in E. destruct (command _ _ _) as [[]w1] eqn:C; apply CM in C; auto; [eauto|]. injection E as <- <-. auto.
  - destruct (command _ _ _) as [x w1] eqn:C. apply CM in C; eauto.
  - unfold bind in E. destruct (close sys w) as [x w1] eqn:C.
    assert (M1 : Mid w1).
    { destruct M as [L|(h & D)].
      - eapply close_live in C as (m & Dm & _ & M2 & _); eauto. destruct (M2 eq_refl) as (h & ->). right. eauto.
      - eapply close_dead in C as (-> & _); eauto. right. eauto. }
    destruct x; [eauto|]. injection E as <- <-. auto.
Qed.

Lemma close_mid w r w' : calm sys -> close sys w = (r, w') -> Mid w ->
  (exists h, Dead (MDisc h) w') /\ (r = inl tt \/ r = inr XSocket) /\ (after_calls w -> r = inl tt).
Proof.
  intros K E [L|(h & D)].
  - eapply close_live in E as (m & Dm & _ & M2 & R & A); eauto. destruct (M2 eq_refl) as (h & ->). eauto.
  - eapply close_dead in E as (-> & ->); eauto.
Qed.

End Proofs.
