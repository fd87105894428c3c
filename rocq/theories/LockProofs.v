(** A discipline for the use of mutexes, and its soundness: programs that follow it have no data race. *)
From Coq Require Import List Bool Arith Lia.
From Verif Require Import ListUpdate LockModel LockSpec.
Import ListNotations.

(** how a member is protected *)
Inductive guard :=
| Locked (m : nat)                       (* accessed only by the owner of m *)
| LockedUntil (m n : nat)                (* written only by the owner of m before flag n is set *)
| OwnedAfter (m n : nat) (k : kind)      (* accessed by owners of m before flag n is set, later by the thread k *)
| Owned (k : kind)                       (* accessed only by the thread k *)
| Loose.                                 (* not protected *)

(** what a thread knows *)
Record know := Kn {
  held : option nat;                (* the mutex it owns *)
  facts : nat -> option bool;       (* values of flags *)
  det : bool;                       (* it is detached *)
  joined : kind -> bool;            (* Main: there are, from now on, no threads of this kind *)
  begun : bool }.                   (* Main: the logging thread has been started *)

Definition set_held (a : know) h : know := Kn h (facts a) (det a) (joined a) (begun a).
Definition set_fact (a : know) n b : know := Kn (held a) (put (facts a) n (Some b)) (det a) (joined a) (begun a).
Definition forget (a : know) : know :=
  Kn None (fun n => match facts a n with Some true => Some true | _ => None end) (det a) (joined a) (begun a).
Definition set_det (a : know) : know := Kn (held a) (facts a) true (joined a) (begun a).
Definition set_joined (a : know) f : know := Kn (held a) (facts a) (det a) f (begun a).

Section Discipline.
Context {L : Type}.
Variables (body : kind -> stmt L) (public : nat -> stmt L).
Variable guards : L -> guard.
(** the mutex that protects each flag *)
Variable flag_mutex : nat -> nat.
(** threads of the first kind may start (threads that start ...) threads of the second kind *)
Variable spawns : kind -> kind -> bool.
Hypothesis spawns_refl : forall k, spawns k k = true.
Hypothesis spawns_trans : forall a b c, spawns a b = true -> spawns b c = true -> spawns a c = true.
(** kinds of threads that run code of the user *)
Variable users : kind -> bool.

Definition excl (k : kind) (a : know) : Prop := k = Main /\ forall k', k' <> Main -> joined a k' = true.
Definition unique (k : kind) : Prop := k = Main \/ k = Logging.

Definition perm (k : kind) (a : know) (x : L) (w : bool) : Prop :=
  (det a = false \/ held a <> None) /\
  (excl k a \/
   match guards x with
   | Locked m => held a = Some m
   | LockedUntil m n => (held a = Some m /\ (w = false \/ facts a n = Some false)) \/ (w = false /\ facts a n = Some true)
   | OwnedAfter m n k' => (held a = Some m /\ facts a n = Some false) \/ (k = k' /\ unique k' /\ facts a n = Some true)
   | Owned k' => k = k' /\ unique k'
   | Loose => True
   end).

(** [a'] knows at least the permanent facts of [a] *)
Definition le (a a' : know) : Prop :=
  held a' = None /\ det a' = det a /\ joined a' = joined a /\ begun a' = begun a /\
  (forall n, facts a n = Some true -> facts a' n = Some true) /\ (forall n, facts a' n <> Some false).
Definition clean (k : kind) (a : know) : Prop :=
  held a = None /\ det a = false /\ (forall n, facts a n <> Some false) /\ users k = true.

Definition spawn_ok (k : kind) (a : know) (k' : kind) : Prop :=
  (k = Main \/ spawns k k' = true) /\ k' <> Main /\ (det a = false \/ held a <> None) /\
  match k' with
  | Worker => facts a 0 = Some false
  | Logging => k = Main /\ begun a = false
  | _ => True
  end.
Definition after_spawn (k : kind) (a : know) (k' : kind) : know :=
  match k with
  | Main => (* without exclusive access only the facts protected by the mutex are kept *)
            Kn (held a)
               (fun n => match facts a n with
                         | Some false => if match held a with Some m => m =? flag_mutex n | None => false end
                                         then Some false else None
                         | f => f end)
               (det a) (fun k'' => if spawns k' k'' then false else joined a k'')
               (match k' with Logging => true | _ => begun a end)
  | _ => a
  end.
(** joining threads of kind [k'] shows that there are none and will be none *)
Definition join_ok (a : know) (k' : kind) : Prop :=
  match k' with
  | Worker => facts a 0 = Some true
  | _ => True
  end /\ forall k, k <> Main -> k <> k' -> spawns k k' = true -> k' = Worker \/ joined a k = true.

Fixpoint safe (k : kind) (p : stmt L) (Q : know -> Prop) (a : know) {struct p} : Prop :=
  match p with
  | Skip => Q a
  | Read x => perm k a x false /\ Q a
  | Write x => perm k a x true /\ Q a
  | Seq p q => safe k p (safe k q Q) a
  | Choice p q => safe k p Q a /\ safe k q Q a
  | Loop p => exists I : know -> Prop, I a /\ (forall b, I b -> safe k p I b) /\ (forall b, I b -> Q b)
  | Any p => forall n, safe k (p n) Q a
  | User => clean k a /\ forall b, le a b -> Q b
  | Lock m => held a = None /\ det a = false /\ Q (set_held a (Some m))
  | Unlock m => held a = Some m /\ Q (forget a)
  | Wait m => held a = Some m /\ det a = false /\ Q (set_held (forget a) (Some m))
  | IfFlag n p q =>
      (facts a n <> Some false -> safe k p Q (set_fact a n true)) /\
      (facts a n <> Some true -> held a = Some (flag_mutex n) -> safe k q Q (set_fact a n false)) /\
      (facts a n <> Some true -> held a <> Some (flag_mutex n) -> safe k q Q a)
  | SetFlag n => held a = Some (flag_mutex n) /\ det a = false /\ Q (set_fact a n true)
  | Spawn k' => spawn_ok k a k' /\ Q (after_spawn k a k')
  | Detach => k = Worker /\ held a = Some (flag_mutex 0) /\ facts a 0 = Some false /\ Q (set_det a)
  | Join k' => k = Main /\ k' <> Main /\ held a = None /\
               (Q a \/ (join_ok a k' /\ Q (set_joined a (fun k'' => kind_eqb k'' k' || joined a k''))))
  end.

Fixpoint stack_safe (k : kind) (r : list (stmt L)) (a : know) : Prop :=
  match r with [] => held a = None | p :: r => safe k p (stack_safe k r) a end.

Lemma safe_mono k p : forall (Q Q' : know -> Prop) a, (forall b, Q b -> Q' b) -> safe k p Q a -> safe k p Q' a.
Proof.
  clear body public spawns_refl spawns_trans.
  induction p as [ |x|x|p IHp q IHq|p IHp q IHq|p IHp|p IHp| |m|m|m|n p IHp q IHq|n|k'| |k']; intros Q Q' a M H; cbn in *; intuition eauto.
  destruct H as (I & H1 & H2 & H3). exists I. auto.
Qed.

(** what a started thread, and what Main, knows at its beginning *)
Definition fresh : know := Kn None (fun _ => None) false (fun _ => false) true.
Definition start : know := Kn None (fun _ => Some false) false (fun _ => true) false.
Hypothesis public_safe : forall k n a, clean k a -> safe k (public n) (le a) a.
Hypothesis body_safe : forall k, k <> Main -> safe k (body k) (fun a => held a = None) fresh.
Hypothesis main_safe : safe Main (body Main) (fun a => held a = None) start.

Definition live (t : thread L) (a : know) : Prop := th_stack t <> [] /\ (det a = false \/ held a <> None).
(** there are no threads of kind [k'] but Main, nor will there be any *)
Definition none_of (s : state L) (gs : list know) (k' : kind) : Prop :=
  forall i t a, i <> 0 -> nth_error (threads s) i = Some t -> nth_error gs i = Some a -> live t a ->
    th_kind t <> k' /\ (spawns (th_kind t) k' = true -> k' = Worker /\ flags s 0 = true).
Record ok (s : state L) (i : nat) (t : thread L) (a : know) : Prop := {
  ok_safe : stack_safe (th_kind t) (th_stack t) a;
  ok_held : forall m, holder s m = Some i <-> held a = Some m;
  ok_fact : forall n b, facts a n = Some b -> flags s n = b;
  ok_false : forall n, facts a n = Some false -> held a = Some (flag_mutex n) \/ excl (th_kind t) a;
  ok_gone : th_gone t = det a;
  ok_det : det a = true -> th_kind t = Worker /\ (held a = None \/ (held a = Some (flag_mutex 0) /\ facts a 0 = Some false));
  ok_main : th_kind t = Main <-> i = 0 }.
Record inv (s : state L) (gs : list know) : Prop := {
  inv_length : length gs = length (threads s);
  inv_ok : forall i t a, nth_error (threads s) i = Some t -> nth_error gs i = Some a -> ok s i t a;
  inv_joined : forall a k, nth_error gs 0 = Some a -> k <> Main -> joined a k = true -> none_of s gs k;
  inv_logging : forall i j t t', nth_error (threads s) i = Some t -> nth_error (threads s) j = Some t' ->
    th_kind t = Logging -> th_kind t' = Logging -> i = j;
  inv_begun : forall a i t, nth_error gs 0 = Some a -> begun a = false -> nth_error (threads s) i = Some t -> th_kind t <> Logging }.

Lemma ghost s gs i t : inv s gs -> nth_error (threads s) i = Some t -> exists a, nth_error gs i = Some a.
Proof.
  intros I H. destruct (nth_error gs i) as [a|] eqn:E; [eauto|]. apply nth_error_None in E.
  rewrite (inv_length _ _ I) in E. assert (nth_error (threads s) i <> None) as H' by congruence. apply nth_error_Some in H'. lia.
Qed.

(** a thread with exclusive access is alone *)
Lemma excl_alone s gs i k r g a j t b : inv s gs -> nth_error (threads s) i = Some (Th k r g) -> nth_error gs i = Some a ->
  excl k a -> nth_error (threads s) j = Some t -> nth_error gs j = Some b -> live t b -> i = j.
Proof.
  intros I Hi Ha (Ek & Ej) Hj Hb Lv. pose proof (ok_main _ _ _ _ (inv_ok _ _ I _ _ _ Hi Ha)) as M. cbn in M.
  assert (i = 0) as -> by (apply M; exact Ek).
  destruct j as [|j]; [reflexivity|exfalso].
  assert (th_kind t <> Main) as N. { intros E. apply (ok_main _ _ _ _ (inv_ok _ _ I _ _ _ Hj Hb)) in E. discriminate. }
  destruct (inv_joined _ _ I _ (th_kind t) Ha N (Ej _ N) (S j) t b) as (N' & _); auto.
Qed.

(** thread [i] goes on *)
Lemma move s gs i k r g a r' g' a' h' f' : inv s gs ->
  nth_error (threads s) i = Some (Th k r g) -> nth_error gs i = Some a ->
  (forall m j, j <> i -> (h' m = Some j <-> holder s m = Some j)) ->
  (forall m, h' m = Some i <-> held a' = Some m) ->
  (forall n, f' n = flags s n \/ (f' n = true /\ held a = Some (flag_mutex n) /\ r <> [])) ->
  stack_safe k r' a' -> (forall n b, facts a' n = Some b -> f' n = b) ->
  (forall n, facts a' n = Some false -> held a' = Some (flag_mutex n) \/ excl k a') ->
  g' = det a' -> (det a' = true -> k = Worker /\ (held a' = None \/ (held a' = Some (flag_mutex 0) /\ facts a' 0 = Some false))) ->
  (i <> 0 -> r <> []) -> (i <> 0 -> det a' = false \/ held a' <> None -> det a = false \/ held a <> None) ->
  (i = 0 -> forall k', k' <> Main -> joined a' k' = true -> none_of s gs k') ->
  (i = 0 -> begun a' = false -> begun a = false) ->
  inv (St (update i (Th k r' g') (threads s)) h' f') (update i a' gs).
Proof.
  intros I Hi Ha Hh Hh' Hf Sf Ff Fm Eg Dt Ne Lv Jn Bg.
  pose proof (inv_ok _ _ I _ _ _ Hi Ha) as O. destruct O as [O1 O2 O3 O4 O5 O6 O7]. cbn in O7.
  assert (NO : forall k', none_of s gs k' -> none_of (St (update i (Th k r' g') (threads s)) h' f') (update i a' gs) k').
  { intros k' N j t b Nj Ht Hb Lt. cbn in *. destruct (update_inv _ _ _ _ _ Ht) as [(-> & -> & _)|(Nji & Ht')].
    - rewrite (update_same _ _ _ _ Ha) in Hb. injection Hb as <-. destruct Lt as (_ & Lt). cbn.
      destruct (N i _ _ Nj Hi Ha) as (N1 & N2). { split; cbn; auto. }
      cbn in *. split; [exact N1|]. intros Hs. destruct (N2 Hs) as (-> & E). split; [reflexivity|].
      destruct (Hf 0) as [->|(-> & _)]; auto.
    - rewrite update_other in Hb by auto. destruct (N j t b Nj Ht' Hb Lt) as (N1 & N2). split; [exact N1|].
      intros Hs. destruct (N2 Hs) as (-> & E). split; [reflexivity|]. destruct (Hf 0) as [->|(-> & _)]; auto. }
  split; cbn [threads holder flags].
  - rewrite !update_length. apply (inv_length _ _ I).
  - intros j t b Ht Hb. destruct (update_inv _ _ _ _ _ Ht) as [(-> & -> & _)|(Nji & Ht')].
    + rewrite (update_same _ _ _ _ Ha) in Hb. injection Hb as <-. split; cbn; auto.
    + rewrite update_other in Hb by auto. destruct (inv_ok _ _ I _ _ _ Ht' Hb) as [P1 P2 P3 P4 P5 P6 P7].
      split; cbn; auto.
      * intros m. rewrite Hh by auto. apply P2.
      * intros n c Hc. specialize (P3 _ _ Hc). destruct (Hf n) as [->|(-> & Hm & Nr)]; [exact P3|].
        destruct c; [reflexivity|exfalso]. destruct (P4 _ Hc) as [Hb'|Ex].
        -- apply P2 in Hb'. apply O2 in Hm. congruence.
        -- apply Nji. destruct t as [kt rt gt]. apply (excl_alone s gs j kt rt gt b i _ a I Ht' Hb Ex Hi Ha). split; cbn; [exact Nr|right; congruence].
  - intros b k' Hb Nk J. destruct (Nat.eq_dec i 0) as [->|N0].
    + rewrite (update_same _ _ _ _ Ha) in Hb. injection Hb as <-. apply NO. auto.
    + rewrite update_other in Hb by exact N0. apply NO. eapply inv_joined; eauto.
  - intros j1 j2 t1 t2 H1 H2 K1 K2.
    assert (X : forall j t, nth_error (update i (Th k r' g') (threads s)) j = Some t -> th_kind t = Logging ->
      exists t', nth_error (threads s) j = Some t' /\ th_kind t' = Logging).
    { intros j t Ht Kt. destruct (update_inv _ _ _ _ _ Ht) as [(-> & -> & _)|(Nji & Ht')]; eauto. }
    destruct (X _ _ H1 K1) as (u1 & U1 & V1). destruct (X _ _ H2 K2) as (u2 & U2 & V2). eapply (inv_logging _ _ I); eauto.
  - intros b j t Hb Bf Ht. assert (exists b', nth_error gs 0 = Some b' /\ begun b' = false) as (b' & Hb' & Bf').
    { destruct (Nat.eq_dec i 0) as [->|N0].
      + rewrite (update_same _ _ _ _ Ha) in Hb. injection Hb as <-. exists a. auto.
      + rewrite update_other in Hb by exact N0. eauto. }
    destruct (update_inv _ _ _ _ _ Ht) as [(-> & -> & _)|(Nji & Ht')]; cbn.
    + exact (inv_begun _ _ I _ _ _ Hb' Bf' Hi).
    + exact (inv_begun _ _ I _ _ _ Hb' Bf' Ht').
Qed.

(** the same without a change of mutexes and flags *)
Lemma go_on s gs i k p r g a r' a' : inv s gs ->
  nth_error (threads s) i = Some (Th k (p :: r) g) -> nth_error gs i = Some a ->
  held a' = held a -> det a' = det a -> (i = 0 -> begun a' = false -> begun a = false) ->
  stack_safe k r' a' -> (forall n b, facts a' n = Some b -> flags s n = b) ->
  (forall n, facts a' n = Some false -> held a' = Some (flag_mutex n) \/ excl k a') ->
  (det a' = true -> facts a 0 = Some false -> facts a' 0 = Some false) ->
  (i = 0 -> forall k', k' <> Main -> joined a' k' = true -> none_of s gs k') ->
  inv (St (update i (Th k r' g) (threads s)) (holder s) (flags s)) (update i a' gs).
Proof.
  intros I Hi Ha Eh Ed Eb Sf Ff Fm Fd Jn. destruct (inv_ok _ _ I _ _ _ Hi Ha) as [O1 O2 O3 O4 O5 O6 O7]. cbn in *.
  eapply move; eauto.
  - intros m j _. reflexivity.
  - intros m. rewrite Eh. apply O2.
  - rewrite Eh, Ed. intros D. destruct (O6 D) as (Kw & [H|(H & F)]); auto. split; [exact Kw|]. right. split; auto. apply Fd; congruence.
  - congruence.
  - rewrite Eh, Ed. auto.
Qed.
Lemma stay_joined s gs i a : inv s gs -> nth_error gs i = Some a -> i = 0 -> forall k', k' <> Main -> joined a k' = true -> none_of s gs k'.
Proof. intros I Ha -> k' N J. eapply inv_joined; eauto. Qed.

Lemma nth_snoc {A} (l : list A) x i y : nth_error (l ++ [x]) i = Some y -> nth_error l i = Some y \/ (i = length l /\ y = x).
Proof.
  intros H. destruct (Nat.lt_ge_cases i (length l)) as [Lt|Ge].
  - rewrite nth_error_app1 in H by exact Lt. auto.
  - rewrite nth_error_app2 in H by exact Ge. right. destruct (i - length l) as [|d] eqn:E.
    + cbn in H. injection H as <-. split; [lia|reflexivity].
    + destruct d; discriminate.
Qed.

(** a new thread *)
Lemma new_thread s gs k' : inv s gs -> k' <> Main ->
  (k' = Logging -> forall i t, nth_error (threads s) i = Some t -> th_kind t <> Logging) ->
  (k' = Logging -> forall a, nth_error gs 0 = Some a -> begun a = true) ->
  (forall a k, nth_error gs 0 = Some a -> k <> Main -> joined a k = true ->
     k' <> k /\ (spawns k' k = true -> k = Worker /\ flags s 0 = true)) ->
  threads s <> [] -> (forall m i, holder s m = Some i -> i < length (threads s)) ->
  inv (St (threads s ++ [Th k' [body k'] false]) (holder s) (flags s)) (gs ++ [fresh]).
Proof.
  intros I Nk Lg Bg Jn Ne Hold. pose proof (inv_length _ _ I) as Len.
  assert (Z : forall a, nth_error (gs ++ [fresh]) 0 = Some a -> nth_error gs 0 = Some a).
  { intros a H. destruct (nth_snoc _ _ _ _ H) as [H'|(E & _)]; [exact H'|]. destruct (threads s); [congruence|]. destruct gs; discriminate. }
  split; cbn [threads holder flags].
  - rewrite !app_length, Len. reflexivity.
  - intros i t a Ht Ha. destruct (nth_snoc _ _ _ _ Ht) as [Ht'|(Ei & ->)].
    + destruct (nth_snoc _ _ _ _ Ha) as [Ha'|(Ea & ->)].
      * destruct (inv_ok _ _ I _ _ _ Ht' Ha') as [O1 O2 O3 O4 O5 O6 O7]. split; auto.
      * exfalso. assert (nth_error (threads s) i <> None) as N by congruence. apply nth_error_Some in N. lia.
    + destruct (nth_snoc _ _ _ _ Ha) as [Ha'|(Ea & ->)].
      { exfalso. assert (nth_error gs i <> None) as N by congruence. apply nth_error_Some in N. lia. }
      split; cbn; try discriminate.
      * apply (body_safe k' Nk).
      * intros m. split; [|discriminate]. intros H. apply Hold in H. lia.
      * reflexivity.
      * split; [congruence|]. intros ->. destruct (threads s); [congruence|discriminate].
  - intros a k Ha N J i t b Ni Ht Hb Lv. apply Z in Ha.
    destruct (nth_snoc _ _ _ _ Ht) as [Ht'|(Ei & ->)].
    + destruct (nth_snoc _ _ _ _ Hb) as [Hb'|(Ea & ->)].
      * exact (inv_joined _ _ I _ _ Ha N J _ _ _ Ni Ht' Hb' Lv).
      * exfalso. assert (nth_error (threads s) i <> None) as X by congruence. apply nth_error_Some in X. lia.
    + cbn. eapply Jn; eauto.
  - intros i j t t' H1 H2 K1 K2.
    destruct (nth_snoc _ _ _ _ H1) as [H1'|(E1 & ->)]; destruct (nth_snoc _ _ _ _ H2) as [H2'|(E2 & ->)]; cbn in *.
    + eapply (inv_logging _ _ I); eauto.
    + exfalso. exact (Lg K2 _ _ H1' K1).
    + exfalso. exact (Lg K1 _ _ H2' K2).
    + congruence.
  - intros a i t Ha Ba Ht. apply Z in Ha. destruct (nth_snoc _ _ _ _ Ht) as [Ht'|(Ei & ->)]; cbn.
    + exact (inv_begun _ _ I _ _ _ Ha Ba Ht').
    + intros ->. rewrite (Bg eq_refl _ Ha) in Ba. discriminate.
Qed.

Definition bounded (s : state L) : Prop := threads s <> [] /\ forall m i, holder s m = Some i -> i < length (threads s).
Lemma step_bounded s i c s' : bounded s -> step body public s i c = Some s' -> bounded s'.
Proof.
  intros (N & B) H. unfold step in H. destruct (nth_error (threads s) i) as [[k [ |p r] g]|] eqn:E; try discriminate.
  assert (i < length (threads s)) as Li by (apply nth_error_Some; congruence).
  assert (U : forall t, update i t (threads s) <> []).
  { intros t X. apply N. destruct (threads s); [reflexivity|]. apply (f_equal (@length _)) in X. rewrite update_length in X. discriminate. }
  assert (G : forall t h, (forall m j, h m = Some j -> holder s m = Some j \/ j = i) -> forall f, bounded (St (update i t (threads s)) h f)).
  { intros t h Hh f. split; cbn; [apply U|]. intros m j Hj. rewrite update_length. destruct (Hh _ _ Hj) as [Hj'| ->]; eauto. }
  assert (P : forall m h m' j, put (holder s) m h m' = Some j -> (holder s m' = Some j \/ Some j = h)).
  { intros m h m' j Hj. unfold put in Hj. destruct (m' =? m); auto. }
  destruct p; try (injection H as <-; apply G; auto).
  - destruct (holder s m) eqn:Em; [discriminate|]. injection H as <-. apply G. intros m' j Hj. destruct (P _ _ _ _ Hj) as [X|X]; [auto|]. injection X as ->. auto.
  - destruct (owns s i m); [|discriminate]. injection H as <-. apply G. intros m' j Hj. destruct (P _ _ _ _ Hj) as [X|X]; [auto|discriminate].
  - destruct (owns s i m); [|discriminate]. injection H as <-. apply G. intros m' j Hj. destruct (P _ _ _ _ Hj) as [X|X]; [auto|discriminate].
  - injection H as <-. split; cbn; [destruct (update i (Th k r g) (threads s)); discriminate|].
    intros m j Hj. rewrite app_length, update_length. specialize (B _ _ Hj). lia.
  - destruct (forallb (ended k0) (threads s)); [|discriminate]. injection H as <-. apply G. auto.
Qed.

Lemma owns_spec (s : state L) i m : owns s i m = true <-> holder s m = Some i.
Proof.
  unfold owns. destruct (holder s m) as [j|]; [|split; discriminate]. rewrite Nat.eqb_eq. split; congruence.
Qed.
Lemma kind_eqb_eq a b : kind_eqb a b = true <-> a = b.
Proof. destruct a, b; cbn; split; congruence. Qed.

Theorem step_inv s gs i c s' : bounded s -> inv s gs -> step body public s i c = Some s' -> exists gs', inv s' gs'.
Proof.
  intros Bd I H. unfold step in H. destruct (nth_error (threads s) i) as [[k [ |p r] g]|] eqn:Hi; try discriminate.
  destruct (ghost _ _ _ _ I Hi) as (a & Ha). pose proof (inv_ok _ _ I _ _ _ Hi Ha) as O. destruct O as [O1 O2 O3 O4 O5 O6 O7]. cbn in O1, O4, O5, O6, O7.
  assert (SJ := stay_joined _ _ _ _ I Ha).
  assert (G0 : forall r', stack_safe k r' a -> exists gs', inv (St (update i (Th k r' g) (threads s)) (holder s) (flags s)) gs').
  { intros r' Sf. exists (update i a gs). eapply go_on; eauto. }
  destruct p as [ |x|x|p q|p q|p|p| |m|m|m|n p q|n|k'| |k']; cbn in O1.
  - injection H as <-. auto.
  - injection H as <-. apply G0. tauto.
  - injection H as <-. apply G0. tauto.
  - injection H as <-. apply G0. exact O1.
  - injection H as <-. apply G0. cbn. destruct (c =? 0); tauto.
  - injection H as <-. apply G0. destruct O1 as (P & H1 & H2 & H3). destruct (c =? 0); [auto|]. cbn.
    apply (safe_mono k p P). { intros b Hb. exists P. auto. } auto.
  - injection H as <-. apply G0. cbn. apply O1.
  - injection H as <-. apply G0. destruct O1 as (Cl & Hq). destruct c as [|n].
    + apply Hq. destruct Cl as (C1 & C2 & C3 & C4). repeat split; auto.
    + cbn. apply (safe_mono k (public n) (le a)); [|auto]. intros b Hb. destruct Cl as (C1 & C2 & C3 & C4), Hb as (B1 & B2 & B3 & B4 & B5 & B6).
      split; [repeat split; auto; congruence|]. intros b' (D1 & D2 & D3 & D4 & D5 & D6). apply Hq. repeat split; auto; congruence.
  - (* Lock *)
    destruct (holder s m) eqn:Em; [discriminate|]. injection H as <-. destruct O1 as (O1 & Dt & O1').
    exists (update i (set_held a (Some m)) gs). eapply move; eauto; cbn.
    + intros m' j Nj. unfold put. destruct (m' =? m) eqn:E; [|reflexivity]. apply Nat.eqb_eq in E. subst m'. rewrite Em. split; congruence.
    + intros m'. unfold put. destruct (m' =? m) eqn:E.
      * apply Nat.eqb_eq in E. subst m'. split; auto.
      * apply Nat.eqb_neq in E. rewrite O2, O1. split; congruence.
    + intros n Hn. destruct (O4 _ Hn) as [X|X]; [congruence|auto].
    + congruence.
    + intros _ X. discriminate.
  - (* Unlock *)
    destruct (owns s i m) eqn:Ow; [|discriminate]. injection H as <-. apply owns_spec in Ow. destruct O1 as (O1 & O1').
    exists (update i (forget a) gs). eapply move; eauto; cbn.
    + intros m' j Nj. unfold put. destruct (m' =? m) eqn:E; [|reflexivity]. apply Nat.eqb_eq in E. subst m'. rewrite Ow. split; congruence.
    + intros m'. unfold put. destruct (m' =? m) eqn:E; [split; discriminate|]. apply Nat.eqb_neq in E. rewrite O2, O1. split; [congruence|discriminate].
    + intros n b Hb. destruct (facts a n) as [[|]|] eqn:F; try discriminate. injection Hb as <-. auto.
    + intros n Hn. destruct (facts a n) as [[|]|]; discriminate.
    + intros D. split; [apply O6; exact D|auto].
    + intros _ X. discriminate.
    + intros _ [D|D]; [auto|congruence].
  - (* Wait *)
    destruct (owns s i m) eqn:Ow; [|discriminate]. injection H as <-. apply owns_spec in Ow. destruct O1 as (O1 & Dt & O1').
    exists (update i (forget a) gs). eapply move; eauto; cbn.
    + intros m' j Nj. unfold put. destruct (m' =? m) eqn:E; [|reflexivity]. apply Nat.eqb_eq in E. subst m'. rewrite Ow. split; congruence.
    + intros m'. unfold put. destruct (m' =? m) eqn:E; [split; discriminate|]. apply Nat.eqb_neq in E. rewrite O2, O1. split; [congruence|discriminate].
    + auto.
    + intros n b Hb. destruct (facts a n) as [[|]|] eqn:F; try discriminate. injection Hb as <-. auto.
    + intros n Hn. destruct (facts a n) as [[|]|]; discriminate.
    + congruence.
    + intros _ X. discriminate.
  - (* IfFlag *)
    injection H as <-. destruct O1 as (P1 & P2 & P3).
    assert (GF : forall b, flags s n = b -> (b = false -> held a = Some (flag_mutex n)) -> forall r', stack_safe k r' (set_fact a n b) ->
      exists gs', inv (St (update i (Th k r' g) (threads s)) (holder s) (flags s)) gs').
    { intros b Eb Hb r' Sf. exists (update i (set_fact a n b) gs). eapply go_on; eauto; cbn.
      + intros n' b'. unfold put. destruct (n' =? n) eqn:E; [|apply O3]. apply Nat.eqb_eq in E. subst n'. congruence.
      + intros n'. unfold put. destruct (n' =? n) eqn:E; [|apply O4]. apply Nat.eqb_eq in E. subst n'. intros X. injection X as ->. auto.
      + intros D F. unfold put. destruct (0 =? n) eqn:E; [|exact F]. apply Nat.eqb_eq in E. subst n. apply O3 in F. congruence. }
    destruct (flags s n) eqn:Ef.
    + apply (GF true); [reflexivity|discriminate|]. apply P1. intros X. apply O3 in X. congruence.
    + assert (facts a n <> Some true) as Nf by (intros X; apply O3 in X; congruence). destruct (held a) as [m|] eqn:Eh.
      * destruct (Nat.eq_dec m (flag_mutex n)) as [->|Nm].
        -- apply (GF false); auto. apply P2; auto.
        -- apply G0. apply P3; congruence.
      * apply G0. apply P3; congruence.
  - (* SetFlag *)
    injection H as <-. destruct O1 as (O1 & Dt & O1').
    exists (update i (set_fact a n true) gs). eapply move; eauto; cbn.
    + intros m j _. reflexivity.
    + intros n'. unfold put. destruct (n' =? n) eqn:E; [|auto]. apply Nat.eqb_eq in E. subst n'. right. repeat split; auto. discriminate.
    + intros n' b. unfold put. destruct (n' =? n); [congruence|apply O3].
    + intros n'. unfold put. destruct (n' =? n); [discriminate|apply O4].
    + congruence.
    + intros _ X. discriminate.
  - (* Spawn *)
    injection H as <-. destruct O1 as ((Sp & Nk & Nd & Kk) & Q). pose proof Bd as (Bn & Bh).
    set (a' := after_spawn k a k') in *.
    assert (Ea : held a' = held a /\ det a' = det a) by (unfold a', after_spawn; destruct k; auto). destruct Ea as (Eh & Ed).
    assert (SpawnK : forall k0, k0 <> Main -> i = 0 -> joined a' k0 = true -> joined a k0 = true /\ spawns k' k0 = false).
    { intros k0 N0 Ei J. apply O7 in Ei. subst k. cbn in J. destruct (spawns k' k0) eqn:E; [discriminate|auto]. }
    assert (Lv : i <> 0 -> live (Th k (Spawn k' :: r) g) a) by (intros _; split; [discriminate|exact Nd]).
    assert (F0 : forall n b, facts a' n = Some b -> facts a n = Some b).
    { intros n b. unfold a', after_spawn. destruct k; auto. cbn. destruct (facts a n) as [[|]|]; auto.
      destruct (match held a with Some m => m =? flag_mutex n | None => false end); [auto|discriminate]. }
    assert (I' : inv (St (update i (Th k r g) (threads s)) (holder s) (flags s)) (update i a' gs)).
    { eapply go_on; eauto.
      - intros Ei. apply O7 in Ei. subst k. unfold a'. cbn. destruct k'; auto; discriminate.
      - intros n Hf. rewrite Eh. destruct (O4 _ (F0 _ _ Hf)) as [X|X]; [auto|]. destruct X as (-> & _). left.
        unfold a' in Hf. cbn in Hf. destruct (facts a n) as [[|]|]; try discriminate. destruct (held a) as [m|]; [|discriminate].
        destruct (m =? flag_mutex n) eqn:E; [|discriminate]. apply Nat.eqb_eq in E. congruence.
      - rewrite Ed. intros D F. destruct (O6 D) as (-> & _). exact F.
      - intros Ei k0 N0 J. apply SJ; auto. apply SpawnK; auto. }
    assert (B' : bounded (St (update i (Th k r g) (threads s)) (holder s) (flags s))).
    { split; cbn.
      - intros X. apply Bn. destruct (threads s); [reflexivity|]. apply (f_equal (@length _)) in X. rewrite update_length in X. discriminate.
      - intros m j. rewrite update_length. apply Bh. }
    destruct B' as (Bn' & Bh').
    eexists. apply (new_thread _ _ k' I' Nk); cbn [threads holder flags]; auto.
    + intros -> j t Ht. destruct Kk as (-> & Bf). assert (i = 0) as -> by (apply O7; reflexivity).
      destruct (update_inv _ _ _ _ _ Ht) as [(_ & -> & _)|(_ & Ht')]; cbn; [discriminate|].
      exact (inv_begun _ _ I _ _ _ Ha Bf Ht').
    + intros -> b Hb. destruct Kk as (-> & Bf). assert (i = 0) as -> by (apply O7; reflexivity).
      rewrite (update_same _ _ _ _ Ha) in Hb. injection Hb as <-. reflexivity.
    + intros b k0 Hb N0 J. destruct (Nat.eq_dec i 0) as [->|Ni].
      * rewrite (update_same _ _ _ _ Ha) in Hb. injection Hb as <-. destruct (SpawnK _ N0 eq_refl J) as (_ & Sf).
        split; [intros ->; rewrite spawns_refl in Sf; discriminate|congruence].
      * rewrite update_other in Hb by exact Ni. destruct (inv_joined _ _ I _ _ Hb N0 J i _ _ Ni Hi Ha (Lv Ni)) as (N1 & N2). cbn in *.
        assert (Km : k <> Main) by (intros E; apply O7 in E; congruence). destruct Sp as [Sp|Sp]; [congruence|].
        split.
        -- intros <-. destruct (N2 Sp) as (-> & Fl). apply O3 in Kk. congruence.
        -- intros Sk. apply N2. eapply spawns_trans; eauto.
  - (* Detach *)
    injection H as <-. destruct O1 as (Kw & Hm & F & O1').
    exists (update i (set_det a) gs). eapply move; eauto; cbn.
    + intros m j _. reflexivity.
    + intros _ X. discriminate.
    + intros _ _. right. congruence.
  - (* Join *)
    destruct (forallb (ended k') (threads s)) eqn:Fa; [|discriminate]. injection H as <-.
    destruct O1 as (-> & Nk & Hn & Q1). assert (i = 0) as -> by (apply O7; reflexivity).
    assert (GJ : forall a', a' = a \/ (a' = set_joined a (fun k'' => kind_eqb k'' k' || joined a k'') /\ join_ok a k') ->
      stack_safe Main r a' -> exists gs', inv (St (update 0 (Th Main r g) (threads s)) (holder s) (flags s)) gs').
    { intros a' [->|(-> & Jo)] Sf; [auto|].
      exists (update 0 (set_joined a (fun k'' => kind_eqb k'' k' || joined a k'')) gs). eapply go_on; eauto; cbn.
      - intros n Hf. destruct (O4 _ Hf) as [X|X]; [auto|]. right. destruct X as (X1 & X2). split; [reflexivity|]. intros k0 N0. cbn. rewrite X2 by exact N0. apply orb_true_r.
      - intros _ k0 N0 J. destruct (kind_eqb k0 k') eqn:E; [|apply SJ; auto]. apply kind_eqb_eq in E. subst k0.
        intros j t b Nj Ht Hb Lv. destruct (inv_ok _ _ I _ _ _ Ht Hb) as [P1 P2 P3 P4 P5 P6 P7].
        rewrite forallb_forall in Fa. specialize (Fa t (nth_error_In _ _ Ht)). unfold ended in Fa. destruct Lv as (L1 & L2).
        assert (th_kind t <> k') as Nt.
        { intros E. rewrite E in Fa. assert (kind_eqb k' k' = true) as R by (apply kind_eqb_eq; reflexivity). rewrite R in Fa. cbn in Fa.
          destruct (th_gone t) eqn:Gt.
          - symmetry in P5. destruct (P6 P5) as (Kw & [X|(X & F)]).
            + destruct L2; congruence.
            + destruct Jo as (Jo & _). rewrite <- E, Kw in Jo. apply O3 in Jo. apply P3 in F. congruence.
          - destruct (th_stack t); [congruence|discriminate]. }
        split; [exact Nt|]. intros Hs. destruct Jo as (J1 & J2). assert (th_kind t <> Main) as Nm. { intros X. apply P7 in X. congruence. }
        destruct (J2 _ Nm Nt Hs) as [->|Jt].
        + split; [reflexivity|]. apply O3. exact J1.
        + exfalso. destruct (SJ eq_refl _ Nm Jt j t b Nj Ht Hb) as (X & _); [split; auto|]. congruence. }
    destruct Q1 as [Q1|(Jo & Q1)].
    + eapply GJ; [left; reflexivity|exact Q1].
    + eapply GJ; [right; split; [reflexivity|exact Jo]|exact Q1].
Qed.

Lemma run_inv l : forall s gs s', bounded s -> inv s gs -> run body public s l = Some s' -> exists gs', inv s' gs'.
Proof.
  induction l as [|(i, c) l IH]; intros s gs s' B I H; cbn in H; [injection H as <-; eauto|].
  destruct (step body public s i c) as [s1|] eqn:E; [|discriminate].
  destruct (step_inv _ _ _ _ _ B I E) as (gs1 & I1). apply (IH s1 gs1 s'); auto. exact (step_bounded _ _ _ _ B E).
Qed.
Lemma initial_inv : inv (initial body) [start].
Proof.
  assert (One : forall A (x y : A) i, nth_error [x] i = Some y -> i = 0 /\ y = x).
  { intros A x y [|[|i]] H; try discriminate. injection H as <-. auto. }
  split; cbn [threads initial].
  - reflexivity.
  - intros i t a Ht Ha. apply One in Ht. apply One in Ha. destruct Ht as (-> & ->), Ha as (_ & ->). split; cbn; auto; try discriminate.
    + intros m. split; discriminate.
    + intros n b H. congruence.
    + intros n _. right. split; auto.
    + split; auto.
  - intros a k _ _ _ i t b Ni Ht. apply One in Ht. destruct Ht as (-> & _). congruence.
  - intros i j t t' Hi Hj. apply One in Hi. apply One in Hj. destruct Hi, Hj. congruence.
  - intros a i t _ _ Ht. apply One in Ht. destruct Ht as (_ & ->). discriminate.
Qed.
Lemma reached l s : run body public (initial body) l = Some s -> exists gs, inv s gs.
Proof.
  apply (run_inv l _ [start]); [|apply initial_inv]. split; cbn; discriminate.
Qed.

Lemma next_ghost s gs i p : inv s gs -> next s i p ->
  exists k r g a, nth_error (threads s) i = Some (Th k (p :: r) g) /\ nth_error gs i = Some a /\
    ok s i (Th k (p :: r) g) a /\ safe k p (stack_safe k r) a.
Proof.
  intros I (k & r & g & H). destruct (ghost _ _ _ _ I H) as (a & Ha). pose proof (inv_ok _ _ I _ _ _ H Ha) as O.
  exists k, r, g, a. split; [exact H|]. split; [exact Ha|]. split; [exact O|]. exact (ok_safe _ _ _ _ O).
Qed.

Lemma inv_race s gs x : inv s gs -> race s x -> guards x = Loose.
Proof.
  intros I (i & j & w & N & Hi & Hj). unfold accesses in *.
  destruct (next_ghost _ _ _ _ I Hi) as (k1 & r1 & g1 & a1 & T1 & A1 & O1 & S1).
  destruct (next_ghost _ _ _ _ I Hj) as (k2 & r2 & g2 & a2 & T2 & A2 & O2 & S2).
  assert (P1 : perm k1 a1 x true) by apply S1.
  assert (P2 : perm k2 a2 x w) by (destruct w; apply S2). clear S1 S2.
  destruct P1 as (D1 & P1), P2 as (D2 & P2).
  assert (L1 : live (Th k1 (Write x :: r1) g1) a1) by (split; [discriminate|exact D1]).
  assert (L2 : live (Th k2 ((if w then Write x else Read x) :: r2) g2) a2) by (split; [discriminate|exact D2]).
  destruct P1 as [E1|P1]. { exfalso. apply N. eapply excl_alone; eauto. }
  destruct P2 as [E2|P2]. { exfalso. apply N. symmetry. eapply excl_alone; eauto. }
  assert (Same : forall m, held a1 = Some m -> held a2 = Some m -> i = j).
  { intros m X1 X2. apply (ok_held _ _ _ _ O1) in X1. apply (ok_held _ _ _ _ O2) in X2. congruence. }
  assert (F : forall n, facts a1 n = Some false -> facts a2 n = Some true -> False).
  { intros n X1 X2. apply (ok_fact _ _ _ _ O1) in X1. apply (ok_fact _ _ _ _ O2) in X2. congruence. }
  assert (F' : forall n, facts a1 n = Some true -> facts a2 n = Some false -> False).
  { intros n X1 X2. apply (ok_fact _ _ _ _ O1) in X1. apply (ok_fact _ _ _ _ O2) in X2. congruence. }
  assert (U : unique k1 -> k1 = k2 -> i = j).
  { intros U E. destruct U as [U|U].
    - assert (i = 0) by (apply (ok_main _ _ _ _ O1); exact U). assert (j = 0) by (apply (ok_main _ _ _ _ O2); cbn; congruence). congruence.
    - apply (inv_logging _ _ I _ _ _ _ T1 T2); cbn; congruence. }
  destruct (guards x) as [m|m n|m n k|k|]; [exfalso..|reflexivity].
  - eauto.
  - destruct P1 as [(X1 & [X|X])|(X & _)]; try discriminate. destruct P2 as [(X2 & _)|(_ & X2)]; eauto.
  - destruct P1 as [(X1 & Y1)|(X1 & Y1 & Z1)], P2 as [(X2 & Y2)|(X2 & Y2 & Z2)]; eauto.
    apply N, U; congruence.
  - destruct P1 as (X1 & Y1), P2 as (X2 & _). apply N, U; congruence.
Qed.
Lemma inv_misuse s gs : inv s gs -> ~ misuse s.
Proof.
  intros I [(i & m & Hn & Hh)|(i & m & Hn & Hh)].
  - destruct (next_ghost _ _ _ _ I Hn) as (k & r & g & a & T & A & O & Sf). cbn in Sf.
    apply (ok_held _ _ _ _ O) in Hh. destruct Sf. congruence.
  - destruct Hn as [Hn|Hn]; destruct (next_ghost _ _ _ _ I Hn) as (k & r & g & a & T & A & O & Sf); cbn in Sf;
      apply Hh; apply (ok_held _ _ _ _ O); apply Sf.
Qed.
(** the owner of a mutex can take a step *)
Lemma inv_owner s gs m i : bounded s -> inv s gs -> holder s m = Some i -> exists s', step body public s i 0 = Some s'.
Proof.
  intros (_ & B) I H. pose proof (B _ _ H) as Li. destruct (nth_error (threads s) i) as [[k r g]|] eqn:T; [|apply nth_error_None in T; lia].
  destruct (ghost _ _ _ _ I T) as (a & Ha). destruct (inv_ok _ _ I _ _ _ T Ha) as [O1 O2 O3 O4 O5 O6 O7].
  apply O2 in H. unfold step. rewrite T. cbn in O1. destruct r as [|p r]; [cbn in O1; congruence|].
  destruct p as [ |x|x|p q|p q|p|p| |m'|m'|m'|n p q|n|k'| |k']; cbn in O1; eauto.
  - destruct O1. congruence.
  - destruct O1 as (X & _). apply O2 in X. apply owns_spec in X. rewrite X. eauto.
  - destruct O1 as (X & _). apply O2 in X. apply owns_spec in X. rewrite X. eauto.
  - destruct O1 as (_ & _ & X & _). congruence.
Qed.

Theorem discipline_race l s x : run body public (initial body) l = Some s -> race s x -> guards x = Loose.
Proof. intros R. destruct (reached _ _ R) as (gs & I). exact (inv_race _ _ _ I). Qed.
Theorem discipline_misuse l s : run body public (initial body) l = Some s -> ~ misuse s.
Proof. intros R. destruct (reached _ _ R) as (gs & I). exact (inv_misuse _ _ I). Qed.
Lemma run_bounded l : forall s s', bounded s -> run body public s l = Some s' -> bounded s'.
Proof.
  induction l as [|(i, c) l IH]; intros s s' B H; cbn in H; [injection H as <-; exact B|].
  destruct (step body public s i c) as [s1|] eqn:E; [|discriminate]. apply (IH s1 s'); [|exact H]. exact (step_bounded _ _ _ _ B E).
Qed.
Theorem discipline_owner l s m i : run body public (initial body) l = Some s -> holder s m = Some i ->
  exists s', step body public s i 0 = Some s'.
Proof.
  intros R. destruct (reached _ _ R) as (gs & I). apply (inv_owner _ gs); auto.
  apply (run_bounded l (initial body)); [|exact R]. split; cbn; discriminate.
Qed.
End Discipline.
