(** Programs with finitely many static objects end. *)
From Coq Require Import List Lia Arith.
From Verif Require Import InstanceModel InstanceSpec InstanceProofs.
Import ListNotations.

Section Ends.
Variables (P : program) (objs : list object).
Hypothesis distinct : NoDup objs.
Hypothesis finite : finite_program P objs.

Fixpoint sum (l : list nat) : nat := match l with [] => 0 | x :: l => x + sum l end.
Fixpoint wt (c : code) : nat := match c with Skip => 1 | Use _ k => 1 + wt k | Submit _ j k => 3 + wt j + wt k end.
Definition item_wt (i : item) : nat := match i with Run c => wt c | Built _ | Died _ => 1 end.
Definition thread_wt (th : list item) : nat := sum (map item_wt th).
Definition jobs_wt (js : list (object * code)) : nat := sum (map (fun j => wt (snd j) + 2) js).
Definition workers_wt (ws : list (object * list item)) : nat := sum (map (fun t => 1 + thread_wt (snd t)) ws).
Definition life_wt (o : object) (l : life) : nat :=
  match l with Absent => wt (ctor P o) + wt (dtor P o) + 4 | Building | Alive => wt (dtor P o) + 2 | Dying | Dead => 0 end.
Definition lives_wt (st : object -> life) : nat := sum (map (fun o => life_wt o (st o)) objs).
Definition total (s : state) : nat :=
  thread_wt (main s) + workers_wt (workers s) + jobs_wt (jobs (world_of s)) + lives_wt (status (world_of s)) + (if leaving s then 0 else 1).

Definition in_items (th : list item) : Prop := forall c, In (Run c) th -> within objs c.
Record bounded (s : state) : Prop := Bounded {
  b_main : in_items (main s);
  b_workers : forall o th, In (o, th) (workers s) -> in_items th;
  b_jobs : forall o j, In (o, j) (jobs (world_of s)) -> within objs j;
  b_order : forall o, In o (order (world_of s)) -> In o objs /\ status (world_of s) o = Alive;
  b_nodup : NoDup (order (world_of s));
  b_built : forall o, In (Built o) (main s) \/ (exists x th, In (x, th) (workers s) /\ In (Built o) th) -> In o objs;
  b_dying : forall o, duty s = Some o -> status (world_of s) o = Dying }.

Lemma lives_update st o l : In o objs -> lives_wt (fun x => if object_dec x o then l else st x) + life_wt o (st o) = lives_wt st + life_wt o l.
Proof.
  unfold lives_wt. clear finite. induction objs as [|x xs IH]; [intros []|]. inversion distinct; subst. cbn. intros [->|I].
  - destruct (object_dec o o); [|congruence]. assert (E : map (fun x => life_wt x (if object_dec x o then l else st x)) xs = map (fun x => life_wt x (st x)) xs).
    { apply map_ext_in. intros y Iy. destruct (object_dec y o) as [->|]; [contradiction|reflexivity]. } rewrite E. lia.
  - destruct (object_dec x o) as [->|]; [contradiction|]. specialize (IH H2 I). lia.
Qed.
Lemma sum_app l k : sum (l ++ k) = sum l + sum k.
Proof. induction l as [|x l IH]; cbn; [reflexivity|rewrite IH; lia]. Qed.
Lemma wt_pos c : 1 <= wt c.
Proof. destruct c; cbn; lia. Qed.
Lemma within_first c o : within objs c -> first c = Some o -> In o objs.
Proof. destruct c; cbn; intros W F; try discriminate; injection F as <-; tauto. Qed.

(** a step of a thread *)
Definition world_wt (w : world) : nat := jobs_wt (jobs w) + lives_wt (status w).
Lemma tstep_wt b w th w' th' : tstep P b w th w' th' -> in_items th -> (forall o, In (Built o) th -> In o objs) ->
  thread_wt th' + world_wt w' < thread_wt th + world_wt w.
Proof.
  intros T W B. unfold world_wt. destruct T as [w r|w c o r F A|w o r A|w o k r X|w o j k r X].
  - unfold thread_wt. cbn. lia.
  - assert (Io : In o objs) by (apply (within_first c); [apply W; left; reflexivity|exact F]).
    pose proof (lives_update (status w) o Building Io) as E. rewrite A in E. cbn [life_wt] in E. unfold thread_wt. cbn [map item_wt]. cbn [sum]. cbn [set_life status jobs]. lia.
  - assert (Io : In o objs) by (apply B; left; reflexivity).
    pose proof (lives_update (status w) o Alive Io) as E. rewrite A in E. cbn [life_wt] in E. unfold thread_wt. cbn [map item_wt]. cbn [sum]. cbn [register set_life status jobs]. lia.
  - unfold thread_wt. cbn [record jobs status map item_wt wt sum]. lia.
  - unfold thread_wt, jobs_wt. cbn [queue record jobs status map item_wt wt sum snd]. lia.
Qed.
Lemma tstep_in b w th w' th' : tstep P b w th w' th' -> in_items th -> (forall o, In (Built o) th -> In o objs) ->
  in_items th' /\ (forall o, In (Built o) th' -> In o objs) /\ (forall o j, In (o, j) (jobs w') -> In (o, j) (jobs w) \/ within objs j) /\
  (forall o, In o (order w') -> In o (order w) \/ (In o objs /\ status w o = Building /\ status w' o = Alive)) /\
  (forall o, status w o = Alive -> status w' o = Alive) /\ (NoDup (order w) -> (forall o, In o (order w) -> status w o = Alive) -> NoDup (order w')).
Proof.
  intros T W B. destruct T as [w r|w c o r F A|w o r A|w o k r X|w o j k r X].
  - repeat split; auto; [intros c I; apply W; right; exact I|intros o I; apply B; right; exact I].
  - assert (Io : In o objs) by (apply (within_first c); [apply W; left; reflexivity|exact F]).
    split; [|split; [|split; [|split; [|split]]]]; auto.
    + intros c' [E|[E|[E|E]]]; [injection E as <-; apply finite; exact Io|discriminate|injection E as <-; apply W; left; reflexivity|apply W; right; exact E].
    + intros o' [E|[E|[E|E]]]; [discriminate|injection E as <-; exact Io|discriminate|apply B; right; exact E].
    + intros x Ax. rewrite status_other; [exact Ax|congruence].
  - split; [|split; [|split; [|split; [|split]]]]; auto.
    + intros c' I. apply W. right; exact I.
    + intros o' I. apply B. right; exact I.
    + intros x [<-|I]; [right|left; exact I]. split; [apply B; left; reflexivity|]. split; [exact A|apply (status_same o Alive w)].
    + intros x Ax. cbn. destruct (object_dec x o); auto.
    + intros N O. cbn. constructor; [|exact N]. intros I. specialize (O _ I). congruence.
  - split; [|split; [|split; [|split; [|split]]]]; auto.
    + intros c' [E|I]; [injection E as <-; destruct (W (Use o k) (or_introl eq_refl)); assumption|apply W; right; exact I].
    + intros o' [E|I]; [discriminate|apply B; right; exact I].
  - destruct (W (Submit o j k) (or_introl eq_refl)) as (Io & Wj & Wk). split; [|split; [|split; [|split; [|split]]]]; auto.
    + intros c' [E|I]; [injection E as <-; exact Wk|apply W; right; exact I].
    + intros o' [E|I]; [discriminate|apply B; right; exact I].
    + intros o' j' [E|I]; [injection E as <- <-; right; exact Wj|left; exact I].
Qed.

Lemma total_step s t : bounded s -> step P s t -> bounded t /\ total t < total s.
Proof.
  intros B S. destruct S as [w m l d ws w' m' T|w m l d l1 o th l2 w' th' T|w m l d ws o j j1 j2 J A|w m l d l1 o l2|w ws|w ws o r O|w o r ws j j1 j2 J|w o r ws N].
  - pose proof (tstep_wt _ _ _ _ _ T (b_main _ B) (fun o I => b_built _ B o (or_introl I))) as D.
    destruct (tstep_in _ _ _ _ _ T (b_main _ B) (fun o I => b_built _ B o (or_introl I))) as (I1 & I2 & I3 & I4 & I5 & I6).
    split; [|unfold total, world_wt in *; cbn [main workers world_of leaving]; lia]. constructor; cbn [main workers world_of].
    + exact I1.
    + exact (b_workers _ B).
    + intros o j I. destruct (I3 _ _ I) as [Y|Y]; [exact (b_jobs _ B _ _ Y)|exact Y].
    + intros o I. destruct (I4 _ I) as [Y|(Y & _ & Z)]; [|auto]. destruct (b_order _ B _ Y) as [Z1 Z2]. split; [exact Z1|apply I5; exact Z2].
    + apply I6; [exact (b_nodup _ B)|]. intros o I. exact (proj2 (b_order _ B o I)).
    + intros o [I|I]; [exact (I2 _ I)|apply (b_built _ B); right; exact I].
    + intros o E. apply (tstep_ending _ _ _ _ _ _ o Dying T); [auto|]. exact (b_dying _ B o E).
  - assert (Wt : In (o, th) (l1 ++ (o, th) :: l2)) by (apply in_app_iff; right; left; reflexivity).
    assert (Bt : forall x, In (Built x) th -> In x objs) by (intros x I; apply (b_built _ B); right; exists o, th; auto).
    pose proof (tstep_wt _ _ _ _ _ T (b_workers _ B _ _ Wt) Bt) as D.
    destruct (tstep_in _ _ _ _ _ T (b_workers _ B _ _ Wt) Bt) as (I1 & I2 & I3 & I4 & I5 & I6).
    split; [|unfold total, world_wt, workers_wt in *; cbn [main workers world_of leaving]; rewrite !map_app, !sum_app; cbn [map sum snd]; lia].
    constructor; cbn [main workers world_of].
    + exact (b_main _ B).
    + intros o' t I. destruct (in_mid _ _ (o, th) _ _ I) as [E|Y]; [injection E as -> ->; exact I1|exact (b_workers _ B _ _ Y)].
    + intros x j I. destruct (I3 _ _ I) as [Y|Y]; [exact (b_jobs _ B _ _ Y)|exact Y].
    + intros x I. destruct (I4 _ I) as [Y|(Y & _ & Z)]; [|auto]. destruct (b_order _ B _ Y) as [Z1 Z2]. split; [exact Z1|apply I5; exact Z2].
    + apply I6; [exact (b_nodup _ B)|]. intros x I. exact (proj2 (b_order _ B x I)).
    + intros x [I|(y & t & I & It)]; [apply (b_built _ B); left; exact I|]. destruct (in_mid _ _ (o, th) _ _ I) as [E|Y]; [injection E as -> ->; exact (I2 _ It)|].
      apply (b_built _ B). right. exists y, t. auto.
    + intros x E. apply (tstep_ending _ _ _ _ _ _ x Dying T); [auto|]. exact (b_dying _ B x E).
  - assert (Wj : within objs j) by (apply (b_jobs _ B o); cbn; rewrite J; apply in_app_iff; right; left; reflexivity).
    split; [|unfold total, workers_wt, jobs_wt, thread_wt; cbn; rewrite J, !map_app, !sum_app; cbn; lia].
    constructor; cbn [main workers world_of jobs order status].
    + exact (b_main _ B).
    + intros o' t [E|I]; [injection E as <- <-; intros c [E|[]]; injection E as <-; exact Wj|exact (b_workers _ B _ _ I)].
    + intros x y I. apply (b_jobs _ B x). cbn. rewrite J. apply in_app_iff in I. apply in_app_iff. cbn. tauto.
    + exact (b_order _ B).
    + exact (b_nodup _ B).
    + intros x [I|(y & t & [E|I] & It)]; [apply (b_built _ B); left; exact I|injection E as <- <-; destruct It as [It|[]]; discriminate|]. apply (b_built _ B). right. exists y, t. auto.
    + exact (b_dying _ B).
  - split; [|unfold total, workers_wt; cbn [main workers world_of leaving]; rewrite !map_app, !sum_app; cbn; lia].
    constructor; cbn [main workers world_of jobs order status].
    + exact (b_main _ B).
    + intros o' t I. apply (b_workers _ B o'). cbn. apply in_app_iff in I. apply in_app_iff. cbn. tauto.
    + exact (b_jobs _ B).
    + exact (b_order _ B).
    + exact (b_nodup _ B).
    + intros x [I|(y & t & I & It)]; [apply (b_built _ B); left; exact I|]. apply (b_built _ B). right. exists y, t. split; [|exact It]. cbn. apply in_app_iff in I. apply in_app_iff. cbn. tauto.
    + exact (b_dying _ B).
  - split; [|unfold total; cbn; lia]. destruct B as [B1 B2 B3 B4 B5 B6 B7]. constructor; assumption.
  - destruct (b_order _ B o) as [Io Ao]; [cbn; rewrite O; left; reflexivity|]. pose proof (b_nodup _ B) as Nd. cbn in Nd, Ao. rewrite O in Nd. inversion Nd as [|? ? No Nr]; subst. split.
    + constructor; cbn [main workers world_of jobs order status].
      * intros c [E|[E|[]]]; [injection E as <-; apply finite; exact Io|discriminate].
      * exact (b_workers _ B).
      * exact (b_jobs _ B).
      * intros x I. destruct (b_order _ B x) as [Z1 Z2]; [cbn; rewrite O; right; exact I|]. split; [exact Z1|]. rewrite status_other; [exact Z2|]. intros ->. contradiction.
      * exact Nr.
      * intros x [[E|[E|[]]]|I]; try discriminate. apply (b_built _ B). right; exact I.
      * intros x E. injection E as <-. apply status_same.
    + pose proof (lives_update (status w) o Dying Io) as E. rewrite Ao in E. cbn [life_wt] in E. unfold total, thread_wt. cbn [main workers world_of leaving jobs status set_life]. cbn [map item_wt sum]. lia.
  - assert (Wj : within objs j) by (apply (b_jobs _ B o); cbn; rewrite J; apply in_app_iff; right; left; reflexivity).
    split; [|unfold total, workers_wt, jobs_wt, thread_wt; cbn; rewrite J, !map_app, !sum_app; cbn; lia].
    constructor; cbn [main workers world_of jobs order status].
    + intros c [E|I]; [injection E as <-; exact Wj|exact (b_main _ B c I)].
    + exact (b_workers _ B).
    + intros x y I. apply (b_jobs _ B x). cbn. rewrite J. apply in_app_iff in I. apply in_app_iff. cbn. tauto.
    + exact (b_order _ B).
    + exact (b_nodup _ B).
    + intros x [[E|I]|I]; [discriminate|apply (b_built _ B); left; exact I|apply (b_built _ B); right; exact I].
    + exact (b_dying _ B).
  - split.
    + pose proof (b_dying _ B o eq_refl) as Dy. cbn in Dy. destruct B as [B1 B2 B3 B4 B5 B6 B7]. constructor; cbn [main workers world_of duty] in *.
      * intros c I. apply B1. right; exact I.
      * exact B2.
      * exact B3.
      * intros x I. change (order (set_life o Dead w)) with (order w) in I. destruct (B4 x I) as [Z1 Z2]. split; [exact Z1|]. rewrite status_other; [exact Z2|congruence].
      * exact B5.
      * intros x [I|I]; apply B6; [left; right; exact I|right; exact I].
      * discriminate.
    + pose proof (b_dying _ B o eq_refl) as Dy. cbn in Dy.
      assert (E : lives_wt (status (set_life o Dead w)) = lives_wt (status w)).
      { unfold lives_wt. f_equal. apply map_ext. intros x. destruct (object_dec x o) as [->|Nx]; [rewrite status_same, Dy; reflexivity|rewrite status_other by assumption; reflexivity]. }
      unfold total, thread_wt. cbn [main workers world_of leaving map item_wt sum]. rewrite E. change (jobs (set_life o Dead w)) with (jobs w). lia.
Qed.

Lemma bounded_init : bounded (initial P).
Proof.
  constructor; cbn; try discriminate; try (intros; contradiction).
  - intros c [E|[]]. injection E as <-. apply finite.
  - constructor.
  - intros o [[E|[]]|(x & th & [] & _)]. discriminate.
Qed.
Lemma steps_total n s : steps P n s -> bounded s /\ n + total s <= total (initial P).
Proof.
  induction 1 as [|n s t R [B IH] S]; [split; [exact bounded_init|lia]|]. destruct (total_step _ _ B S). split; [assumption|lia].
Qed.
Lemma ends_proof : exists n, forall k s, steps P k s -> k <= n.
Proof. exists (total (initial P)). intros k s S. pose proof (proj2 (steps_total _ _ S)). lia. Qed.
End Ends.
