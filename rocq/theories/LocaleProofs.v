(** Proofs about locales, facets and the functions that use them. *)
From Coq Require Import List Bool Arith Lia.
From Verif Require Import Base LocaleModel LocaleSpec.
Import ListNotations.

Section Proofs.
Context {C : Type} (installed has_ctype : nat -> bool) (toupper : nat -> C -> C) (eqb : C -> C -> bool) (name_of : named -> nat).
Notation run := (run installed has_ctype toupper eqb name_of).
Notation step := (step installed has_ctype toupper eqb name_of).
Notation make := (make installed).
Notation static_facet := (static_facet installed name_of).
Notation should := (should installed has_ctype toupper eqb name_of).
Notation should_all := (should_all installed has_ctype toupper eqb name_of).
Notation world := (@world C).

Lemma run_app ns p q : forall w, run ns (p ++ q) w = match run ns p w with Some (Ret w') => run ns q w' | r => r end.
Proof. induction p as [|s p IH]; intros w; [reflexivity|]. cbn. destruct (step ns s w) as [[w'| | |]|]; try reflexivity. apply IH. Qed.
Lemma lookup_in x l f : lookup x l = Some f -> In (x, f) l.
Proof.
  unfold lookup. destruct (find (fun p => fst p =? x) l) as [p|] eqn:F; [|discriminate]. intros [= <-]. apply find_some in F. destruct F as [I E].
  apply Nat.eqb_eq in E. destruct p; cbn in *; subst; exact I.
Qed.
Lemma lookup_drop x y l : lookup x (drop y l) = if x =? y then None else lookup x l.
Proof.
  unfold lookup, drop. induction l as [|[z f] l IH]; cbn; [destruct (x =? y); reflexivity|]. destruct (Nat.eqb_spec z y) as [->|N]; cbn.
  - rewrite IH. destruct (Nat.eqb_spec x y) as [->|M]; [reflexivity|]. destruct (Nat.eqb_spec y x); [congruence|reflexivity].
  - destruct (Nat.eqb_spec z x) as [->|M]; [|exact IH]. destruct (Nat.eqb_spec x y); [congruence|reflexivity].
Qed.
Lemma lookup_bind x y f l : lookup x (bind y f l) = if x =? y then Some f else lookup x l.
Proof.
  unfold bind. change (lookup x ((y, f) :: drop y l)) with (match (if y =? x then Some (y, f) else find (fun p => fst p =? x) (drop y l)) with Some p => Some (snd p) | None => None end).
  rewrite (Nat.eqb_sym x y). destruct (Nat.eqb_spec y x) as [->|N]; [reflexivity|]. fold (lookup x (drop y l)). rewrite lookup_drop.
  destruct (Nat.eqb_spec x y); [congruence|reflexivity].
Qed.
Lemma alive_lookup x f (w : world) : lookup x (locales w) = Some f -> alive f w = true.
Proof. intros L. apply lookup_in in L. unfold alive. rewrite <- orb_assoc. apply orb_true_iff. left. apply existsb_exists. exists (x, f). split; [exact L|apply Nat.eqb_refl]. Qed.
Lemma named_eqb_eq m n : named_eqb m n = true <-> m = n.
Proof. destruct m, n; cbn; split; congruence. Qed.

(** names of facets never change *)
Definition valid (w : world) : Prop :=
  (forall x f, lookup x (locales w) = Some f -> f < length (names w)) /\
  (forall c f, lookup c (cmps w) = Some f -> f < length (names w)) /\
  (forall n f, In (n, f) (statics w) -> f < length (names w) /\ name f w = name_of n /\ installed (name_of n) = true).
Definition same (w : world) (i : ideal) : Prop :=
  (forall x, option_map (fun f => name f w) (lookup x (locales w)) = locale_name i x) /\
  (forall c, option_map (fun f => name f w) (lookup c (cmps w)) = cmp_name i c) /\
  (forall s, text w s = contents i s) /\ events w = seen i.
Definition inv (w : world) (i : ideal) : Prop := valid w /\ same w i.

Lemma inv_event e w i : inv w i -> inv (event_ e w) (see e i).
Proof.
  intros ((V1 & V2 & V3) & S1 & S2 & S3 & S4). split; [split; [exact V1|split; [exact V2|exact V3]]|].
  split; [exact S1|split; [exact S2|split; [exact S3|]]]. cbn. rewrite S4. reflexivity.
Qed.
Lemma inv_make n w i f v : inv w i -> make n w = (Some f, v) -> inv v i /\ f < length (names v) /\ name f v = n /\ installed n = true /\ statics v = statics w /\ locales v = locales w /\ cmps v = cmps w.
Proof.
  unfold make. destruct (installed n); [|discriminate]. intros ((V1 & V2 & V3) & S1 & S2 & S3 & S4) [= <- <-]. cbn.
  assert (N : forall f, f < length (names w) -> nth f (names w ++ [n]) 0 = nth f (names w) 0) by (intros; apply app_nth1; assumption).
  rewrite app_length. cbn. split; [|repeat split; [lia|unfold name; cbn; rewrite app_nth2, Nat.sub_diag by lia; reflexivity]].
  split.
  - split; [|split]; cbn; rewrite ?app_length; cbn.
    + intros x f L. specialize (V1 x f L). lia.
    + intros x f L. specialize (V2 x f L). lia.
    + intros m f H. destruct (V3 m f H) as (B & E & T). unfold name in *. cbn. rewrite N by exact B. repeat split; [lia|exact E|exact T].
  - split; [|split; [|split; [exact S3|exact S4]]]; cbn.
    + intros x. rewrite <- S1. destruct (lookup x (locales w)) as [f|] eqn:L; [|reflexivity]. cbn. unfold name. cbn. rewrite N by (eapply V1, L). reflexivity.
    + intros x. rewrite <- S2. destruct (lookup x (cmps w)) as [f|] eqn:L; [|reflexivity]. cbn. unfold name. cbn. rewrite N by (eapply V2, L). reflexivity.
Qed.
Lemma inv_make_none n w i v : inv w i -> make n w = (None, v) -> inv v (see RuntimeError i) /\ installed n = false.
Proof. unfold make. destruct (installed n); [discriminate|]. intros I [= <-]. split; [apply inv_event, I|reflexivity]. Qed.
Lemma inv_statics n f w i : inv w i -> f < length (names w) -> name f w = name_of n -> installed (name_of n) = true ->
  inv (World (locales w) ((n, f) :: statics w) (cmps w) (names w) (text w) (events w) (temporary w)) i.
Proof.
  intros ((V1 & V2 & V3) & S) B E T. split; [|exact S]. split; [exact V1|]. split; [exact V2|]. intros m g [[= <- <-]|I]; [repeat split; assumption|exact (V3 m g I)].
Qed.
Lemma inv_set_locale x f w i : inv w i -> f < length (names w) ->
  inv (set_locale x f w) (Ideal (put (locale_name i) x (Some (name f w))) (cmp_name i) (contents i) (seen i)).
Proof.
  intros ((V1 & V2 & V3) & S1 & S2 & S3 & S4) B. split.
  - split; [|split; [exact V2|exact V3]]. intros y g. cbn. rewrite lookup_bind. destruct (y =? x); [intros [= <-]; exact B|apply V1].
  - split; [|split; [exact S2|split; [exact S3|exact S4]]]. intros y. cbn. rewrite lookup_bind. unfold put. destruct (y =? x); [reflexivity|apply S1].
Qed.
Lemma inv_set_cmp c f w i : inv w i -> f < length (names w) ->
  inv (set_cmp c f w) (Ideal (locale_name i) (put (cmp_name i) c (Some (name f w))) (contents i) (seen i)).
Proof.
  intros ((V1 & V2 & V3) & S1 & S2 & S3 & S4) B. split.
  - split; [exact V1|split; [|exact V3]]. intros y g. cbn. rewrite lookup_bind. destruct (y =? c); [intros [= <-]; exact B|apply V2].
  - split; [exact S1|split; [|split; [exact S3|exact S4]]]. intros y. cbn. rewrite lookup_bind. unfold put. destruct (y =? c); [reflexivity|apply S2].
Qed.
Lemma inv_compare f a b w i v : inv w i -> compare_with toupper eqb f a b w = Ret v -> inv v (see (same_letter toupper eqb (name f w) a b) i).
Proof. unfold compare_with. intros I. destruct (alive f w); [|discriminate]. intros [= <-]. apply inv_event, I. Qed.
Lemma inv_upper f s w i v : inv w i -> upper_with toupper f s w = Ret v ->
  inv v (Ideal (locale_name i) (cmp_name i) (put (contents i) s (map (toupper (name f w)) (contents i s))) (seen i)).
Proof.
  unfold upper_with. intros ((V1 & V2 & V3) & S1 & S2 & S3 & S4). destruct (alive f w); [|discriminate]. intros [= <-].
  split; [split; [exact V1|split; [exact V2|exact V3]]|]. split; [exact S1|split; [exact S2|split; [|exact S4]]].
  intros r. cbn. unfold put. destruct (r =? s); [rewrite S3; reflexivity|apply S3].
Qed.
Lemma inv_use_facet f w i k j v : inv w i -> (forall u, k = Ret u -> inv u j) -> use_facet has_ctype f w k = Ret v ->
  inv v (with_facet has_ctype (name f w) i j).
Proof. unfold use_facet, with_facet. intros I K. destruct (has_ctype (name f w)); [apply K|]. intros [= <-]. apply inv_event, I. Qed.
Lemma inv_temp t w i : inv w i -> inv (set_temporary t w) i.
Proof. intros I. exact I. Qed.
Lemma static_spec n w i r v : inv w i -> static_facet n w = (r, v) ->
  match r with
  | Some f => inv v i /\ f < length (names v) /\ name f v = name_of n /\ installed (name_of n) = true /\ existsb (fun p => snd p =? f) (statics v) = true /\
      locales v = locales w /\ cmps v = cmps w /\ (exists l, statics v = l ++ statics w)
  | None => inv v (see RuntimeError i) /\ installed (name_of n) = false
  end.
Proof.
  intros I. unfold static_facet. destruct (find (fun p => named_eqb n (fst p)) (statics w)) as [[m g]|] eqn:F.
  - intros [= <- <-]. apply find_some in F. destruct F as [J E]. apply named_eqb_eq in E. cbn in E. subst m. cbn.
    split; [exact I|]. destruct I as ((V1 & V2 & V3) & S). destruct (V3 n g J) as (B & E & T). split; [exact B|split; [exact E|split; [exact T|]]].
    split; [apply existsb_exists; exists (n, g); split; [exact J|apply Nat.eqb_refl]|]. split; [reflexivity|split; [reflexivity|exists []; reflexivity]].
  - destruct (make (name_of n) w) as [[g|] u] eqn:M; intros [= <- <-].
    + destruct (inv_make _ _ _ _ _ I M) as (I' & B & E & T & U1 & U2 & U3). split; [apply inv_statics; assumption|].
      split; [exact B|split; [exact E|split; [exact T|]]]. cbn. rewrite Nat.eqb_refl. split; [reflexivity|split; [exact U2|split; [exact U3|]]].
      exists [(n, g)]. rewrite U1. reflexivity.
    + eapply inv_make_none; eassumption.
Qed.

(** a statement does what it should do *)
Lemma named_spec ns n w i k j v : inv w i ->
  (forall f u x, inv u i -> f < length (names u) -> name f u = name_of n -> k f u = Ret x -> inv x j) ->
  with_named installed name_of ns n w k = Ret v -> inv v (if installed (name_of n) then j else see RuntimeError i).
Proof.
  unfold with_named. intros I K. destruct ns.
  - destruct (make (name_of n) w) as [[f|] u] eqn:M.
    + destruct (inv_make _ _ _ _ _ I M) as (I' & B & E & T & _). rewrite T. unfold with_temporary.
      destruct (k f (set_temporary (Some f) u)) as [x| | |] eqn:X; try discriminate. intros [= <-]. apply inv_temp.
      apply (K f (set_temporary (Some f) u)); [apply inv_temp, I'|exact B|exact E|exact X].
    + destruct (inv_make_none _ _ _ _ I M) as [I' T]. rewrite T. intros [= <-]. exact I'.
  - destruct (static_facet n w) as [r u] eqn:S. pose proof (static_spec _ _ _ _ _ I S) as T. destruct r as [f|].
    + destruct T as (I' & B & E & T & _). rewrite T. intros X. apply (K f u); assumption.
    + destruct T as [I' T]. rewrite T. intros [= <-]. exact I'.
Qed.
Lemma var_name x w i f : inv w i -> lookup x (locales w) = Some f -> locale_name i x = Some (name f w) /\ f < length (names w).
Proof. intros ((V1 & _) & S1 & _) L. rewrite <- S1, L. split; [reflexivity|eapply V1, L]. Qed.
Lemma cmp_name_of c w i f : inv w i -> lookup c (cmps w) = Some f -> cmp_name i c = Some (name f w) /\ f < length (names w).
Proof. intros ((_ & V2 & _) & _ & S2 & _) L. rewrite <- S2, L. split; [reflexivity|eapply V2, L]. Qed.
Lemma step_should ns s w i : inv w i ->
  match step ns s w with
  | Some (Ret v) => exists j, should s i = Some j /\ inv v j
  | None => should s i = None
  | _ => True
  end.
Proof.
  intros I. destruct s as [x n|x y|x|c x|c n|c n|c d|c a b|x a b|n a b|s x|s n]; cbn.
  - destruct (make n w) as [[f|] u] eqn:M.
    + destruct (inv_make _ _ _ _ _ I M) as (I' & B & E & T & _). rewrite T. eexists. split; [reflexivity|]. rewrite <- E. apply inv_set_locale; assumption.
    + destruct (inv_make_none _ _ _ _ I M) as [I' T]. rewrite T. eexists. split; [reflexivity|exact I'].
  - unfold with_var. destruct (lookup x (locales w)) as [f|] eqn:L.
    + destruct (var_name _ _ _ _ I L) as [-> B]. eexists. split; [reflexivity|]. apply inv_set_locale; assumption.
    + destruct I as (_ & S1 & _). rewrite <- S1, L. reflexivity.
  - eexists. split; [reflexivity|]. destruct I as ((V1 & V2 & V3) & S1 & S2 & S3 & S4). split; [split; [|split; [exact V2|exact V3]]|split; [|split; [exact S2|split; [exact S3|exact S4]]]].
    + intros y f. cbn. rewrite lookup_drop. destruct (y =? x); [discriminate|apply V1].
    + intros y. cbn. rewrite lookup_drop. unfold put. destruct (y =? x); [reflexivity|apply S1].
  - unfold with_var. destruct (lookup x (locales w)) as [f|] eqn:L.
    + destruct (var_name _ _ _ _ I L) as [-> B]. destruct (use_facet has_ctype f w _) as [v| | |] eqn:U; try exact Logic.I.
      eexists. split; [reflexivity|]. eapply inv_use_facet; [exact I| |exact U]. intros u [= <-]. apply inv_set_cmp; assumption.
    + destruct I as (_ & S1 & _). rewrite <- S1, L. reflexivity.
  - destruct (with_named installed name_of ns n w _) as [v| | |] eqn:N; try exact Logic.I. eexists. split; [reflexivity|]. unfold with_locale.
    change (if has_ctype (name_of n) then ?a else ?b) with (with_facet has_ctype (name_of n) i a). eapply named_spec; [exact I| |exact N].
    cbn. intros f u z I' B E U. rewrite <- E. eapply inv_use_facet; [exact I'| |exact U]. intros t [= <-]. apply inv_set_cmp; assumption.
  - destruct (make n w) as [[f|] u] eqn:M.
    + destruct (inv_make _ _ _ _ _ I M) as (I' & B & E & T & _). unfold with_locale. rewrite T. unfold with_temporary.
      destruct (use_facet has_ctype f (set_temporary (Some f) u) _) as [v| | |] eqn:U; try exact Logic.I. eexists. split; [reflexivity|]. apply inv_temp.
      rewrite <- E. change (name f u) with (name f (set_temporary (Some f) u)). eapply inv_use_facet; [apply inv_temp, I'| |exact U].
      intros t [= <-]. apply (inv_set_cmp c f (set_temporary (Some f) u)); [apply inv_temp, I'|exact B].
    + destruct (inv_make_none _ _ _ _ I M) as [I' T]. unfold with_locale. rewrite T. eexists. split; [reflexivity|exact I'].
  - unfold with_var. destruct (lookup c (cmps w)) as [f|] eqn:L.
    + destruct (cmp_name_of _ _ _ _ I L) as [-> B]. eexists. split; [reflexivity|]. apply inv_set_cmp; assumption.
    + destruct I as (_ & _ & S2 & _). rewrite <- S2, L. reflexivity.
  - unfold with_var. destruct (lookup c (cmps w)) as [f|] eqn:L.
    + destruct (cmp_name_of _ _ _ _ I L) as [-> B]. destruct (compare_with toupper eqb f a b w) as [v| | |] eqn:U; try exact Logic.I.
      eexists. split; [reflexivity|]. eapply inv_compare; eassumption.
    + destruct I as (_ & _ & S2 & _). rewrite <- S2, L. reflexivity.
  - unfold with_var. destruct (lookup x (locales w)) as [f|] eqn:L.
    + destruct (var_name _ _ _ _ I L) as [-> B]. destruct (use_facet has_ctype f w _) as [v| | |] eqn:U; try exact Logic.I.
      eexists. split; [reflexivity|]. eapply inv_use_facet; [exact I| |exact U]. intros u K. eapply inv_compare; eassumption.
    + destruct I as (_ & S1 & _). rewrite <- S1, L. reflexivity.
  - destruct (with_named installed name_of ns n w _) as [v| | |] eqn:N; try exact Logic.I. eexists. split; [reflexivity|]. unfold with_locale.
    change (if has_ctype (name_of n) then ?a else ?b) with (with_facet has_ctype (name_of n) i a). eapply named_spec; [exact I| |exact N].
    cbn. intros f u z I' B E U. rewrite <- E. eapply inv_use_facet; [exact I'| |exact U]. intros t K. eapply inv_compare; eassumption.
  - unfold with_var. destruct (lookup x (locales w)) as [f|] eqn:L.
    + destruct (var_name _ _ _ _ I L) as [-> B]. destruct (use_facet has_ctype f w _) as [v| | |] eqn:U; try exact Logic.I.
      eexists. split; [reflexivity|]. eapply inv_use_facet; [exact I| |exact U]. intros u K. eapply inv_upper; eassumption.
    + destruct I as (_ & S1 & _). rewrite <- S1, L. reflexivity.
  - destruct (with_named installed name_of ns n w _) as [v| | |] eqn:N; try exact Logic.I. eexists. split; [reflexivity|]. unfold with_locale.
    change (if has_ctype (name_of n) then ?a else ?b) with (with_facet has_ctype (name_of n) i a). eapply named_spec; [exact I| |exact N].
    cbn. intros f u z I' B E U. rewrite <- E. eapply inv_use_facet; [exact I'| |exact U]. intros t K. eapply inv_upper; eassumption.
Qed.
Lemma inv_start t : inv (empty t) (start t).
Proof. repeat split; cbn; try discriminate; contradiction. Qed.
Lemma run_should ns p : forall w i, inv w i ->
  match run ns p w with
  | Some (Ret v) => exists j, should_all p i = Some j /\ inv v j
  | None => should_all p i = None
  | _ => True
  end.
Proof.
  induction p as [|s p IH]; intros w i I; cbn; [exists i; split; [reflexivity|exact I]|].
  pose proof (step_should ns s w i I) as S. destruct (step ns s w) as [[v| | |]|]; try exact Logic.I.
  - destruct S as (j & -> & J). apply IH, J.
  - rewrite S. reflexivity.
Qed.
Lemma run_reachable ns p t v : run ns p (empty t) = Some (Ret v) -> exists j, should_all p (start t) = Some j /\ inv v j.
Proof. intros R. pose proof (run_should ns p _ _ (inv_start t)) as S. rewrite R in S. exact S. Qed.

(** the i-functions: no comparison object outlives its locale *)
Lemma use_facet_ub f (w : world) k : use_facet has_ctype f w k = Ub -> k = Ub.
Proof. unfold use_facet. destruct (has_ctype (name f w)); [tauto|discriminate]. Qed.
Lemma compare_ub f a b w : compare_with toupper eqb f a b w = Ub -> alive f w = false.
Proof. unfold compare_with. destruct (alive f w); [discriminate|reflexivity]. Qed.
Lemma upper_ub f s (w : world) : upper_with toupper f s w = Ub -> alive f w = false.
Proof. unfold upper_with. destruct (alive f w); [discriminate|reflexivity]. Qed.
Lemma named_ub ns n w i k : inv w i -> with_named installed name_of ns n w k = Ub -> exists f u, k f u = Ub /\ alive f u = true.
Proof.
  unfold with_named. intros I. destruct ns.
  - destruct (make (name_of n) w) as [[f|] u]; [|discriminate]. unfold with_temporary. destruct (k f _) eqn:K; try discriminate. intros _.
    exists f, (set_temporary (Some f) u). split; [exact K|]. unfold alive. cbn. rewrite Nat.eqb_refl, orb_true_r. reflexivity.
  - destruct (static_facet n w) as [[f|] u] eqn:S; [|discriminate]. intros K. exists f, u. split; [exact K|].
    apply static_spec with (i := i) in S; [|exact I]. destruct S as (_ & _ & _ & _ & S & _). unfold alive. rewrite S, orb_true_r. reflexivity.
Qed.
Lemma calls_step ns s w i : inv w i -> only_calls s = true -> step ns s w <> Some Ub.
Proof.
  intros I O. destruct s as [x n|x y|x|c x|c n|c n|c d|c a b|x a b|n a b|s x|s n]; cbn; unfold with_var; try discriminate.
  - destruct (make n w) as [[f|] u]; discriminate.
  - destruct (lookup x (locales w)); discriminate.
  - destruct (lookup x (locales w)) as [f|]; [|discriminate]. intros [= U]. apply use_facet_ub in U. discriminate.
  - intros [= N]. destruct (named_ub _ _ _ _ _ I N) as (f & u & U & _). apply use_facet_ub in U. discriminate.
  - destruct (make n w) as [[f|] u]; [|discriminate]. unfold with_temporary. destruct (use_facet has_ctype f _ _) eqn:U; try discriminate.
    apply use_facet_ub in U. discriminate.
  - destruct (lookup c (cmps w)); discriminate.
  - destruct (lookup x (locales w)) as [f|] eqn:L; [|discriminate]. intros [= U]. apply use_facet_ub, compare_ub in U. rewrite (alive_lookup x f w L) in U. discriminate.
  - intros [= N]. destruct (named_ub _ _ _ _ _ I N) as (f & u & U & A). apply use_facet_ub, compare_ub in U. congruence.
  - destruct (lookup x (locales w)) as [f|] eqn:L; [|discriminate]. intros [= U]. apply use_facet_ub, upper_ub in U. rewrite (alive_lookup x f w L) in U. discriminate.
  - intros [= N]. destruct (named_ub _ _ _ _ _ I N) as (f & u & U & A). apply use_facet_ub, upper_ub in U. congruence.
Qed.
Lemma step_cases ns s w : step ns s w = None \/ step ns s w = Some Ub \/ exists v, step ns s w = Some (Ret v).
Proof.
  assert (UF : forall f w k, (k = Ub \/ exists v, k = Ret v) -> use_facet has_ctype f w k = Ub \/ exists v : world, use_facet has_ctype f w k = Ret v).
  { intros f v k K. unfold use_facet. destruct (has_ctype (name f v)); [exact K|right; eexists; reflexivity]. }
  assert (CW : forall f a b w, compare_with toupper eqb f a b w = Ub \/ exists v, compare_with toupper eqb f a b w = Ret v).
  { intros. unfold compare_with. destruct (alive f w0); [right; eexists; reflexivity|left; reflexivity]. }
  assert (UW : forall f s (w : world), upper_with toupper f s w = Ub \/ exists v, upper_with toupper f s w = Ret v).
  { intros. unfold upper_with. destruct (alive f w0); [right; eexists; reflexivity|left; reflexivity]. }
  assert (WT : forall f w k, (forall u, k u = Ub \/ exists v, k u = Ret v) -> with_temporary f w k = Ub \/ exists v : world, with_temporary f w k = Ret v).
  { intros f v k K. unfold with_temporary. destruct (K (set_temporary (Some f) v)) as [->|[u ->]]; [left; reflexivity|right; eexists; reflexivity]. }
  assert (WN : forall n k, (forall f u, k f u = Ub \/ exists v, k f u = Ret v) -> with_named installed name_of ns n w k = Ub \/ exists v, with_named installed name_of ns n w k = Ret v).
  { intros n k K. unfold with_named. destruct ns.
    - destruct (make (name_of n) w) as [[f|] u]; [apply WT, K|right; eexists; reflexivity].
    - destruct (static_facet n w) as [[f|] u]; [apply K|right; eexists; reflexivity]. }
  assert (RT : forall o : outcome world, (o = Ub \/ exists v, o = Ret v) -> Some o = None \/ Some o = Some Ub \/ exists v, Some o = Some (Ret v)).
  { intros o [->|[v ->]]; [right; left; reflexivity|right; right; eexists; reflexivity]. }
  assert (RE : forall u : world, Ret u = Ub \/ exists v, Ret u = Ret v) by (intros; right; eexists; reflexivity).
  destruct s as [x n|x y|x|c x|c n|c n|c d|c a b|x a b|n a b|s x|s n]; cbn; unfold with_var.
  - apply RT. destruct (make n w) as [[f|] u]; apply RE.
  - destruct (lookup x (locales w)); [apply RT, RE|left; reflexivity].
  - apply RT, RE.
  - destruct (lookup x (locales w)); [apply RT, UF, RE|left; reflexivity].
  - apply RT, WN. intros. apply UF, RE.
  - apply RT. destruct (make n w) as [[f|] u]; [|apply RE]. apply WT. intros. apply UF, RE.
  - destruct (lookup c (cmps w)); [apply RT, RE|left; reflexivity].
  - destruct (lookup c (cmps w)); [apply RT, CW|left; reflexivity].
  - destruct (lookup x (locales w)); [apply RT, UF, CW|left; reflexivity].
  - apply RT, WN. intros. apply UF, CW.
  - destruct (lookup x (locales w)); [apply RT, UF, UW|left; reflexivity].
  - apply RT, WN. intros. apply UF, UW.
Qed.
Notation as_it_should := (as_it_should installed has_ctype toupper eqb name_of).
Lemma not_ub_ok ns p t : run ns p (empty t) <> Some Ub -> as_it_should ns p t.
Proof.
  intros N. unfold as_it_should. pose proof (run_should ns p _ _ (inv_start t)) as S.
  assert (R : run ns p (empty t) = None \/ run ns p (empty t) = Some Ub \/ exists v, run ns p (empty t) = Some (Ret v)).
  { clear N S. generalize (empty t). induction p as [|s p IH]; intros w; cbn; [right; right; eexists; reflexivity|].
    destruct (step_cases ns s w) as [->|[->|[v ->]]]; [left; reflexivity|right; left; reflexivity|apply IH]. }
  destruct R as [R|[R|[v R]]]; rewrite R in *; [exact S|congruence|].
  destruct S as (j & J & _ & S1 & S2 & S3 & S4). exists j. repeat split; assumption.
Qed.
Lemma calls_not_ub ns p : forall w i, inv w i -> forallb only_calls p = true -> run ns p w <> Some Ub.
Proof.
  induction p as [|s p IH]; intros w i I O; [discriminate|]. cbn in O. apply andb_true_iff in O. destruct O as [O1 O2]. cbn. pose proof (calls_step ns s w i I O1) as S.
  pose proof (step_should ns s w i I) as T. destruct (step ns s w) as [[w'| | |]|]; try congruence; try discriminate. destruct T as (j & _ & J). apply (IH w' j); assumption.
Qed.
Lemma calls_proof ns p t : forallb only_calls p = true -> as_it_should ns p t.
Proof. intros O. apply not_ub_ok. eapply calls_not_ub; [apply inv_start|exact O]. Qed.

(** comparison objects of the static locales *)
Definition all_static (w : world) : Prop := forall c f, lookup c (cmps w) = Some f -> existsb (fun p => snd p =? f) (statics w) = true.
Lemma static_event e w : all_static w -> all_static (event_ e w).
Proof. intros A. exact A. Qed.
Lemma set_static c f w : existsb (fun p => snd p =? f) (statics w) = true -> all_static w -> all_static (set_cmp c f w).
Proof. intros E A d g. cbn. rewrite lookup_bind. destruct (d =? c); [intros [= <-]; exact E|apply A]. Qed.
Lemma static_more n w i r v : inv w i -> static_facet n w = (r, v) -> all_static w -> all_static v.
Proof.
  intros I S A. destruct r as [f|].
  - destruct (static_spec _ _ _ _ _ I S) as (_ & _ & _ & _ & _ & _ & M & [l L]). intros c g K. rewrite M in K. rewrite L, existsb_app, (A c g K), orb_true_r. reflexivity.
  - revert S. unfold LocaleModel.static_facet, LocaleModel.make. destruct (find _ (statics w)) as [p|]; [discriminate|]. destruct (installed (name_of n)); intros [= <-]. exact A.
Qed.
Lemma alive_static f (w : world) : existsb (fun p => snd p =? f) (statics w) = true -> alive f w = true.
Proof. intros E. unfold alive. rewrite E, orb_true_r. reflexivity. Qed.
Lemma static_step s w i : inv w i -> named_only s = true -> all_static w -> match step false s w with Some (Ret w') => all_static w' | Some Ub => False | _ => True end.
Proof.
  intros J O A. destruct (only_calls s) eqn:OC.
  - pose proof (calls_step false s w i J OC) as NU. destruct (step false s w) as [[v| | |]|] eqn:S; try exact I; [|congruence]. clear NU.
    destruct s as [x n|x y|x|c x|c n|c n|c d|c a b|x a b|n a b|s x|s n]; cbn in O, OC, S; unfold with_var in S; try discriminate.
    + unfold LocaleModel.make in S. destruct (installed n); injection S as <-; exact A.
    + destruct (lookup x (locales w)); [|discriminate]. injection S as <-. exact A.
    + injection S as <-. exact A.
    + destruct (static_facet n w) as [r u] eqn:F. pose proof (static_more _ _ _ _ _ J F A) as A'. destruct r as [f|]; [|injection S as <-; exact A'].
      destruct (static_spec _ _ _ _ _ J F) as (_ & _ & _ & _ & E & _). injection S as S. unfold use_facet in S. destruct (has_ctype (name f u)); injection S as <-; [|exact A'].
      apply set_static; assumption.
    + destruct (lookup c (cmps w)) as [f|] eqn:L; [|discriminate]. injection S as <-. apply set_static; [apply (A c f L)|exact A].
    + destruct (lookup x (locales w)) as [f|]; [|discriminate]. injection S as S. unfold use_facet in S. destruct (has_ctype (name f w)); [|injection S as <-; exact A].
      unfold compare_with in S. destruct (alive f w); [|discriminate]. injection S as <-. exact A.
    + destruct (static_facet n w) as [r u] eqn:F. pose proof (static_more _ _ _ _ _ J F A) as A'. destruct r as [f|]; [|injection S as <-; exact A'].
      injection S as S. unfold use_facet in S. destruct (has_ctype (name f u)); [|injection S as <-; exact A'].
      unfold compare_with in S. destruct (alive f u); [|discriminate]. injection S as <-. exact A'.
    + destruct (lookup x (locales w)) as [f|]; [|discriminate]. injection S as S. unfold use_facet in S. destruct (has_ctype (name f w)); [|injection S as <-; exact A].
      unfold upper_with in S. destruct (alive f w); [|discriminate]. injection S as <-. exact A.
    + destruct (static_facet n w) as [r u] eqn:F. pose proof (static_more _ _ _ _ _ J F A) as A'. destruct r as [f|]; [|injection S as <-; exact A'].
      injection S as S. unfold use_facet in S. destruct (has_ctype (name f u)); [|injection S as <-; exact A'].
      unfold upper_with in S. destruct (alive f u); [|discriminate]. injection S as <-. exact A'.
  - destruct s as [x n|x y|x|c x|c n|c n|c d|c a b|x a b|n a b|s x|s n]; try discriminate. cbn. unfold with_var.
    destruct (lookup c (cmps w)) as [f|] eqn:L; [|exact I]. unfold compare_with. rewrite (alive_static f w (A c f L)). exact A.
Qed.
Lemma static_run p : forall w i, inv w i -> forallb named_only p = true -> all_static w -> run false p w <> Some Ub.
Proof.
  induction p as [|s p IH]; intros w i I O A; [discriminate|]. cbn in O. apply andb_true_iff in O. destruct O as [O1 O2]. cbn. pose proof (static_step s w i I O1 A) as S.
  pose proof (step_should false s w i I) as T. destruct (step false s w) as [[w'| | |]|]; try contradiction; try discriminate. destruct T as (j & _ & J). apply (IH w' j); assumption.
Qed.
Lemma static_proof p t : forallb named_only p = true -> as_it_should false p t.
Proof. intros O. apply not_ub_ok. eapply static_run; [apply inv_start|exact O|]. intros c f. discriminate. Qed.

(** a locale object that is kept *)
Lemma make_fields n (w : world) r (u : world) : make n w = (r, u) -> locales u = locales w /\ cmps u = cmps w.
Proof. unfold LocaleModel.make. destruct (installed n); intros [= <- <-]; split; reflexivity. Qed.
Lemma static_fields n (w : world) r (u : world) : static_facet n w = (r, u) -> locales u = locales w /\ cmps u = cmps w.
Proof.
  unfold LocaleModel.static_facet. destruct (find _ (statics w)); [intros [= <- <-]; split; reflexivity|].
  destruct (make (name_of n) w) as [[f|] v] eqn:M; intros [= <- <-]; apply make_fields in M; exact M.
Qed.
Lemma keep_step ns x c s f g w w' : keeps_locale x s = true -> keeps_cmp c s = true -> step ns s w = Some (Ret w') ->
  lookup x (locales w) = Some f -> lookup c (cmps w) = Some g -> lookup x (locales w') = Some f /\ lookup c (cmps w') = Some g.
Proof.
  intros K1 K2 S L M.
  set (good := fun v : world => lookup x (locales v) = Some f /\ lookup c (cmps v) = Some g).
  assert (G : good w) by (split; assumption). fold (good w').
  assert (GN : forall n k, (forall h u v, good u -> k h u = Ret v -> good v) -> forall v, with_named installed name_of ns n w k = Ret v -> good v).
  { intros n k K v. unfold with_named. destruct ns.
    - destruct (make (name_of n) w) as [r u] eqn:E. apply make_fields in E. destruct E as [E1 E2]. assert (GU : good u) by (split; [rewrite E1|rewrite E2]; assumption).
      destruct r as [h|]; [|intros [= <-]; exact GU]. unfold with_temporary. destruct (k h _) as [z| | |] eqn:X; try discriminate. intros [= <-].
      apply (K h (set_temporary (Some h) u) z); [exact GU|exact X].
    - destruct (static_facet n w) as [r u] eqn:E. apply static_fields in E. destruct E as [E1 E2]. assert (GU : good u) by (split; [rewrite E1|rewrite E2]; assumption).
      destruct r as [h|]; [|intros [= <-]; exact GU]. apply K, GU. }
  assert (GF : forall h u k v, good u -> (forall z, k = Ret z -> good z) -> use_facet has_ctype h u k = Ret v -> good v).
  { intros h u k v GU K. unfold use_facet. destruct (has_ctype (name h u)); [apply K|]. intros [= <-]. exact GU. }
  assert (GC : forall h a b u v, good u -> compare_with toupper eqb h a b u = Ret v -> good v).
  { intros h a b u v GU. unfold compare_with. destruct (alive h u); [|discriminate]. intros [= <-]. exact GU. }
  assert (GP : forall h s u v, good u -> upper_with toupper h s u = Ret v -> good v).
  { intros h s0 u v GU. unfold upper_with. destruct (alive h u); [|discriminate]. intros [= <-]. exact GU. }
  assert (GS : forall d h u, (c =? d) = false -> good u -> good (set_cmp d h u)).
  { intros d h u N [G1 G2]. split; [exact G1|]. cbn. rewrite lookup_bind, N. exact G2. }
  assert (GL : forall y h u, (x =? y) = false -> good u -> good (set_locale y h u)).
  { intros y h u N [G1 G2]. split; [|exact G2]. cbn. rewrite lookup_bind, N. exact G1. }
  destruct s as [y n|y z|y|d y|d n|d n|d e|d a b|y a b|n a b|s y|s n]; cbn in K1, K2, S; unfold with_var in S;
    apply negb_true_iff in K1 || clear K1; apply negb_true_iff in K2 || clear K2.
  - destruct (make n w) as [r u] eqn:E. apply make_fields in E. destruct E as [E1 E2]. assert (GU : good u) by (split; [rewrite E1|rewrite E2]; assumption).
    destruct r as [h|]; injection S as <-; [apply GL; assumption|exact GU].
  - destruct (lookup y (locales w)); [|discriminate]. injection S as <-. apply GL; assumption.
  - injection S as <-. split; [|exact M]. cbn. rewrite lookup_drop, K1. exact L.
  - destruct (lookup y (locales w)) as [h|]; [|discriminate]. injection S as S. eapply GF; [exact G| |exact S]. intros v [= <-]. apply GS; assumption.
  - injection S as S. eapply GN; [|exact S]. cbn. intros h u v GU X. eapply GF; [exact GU| |exact X]. intros z [= <-]. apply GS; assumption.
  - destruct (make n w) as [r u] eqn:E. apply make_fields in E. destruct E as [E1 E2]. assert (GU : good u) by (split; [rewrite E1|rewrite E2]; assumption).
    destruct r as [h|]; [|injection S as <-; exact GU]. unfold with_temporary in S. destruct (use_facet has_ctype h _ _) as [z| | |] eqn:X; try discriminate. injection S as <-.
    change (good z). refine (GF h (set_temporary (Some h) u) _ z GU _ X). intros v [= <-]. apply (GS d h (set_temporary (Some h) u)); assumption.
  - destruct (lookup d (cmps w)); [|discriminate]. injection S as <-. apply GS; assumption.
  - destruct (lookup d (cmps w)); [|discriminate]. injection S as S. eapply GC; eassumption.
  - destruct (lookup y (locales w)) as [h|]; [|discriminate]. injection S as S. eapply GF; [exact G| |exact S]. intros v X. eapply GC; eassumption.
  - injection S as S. eapply GN; [|exact S]. cbn. intros h u v GU X. eapply GF; [exact GU| |exact X]. intros z Y. eapply GC; eassumption.
  - destruct (lookup y (locales w)) as [h|]; [|discriminate]. injection S as S. eapply GF; [exact G| |exact S]. intros v X. eapply GP; eassumption.
  - injection S as S. eapply GN; [|exact S]. cbn. intros h u v GU X. eapply GF; [exact GU| |exact X]. intros z Y. eapply GP; eassumption.
Qed.
Lemma keep_run ns x c f g p : forall w w', forallb (keeps_locale x) p = true -> forallb (keeps_cmp c) p = true -> run ns p w = Some (Ret w') ->
  lookup x (locales w) = Some f -> lookup c (cmps w) = Some g -> lookup x (locales w') = Some f /\ lookup c (cmps w') = Some g.
Proof.
  induction p as [|s p IH]; intros w w' K1 K2 R L M; cbn in K1, K2, R; [injection R as <-; tauto|].
  apply andb_true_iff in K1, K2. destruct K1 as [K1 K1'], K2 as [K2 K2']. destruct (step ns s w) as [[v| | |]|] eqn:S; try discriminate.
  destruct (keep_step ns x c s f g w v K1 K2 S L M) as [L' M']. apply (IH v w'); assumption.
Qed.
(** the locale of [x] after the program [p] has the facet *)
Lemma kept_proof ns p c x q t n a b w : forallb (keeps_locale x) q = true -> forallb (keeps_cmp c) q = true ->
  run ns p (empty t) = Some (Ret w) -> option_map (fun i => locale_name i x) (should_all p (start t)) = Some (Some n) -> has_ctype n = true ->
  run ns (p ++ CmpOf c x :: q) (empty t) <> Some Ub -> as_it_should ns (p ++ CmpOf c x :: q ++ [CmpUse c a b]) t.
Proof.
  intros K1 K2 R E H NU. destruct (run_reachable _ _ _ _ R) as (i & SI & I). rewrite SI in E. injection E as E.
  assert (L : exists f, lookup x (locales w) = Some f /\ name f w = n).
  { destruct I as (_ & S1 & _). specialize (S1 x). rewrite E in S1. destruct (lookup x (locales w)) as [f|]; [|discriminate]. injection S1 as S1. exists f. split; [reflexivity|exact S1]. }
  destruct L as (f & L & N). apply not_ub_ok. replace (p ++ CmpOf c x :: q ++ [CmpUse c a b]) with ((p ++ CmpOf c x :: q) ++ [CmpUse c a b]) by (rewrite <- app_assoc; reflexivity).
  rewrite run_app. destruct (run ns (p ++ CmpOf c x :: q) (empty t)) as [[v| | |]|] eqn:T; try congruence; try discriminate.
  rewrite run_app, R in T. cbn [LocaleModel.run LocaleModel.step] in T. unfold with_var in T. rewrite L in T. unfold use_facet in T. rewrite N, H in T.
  destruct (keep_run ns x c f f q _ _ K1 K2 T) as [L' M']; [exact L|cbn; rewrite lookup_bind, Nat.eqb_refl; reflexivity|].
  cbn. unfold with_var. rewrite M'. unfold compare_with. rewrite (alive_lookup x f v L'). discriminate.
Qed.
Notation good_name := (good_name installed has_ctype).
Notation good_stmt := (good_stmt installed has_ctype name_of).
Definition quiet (i : ideal (C:=C)) : Prop :=
  (forall e, In e (seen i) -> exists b, e = Result b) /\ (forall x n, locale_name i x = Some n -> has_ctype n = true).
Lemma quiet_see b i : quiet i -> quiet (see (Result b) i).
Proof. intros [Q1 Q2]. split; [|exact Q2]. cbn. intros e. rewrite in_app_iff. intros [J|[<-|[]]]; [apply Q1, J|exists b; reflexivity]. Qed.
Lemma quiet_step s i j : good_stmt s -> quiet i -> should s i = Some j -> quiet j.
Proof.
  intros G Q. assert (QF : forall x n k, locale_name i x = Some n -> quiet k -> quiet (with_facet has_ctype n i k)).
  { intros x n k E K. unfold with_facet. rewrite (proj2 Q x n E). exact K. }
  assert (QL : forall n k, good_name n -> quiet k -> quiet (with_locale installed has_ctype n i k)).
  { intros n k [E1 E2] K. unfold with_locale. rewrite E1, E2. exact K. }
  assert (QP : forall x n, has_ctype n = true -> quiet (Ideal (put (locale_name i) x (Some n)) (cmp_name i) (contents i) (seen i))).
  { intros x n H. split; [apply Q|]. intros y m. cbn. unfold put. destruct (y =? x); [intros [= <-]; exact H|apply Q]. }
  assert (QC : forall cm ct, quiet (Ideal (locale_name i) cm ct (seen i))) by (intros; split; apply Q).
  destruct s as [x n|x y|x|c x|c n|c n|c d|c a b|x a b|n a b|s x|s n]; cbn in G |- *.
  - destruct G as [E1 E2]. rewrite E1. intros [= <-]. apply QP, E2.
  - destruct (locale_name i x) as [n|] eqn:E; [|discriminate]. intros [= <-]. apply QP, (proj2 Q x n E).
  - intros [= <-]. split; [apply Q|]. intros y m. cbn. unfold put. destruct (y =? x); [discriminate|apply Q].
  - destruct (locale_name i x) as [n|] eqn:E; [|discriminate]. intros [= <-]. eapply QF; [exact E|apply QC].
  - intros [= <-]. apply QL; [exact G|apply QC].
  - intros [= <-]. apply QL; [exact G|apply QC].
  - destruct (cmp_name i c) as [n|]; [|discriminate]. intros [= <-]. apply QC.
  - destruct (cmp_name i c) as [n|]; [|discriminate]. intros [= <-]. apply quiet_see, Q.
  - destruct (locale_name i x) as [n|] eqn:E; [|discriminate]. intros [= <-]. eapply QF; [exact E|apply quiet_see, Q].
  - intros [= <-]. apply QL; [exact G|apply quiet_see, Q].
  - destruct (locale_name i x) as [n|] eqn:E; [|discriminate]. intros [= <-]. eapply QF; [exact E|apply QC].
  - intros [= <-]. apply QL; [exact G|apply QC].
Qed.
Lemma quiet_all p : forall i j, Forall good_stmt p -> quiet i -> should_all p i = Some j -> quiet j.
Proof.
  induction p as [|s p IH]; intros i j G Q; cbn; [intros [= <-]; exact Q|]. inversion G as [|? ? G1 G2]; subst. destruct (should s i) as [k|] eqn:S; [|discriminate].
  apply IH; [exact G2|exact (quiet_step s i k G1 Q S)].
Qed.
Lemma quiet_proof ns p t w : Forall good_stmt p -> run ns p (empty t) = Some (Ret w) -> forall e, In e (events w) -> exists b, e = Result b.
Proof.
  intros G R. destruct (run_reachable _ _ _ _ R) as (j & J & _ & _ & _ & _ & E). rewrite E. eapply quiet_all; [exact G| |exact J]. split; [intros e []|discriminate].
Qed.
End Proofs.
