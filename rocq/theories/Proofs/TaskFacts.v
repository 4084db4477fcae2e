(** Visiting the tasks of a set, and the bulk helpers: C19, C20. *)
From Coq Require Import String Ascii Sorted Relations Permutation Lia.
From Verif Require Import Model.Common Model.TaskSet Model.Dag Spec.Tasks Proofs.Sets.
Open Scope string_scope.
Open Scope nat_scope.
Open Scope list_scope.

Section Ind.
  Variable P : task_set -> Prop.
  Hypothesis H : forall tasks sets, (forall name s, In (name, s) sets -> P s) -> P (TaskSet tasks sets).
  Fixpoint task_set_nested_ind (ts : task_set) : P ts :=
    match ts with
    | TaskSet tasks sets =>
        H tasks sets
          ((fix go (l : list (string * task_set)) : forall name s, In (name, s) l -> P s :=
              match l with
              | [] => fun name s (H : In (name, s) []) => match H with end
              | (n0, s0) :: l' =>
                  fun name s HIn =>
                    match HIn with
                    | or_introl E => match E in _ = p return P (snd p) with eq_refl => task_set_nested_ind s0 end
                    | or_intror HIn' => go l' name s HIn'
                    end
              end) sets)
    end.
End Ind.

(** The tasks with their paths, in the order of the visit. *)
Fixpoint paths (ts : task_set) : list (list string * tid) :=
  match ts with
  | TaskSet tasks sets =>
      map (fun nt => ([fst nt], snd nt)) tasks ++
      (fix go (l : list (string * task_set)) :=
         match l with
         | [] => []
         | (name, s) :: l' => map (fun pt => (name :: fst pt, snd pt)) (paths s) ++ go l'
         end) sets
  end.

Lemma paths_eq tasks sets :
  paths (TaskSet tasks sets) =
  map (fun nt => ([fst nt], snd nt)) tasks ++
  flat_map (fun ns => map (fun pt => (fst ns :: fst pt, snd pt)) (paths (snd ns))) sets.
Proof.
  cbn. f_equal. induction sets as [|[n s] l IH]; cbn; [reflexivity|]. now rewrite IH.
Qed.

Lemma impl_eq tasks sets pre :
  for_each_task_impl (TaskSet tasks sets) pre =
  map (fun nt => (pre ++ "/" ++ fst nt, snd nt))%string tasks ++
  flat_map (fun ns => for_each_task_impl (snd ns) (pre ++ "/" ++ fst ns)%string) sets.
Proof.
  cbn. f_equal. induction sets as [|[n s] l IH]; cbn; [reflexivity|]. now rewrite IH.
Qed.

Lemma sapp_assoc a b c : ((a ++ b) ++ c = a ++ (b ++ c))%string.
Proof. induction a; cbn; [reflexivity|now rewrite IHa]. Qed.
Lemma sapp_nil a : (a ++ "" = a)%string.
Proof. induction a; cbn; [reflexivity|now rewrite IHa]. Qed.

Lemma impl_paths ts : forall pre,
  for_each_task_impl ts pre = map (fun pt => (pre ++ slashed (fst pt), snd pt)%string) (paths ts).
Proof.
  induction ts as [tasks sets IH] using task_set_nested_ind. intros pre.
  rewrite impl_eq, paths_eq, map_app. f_equal.
  - rewrite map_map. apply map_ext. intros [n t]. cbn. now rewrite sapp_nil.
  - induction sets as [|[n s] l IHl]; [reflexivity|].
    cbn [flat_map fst snd]. rewrite map_app. f_equal.
    + rewrite (IH n s (or_introl eq_refl)), map_map. apply map_ext. intros [p t].
      cbn [fst snd slashed]. now rewrite !sapp_assoc.
    + apply IHl. intros. eapply IH. right. eassumption.
Qed.

Lemma paths_holds ts : forall p t, In (p, t) (paths ts) <-> holds ts p t.
Proof.
  induction ts as [tasks sets IH] using task_set_nested_ind. intros p t.
  rewrite paths_eq, in_app_iff, in_map_iff, in_flat_map. split.
  - intros [([n u] & E & HI)|([n s] & HI & HM)].
    + cbn in E. inversion E; subst. now constructor.
    + cbn in HM. apply in_map_iff in HM. destruct HM as ([q u] & E & HQ). cbn in E. inversion E; subst.
      econstructor; [exact HI|]. now apply (IH n s HI).
  - intros Hh. inversion Hh as [? ? name ? Hn|? ? name s q ? Hn Hs]; subst.
    + left. exists (name, t). auto.
    + right. exists (name, s). split; [exact Hn|]. cbn. apply in_map_iff. exists (q, t).
      split; [reflexivity|]. now apply (IH name s Hn).
Qed.

Lemma holds_nonempty ts p t : holds ts p t -> exists c q, p = c :: q.
Proof. intros []; eauto. Qed.

Lemma StronglySorted_app {A} (R : A -> A -> Prop) l1 l2 :
  StronglySorted R l1 -> StronglySorted R l2 ->
  (forall x y, In x l1 -> In y l2 -> R x y) -> StronglySorted R (l1 ++ l2).
Proof.
  intros H1 H2 H. induction H1 as [|x l1 H1 IH Hx]; cbn; [exact H2|].
  constructor.
  - apply IH. intros. apply H; cbn; auto.
  - apply Forall_app. split; [exact Hx|]. apply Forall_forall. intros y Hy. apply H; cbn; auto.
Qed.

Lemma StronglySorted_map {A B} (f : A -> B) (R : B -> B -> Prop) l :
  StronglySorted (fun x y => R (f x) (f y)) l -> StronglySorted R (map f l).
Proof.
  induction 1 as [|x l H IH Hx]; cbn; constructor; auto.
  apply Forall_map. exact Hx.
Qed.

Lemma StronglySorted_map_inv {A B} (f : A -> B) (R : B -> B -> Prop) l :
  StronglySorted R (map f l) -> StronglySorted (fun x y => R (f x) (f y)) l.
Proof.
  induction l as [|x l IH]; cbn; intros H; [constructor|]. inversion H as [|? ? H1 H2]; subst.
  constructor; [auto|]. rewrite Forall_map in H2. exact H2.
Qed.

Lemma StronglySorted_impl {A} (R Q : A -> A -> Prop) l :
  (forall x y, In x l -> In y l -> R x y -> Q x y) -> StronglySorted R l -> StronglySorted Q l.
Proof.
  intros Hi H. induction H as [|x l H IH Hx]; constructor.
  - apply IH. intros. apply Hi; cbn; auto.
  - rewrite Forall_forall in *. intros y Hy. apply Hi; cbn; auto.
Qed.

Lemma paths_sorted ts : ordered ts -> StronglySorted comes_before (map fst (paths ts)).
Proof.
  induction ts as [tasks sets IH] using task_set_nested_ind. intros Ho.
  inversion Ho as [? ? Ht Hs Hsub]; subst. rewrite paths_eq, map_app.
  assert (Hne : forall ns p, In ns sets ->
             In p (map fst (map (fun pt => (fst ns :: fst pt, snd pt)) (paths (snd ns)))) ->
             exists c q, p = fst ns :: c :: q).
  { intros [n s] p HI HP. cbn in *. rewrite map_map in HP. apply in_map_iff in HP.
    destruct HP as ([q t] & E & HQ). apply paths_holds in HQ. apply holds_nonempty in HQ.
    destruct HQ as (c & r & E2). cbn in E. rewrite <- E, E2. eauto. }
  apply StronglySorted_app.
  - rewrite map_map. cbn. rewrite <- (map_map fst (fun n => [n])).
    apply StronglySorted_map. eapply StronglySorted_impl; [|exact Ht]. intros x y _ _ Hxy. now constructor.
  - clear Ht Ho. induction sets as [|[n s] l IHl]; cbn -[paths]; [constructor|].
    rewrite map_app. inversion Hs as [|? ? Hs1 Hs2]; subst. apply StronglySorted_app.
    + rewrite map_map. cbn. rewrite <- (map_map fst (fun p => n :: p)). apply StronglySorted_map.
      eapply StronglySorted_impl; [|apply (IH n s (or_introl eq_refl)); apply (Hsub n s (or_introl eq_refl))].
      intros x y Hx Hy Hxy.
      apply in_map_iff in Hx. destruct Hx as ([px tx] & E1 & Hx). apply paths_holds, holds_nonempty in Hx.
      destruct Hx as (? & ? & E1').
      apply in_map_iff in Hy. destruct Hy as ([py ty] & E2 & Hy). apply paths_holds, holds_nonempty in Hy.
      destruct Hy as (? & ? & E2'). cbn in E1, E2. subst. now apply cb_same.
    + apply IHl; [intros; eapply IH; [right; eassumption|assumption] | exact Hs1
                  | intros; eapply Hsub; right; eassumption | intros; eapply Hne; [right; eassumption|eassumption]].
    + intros x y Hx Hy.
      destruct (Hne (n, s) x (or_introl eq_refl) Hx) as (c & q & ->).
      apply in_map_iff in Hy. destruct Hy as (pt & <- & Hy). apply in_flat_map in Hy.
      destruct Hy as ([n' s'] & HI & Hy).
      destruct (Hne (n', s') (fst pt) (or_intror HI)) as (c' & q' & ->).
      { now apply in_map. }
      apply cb_subs. cbn. rewrite Forall_forall in Hs2. apply Hs2. now apply (in_map fst) in HI.
  - intros x y Hx Hy. rewrite map_map in Hx. apply in_map_iff in Hx. destruct Hx as ([n t] & <- & _).
    apply in_map_iff in Hy. destruct Hy as (pt & <- & Hy). apply in_flat_map in Hy.
    destruct Hy as ([n' s'] & HI & Hy).
    destruct (Hne (n', s') (fst pt) HI) as (c' & q' & ->); [now apply in_map|].
    cbn. apply cb_task_sub.
Qed.

Lemma key_lt_irrefl a : ~ key_lt a a.
Proof.
  unfold key_lt. induction a as [|x a IH]; cbn; [discriminate|].
  unfold Ascii.compare. rewrite N.compare_refl. exact IH.
Qed.

Lemma comes_before_irrefl p : ~ comes_before p p.
Proof.
  induction p as [|a p IH]; intros H; inversion H; subst; try (eapply key_lt_irrefl; eassumption).
  now apply IH.
Qed.

Lemma paths_NoDup ts : ordered ts -> NoDup (map fst (paths ts)).
Proof.
  intros Ho. pose proof (paths_sorted ts Ho) as H. induction H as [|x l H IH Hx]; constructor; auto.
  intros HI. rewrite Forall_forall in Hx. now apply (comes_before_irrefl x), Hx.
Qed.

(** ** C19 *)
Theorem visit_order ts :
  ordered ts ->
  exists vs, for_each_task ts = map (fun pt => (full_name (fst pt), snd pt)) vs /\
             (forall p t, In (p, t) vs <-> holds ts p t) /\
             StronglySorted comes_before (map fst vs) /\ NoDup (map fst vs).
Proof.
  intros Ho. exists (paths ts). split; [apply impl_paths|]. split; [apply paths_holds|].
  split; [now apply paths_sorted|now apply paths_NoDup].
Qed.

Lemma slashed_split c p d q :
  has_slash c = false -> has_slash d = false ->
  (forall r, In r p -> has_slash r = false) -> (forall r, In r q -> has_slash r = false) ->
  (c ++ slashed p = d ++ slashed q)%string -> c = d /\ slashed p = slashed q.
Proof.
  revert d. induction c as [|a c IH]; intros d Hc Hd Hp Hq E.
  - cbn in E. destruct d as [|b d]; [auto|]. exfalso. destruct p as [|x p]; cbn in E; [discriminate|].
    inversion E; subst. cbn in Hd. discriminate.
  - cbn in Hc. apply orb_false_iff in Hc. destruct Hc as [Ha Hc]. destruct d as [|b d].
    + exfalso. destruct q as [|x q]; cbn in E; [discriminate|]. inversion E; subst. cbn in Ha. discriminate.
    + cbn in E, Hd. inversion E; subst. apply orb_false_iff in Hd. destruct Hd as [_ Hd].
      destruct (IH d Hc Hd Hp Hq H1) as [-> E']. auto.
Qed.

Lemma slashed_inj p : forall q, plain p -> plain q -> slashed p = slashed q -> p = q.
Proof.
  induction p as [|c p IH]; intros [|d q] Hp Hq E; cbn in E; try discriminate; [reflexivity|].
  inversion E as [E']. destruct (slashed_split c p d q) as [-> E2].
  - apply Hp. cbn. auto.
  - apply Hq. cbn. auto.
  - intros r Hr. apply Hp. cbn. auto.
  - intros r Hr. apply Hq. cbn. auto.
  - exact E'.
  - f_equal. apply IH; [intros r Hr; apply Hp; cbn; auto|intros r Hr; apply Hq; cbn; auto|exact E2].
Qed.

Theorem full_name_inj p q : plain p -> plain q -> full_name p = full_name q -> p = q.
Proof. intros Hp Hq E. inversion E. now apply slashed_inj. Qed.

(** ** C20 *)
Definition visited (ts : task_set) : list tid := map snd (for_each_task ts).

Lemma visited_holds ts t : In t (visited ts) <-> exists p, holds ts p t.
Proof.
  unfold visited, for_each_task. rewrite impl_paths, map_map. cbn. rewrite in_map_iff. split.
  - intros ([p u] & <- & H). exists p. now apply paths_holds.
  - intros [p H]. exists (p, t). split; [reflexivity|]. now apply paths_holds.
Qed.

Lemma visited_NoDup ts : ordered ts -> owned ts -> NoDup (visited ts).
Proof.
  intros Ho Hw. unfold visited, for_each_task. rewrite impl_paths, map_map. cbn.
  pose proof (paths_NoDup ts Ho) as Hn.
  assert (Hi : forall p q t, In (p, t) (paths ts) -> In (q, t) (paths ts) -> p = q).
  { intros p q t H1 H2. apply paths_holds in H1, H2. eauto. }
  revert Hn Hi. generalize (paths ts). intros l. induction l as [|[p t] l IH]; cbn; intros Hn Hi; constructor.
  - intros HI. apply in_map_iff in HI. destruct HI as ([q u] & E & HI). cbn in E. subst.
    inversion Hn as [|? ? Hn1 Hn2]; subst. apply Hn1.
    rewrite (Hi p q t (or_introl eq_refl) (or_intror HI)). now apply (in_map fst) in HI.
  - apply IH; [now inversion Hn|]. intros. eapply Hi; right; eassumption.
Qed.

Lemma owned_visited ts : NoDup (visited ts) -> owned ts.
Proof.
  unfold visited, for_each_task. rewrite impl_paths, map_map. cbn. intros Hn p q t Hp Hq.
  apply paths_holds in Hp, Hq. revert Hn Hp Hq. generalize (paths ts). intros l.
  induction l as [|[x u] l IH]; cbn; [intros _ []|]. intros Hn Hp Hq. inversion Hn as [|? ? Hu Hl]; subst.
  destruct Hp as [Hp|Hp], Hq as [Hq|Hq].
  - congruence.
  - inversion Hp; subst. exfalso. apply Hu. now apply (in_map snd) in Hq.
  - inversion Hq; subst. exfalso. apply Hu. now apply (in_map snd) in Hp.
  - auto.
Qed.

Definition add_each (f : tid -> task -> task) (skip : tid -> bool) (l : list tid) (st : store) : store :=
  fold_left (fun st x => if skip x then st else store_set st x (f x (st_get st x))) l st.

Lemma add_each_spec f skip l : forall st,
  NoDup l ->
  st_dom (add_each f skip l st) = st_dom st /\
  forall x, st_get (add_each f skip l st) x =
            if mem x l && negb (skip x) then f x (st_get st x) else st_get st x.
Proof.
  induction l as [|y l IH]; intros st Hn; [cbn; auto|].
  inversion Hn as [|? ? Hy Hl]; subst. cbn [add_each fold_left]. fold (add_each f skip l).
  destruct (IH (if skip y then st else store_set st y (f y (st_get st y))) Hl) as [Hd Hg].
  unfold add_each in Hd, Hg. split.
  - rewrite Hd. destruct (skip y); reflexivity.
  - intros x. rewrite Hg. unfold mem in *. cbn [existsb]. destruct (Nat.eqb_spec x y) as [->|Hxy]; cbn [orb].
    + apply mem_false in Hy. unfold mem in Hy. rewrite Hy. cbn. destruct (skip y); cbn; [reflexivity|].
      apply upd_same.
    + destruct (skip y); cbn; [reflexivity|]. rewrite upd_other by exact Hxy. reflexivity.
Qed.

Lemma fold_map_snd {A B} (f : A -> tid -> A) (l : list (B * tid)) : forall a,
  fold_left (fun a nt => f a (snd nt)) l a = fold_left f (map snd l) a.
Proof. induction l; intros; cbn; auto. Qed.

Lemma mem_holds ts x : mem x (visited ts) = true <-> exists p, holds ts p x.
Proof. rewrite mem_In. apply visited_holds. Qed.

(** Each task of the set other than [dep] gets [dep] appended; nothing else changes. *)
Lemma add_each_holds f (dep : tid) st st' ts :
  ordered ts -> owned ts ->
  st' = add_each f (fun x => x =? dep) (visited ts) st ->
  st_dom st' = st_dom st /\
  (forall x p, holds ts p x -> x <> dep -> st_get st' x = f x (st_get st x)) /\
  (forall x, ~ (exists p, holds ts p x) \/ x = dep -> st_get st' x = st_get st x).
Proof.
  intros Ho Hw ->. destruct (add_each_spec f (fun x => x =? dep) (visited ts) st (visited_NoDup ts Ho Hw)) as [Hd Hg].
  split; [exact Hd|]. split.
  - intros x p Hx Hn. rewrite Hg. rewrite (proj2 (mem_holds ts x)) by eauto.
    apply Nat.eqb_neq in Hn. now rewrite Hn.
  - intros x Hx. rewrite Hg. destruct Hx as [Hx| ->].
    + destruct (mem x (visited ts)) eqn:E; [|reflexivity]. apply mem_holds in E. contradiction.
    + rewrite Nat.eqb_refl, andb_false_r. reflexivity.
Qed.

Theorem for_each_add_dep_spec st ts dep :
  ordered ts -> owned ts ->
  let st' := for_each_add_dep st ts dep in
  st_dom st' = st_dom st /\
  (forall x p, holds ts p x -> x <> dep ->
     let y := st_get st x in
     st_get st' x = Task (t_has_job y) (t_depends_on y ++ [dep]) (t_run_after y) (t_invalidated_by y)
                         (t_resources y) (t_hidden y)) /\
  (forall x, ~ (exists p, holds ts p x) \/ x = dep -> st_get st' x = st_get st x).
Proof.
  intros Ho Hw st'. apply (add_each_holds (fun _ => add_depends_on dep)); auto.
  unfold st', for_each_add_dep, add_each, visited.
  apply (fold_map_snd (fun st x => if x =? dep then st else store_set st x (add_depends_on dep (st_get st x)))).
Qed.

Theorem run_each_after_spec st ts t :
  ordered ts -> owned ts ->
  let st' := run_each_after st ts t in
  st_dom st' = st_dom st /\
  (forall x p, holds ts p x -> x <> t ->
     let y := st_get st x in
     st_get st' x = Task (t_has_job y) (t_depends_on y) (t_run_after y ++ [t]) (t_invalidated_by y)
                         (t_resources y) (t_hidden y)) /\
  (forall x, ~ (exists p, holds ts p x) \/ x = t -> st_get st' x = st_get st x).
Proof.
  intros Ho Hw st'. apply (add_each_holds (fun _ => add_run_after t)); auto.
  unfold st', run_each_after, add_each, visited.
  apply (fold_map_snd (fun st x => if x =? t then st else store_set st x (add_run_after t (st_get st x)))).
Qed.

(** Appending to one task. *)
Definition append_all (f : tid -> task -> task) (t : tid) (l : list tid) (st : store) : store :=
  fold_left (fun st x => if t =? x then st else store_set st t (f x (st_get st t))) l st.

Lemma append_all_spec f t l : forall st,
  st_dom (append_all f t l st) = st_dom st /\
  (forall x, x <> t -> st_get (append_all f t l st) x = st_get st x) /\
  st_get (append_all f t l st) t =
    fold_left (fun x d => f d x) (filter (fun d => negb (d =? t)) l) (st_get st t).
Proof.
  induction l as [|y l IH]; intros st; [cbn; auto|].
  cbn [append_all fold_left]. fold (append_all f t l).
  destruct (IH (if t =? y then st else store_set st t (f y (st_get st t)))) as (Hd & Ho & Ht).
  unfold append_all in Hd, Ho, Ht. split; [|split].
  - rewrite Hd. destruct (t =? y); reflexivity.
  - intros x Hx. rewrite Ho by exact Hx. destruct (t =? y); [reflexivity|]. cbn. now apply upd_other.
  - rewrite Ht. cbn [filter]. rewrite (Nat.eqb_sym y t). destruct (t =? y); cbn; [reflexivity|].
    now rewrite upd_same.
Qed.

Lemma fold_add_depends l : forall x,
  fold_left (fun x d => add_depends_on d x) l x =
  Task (t_has_job x) (t_depends_on x ++ l) (t_run_after x) (t_invalidated_by x) (t_resources x) (t_hidden x).
Proof.
  induction l as [|d l IH]; intros x; cbn.
  - rewrite app_nil_r. now destruct x.
  - rewrite IH. cbn. now rewrite <- app_assoc.
Qed.
Lemma fold_add_after l : forall x,
  fold_left (fun x d => add_run_after d x) l x =
  Task (t_has_job x) (t_depends_on x) (t_run_after x ++ l) (t_invalidated_by x) (t_resources x) (t_hidden x).
Proof.
  induction l as [|d l IH]; intros x; cbn.
  - rewrite app_nil_r. now destruct x.
  - rewrite IH. cbn. now rewrite <- app_assoc.
Qed.
Lemma fold_add_inval l : forall x,
  fold_left (fun x d => add_invalidated_by d x) l x =
  Task (t_has_job x) (t_depends_on x) (t_run_after x) (t_invalidated_by x ++ l) (t_resources x) (t_hidden x).
Proof.
  induction l as [|d l IH]; intros x; cbn.
  - rewrite app_nil_r. now destruct x.
  - rewrite IH. cbn. now rewrite <- app_assoc.
Qed.

Lemma others_spec ts t :
  ordered ts -> owned ts ->
  let l := filter (fun d => negb (d =? t)) (visited ts) in
  NoDup l /\ forall d, In d l <-> d <> t /\ exists p, holds ts p d.
Proof.
  intros Ho Hw l. split; [apply NoDup_filter; now apply visited_NoDup|].
  intros d. unfold l. rewrite filter_In, visited_holds, negb_true_iff, Nat.eqb_neq. tauto.
Qed.

Theorem add_dep_to_each_spec st t ts :
  ordered ts -> owned ts ->
  let st' := add_dep_to_each st t ts in
  let x := st_get st t in
  st_dom st' = st_dom st /\
  (forall y, y <> t -> st_get st' y = st_get st y) /\
  exists l, l = filter (fun d => negb (d =? t)) (map snd (for_each_task ts)) /\
    NoDup l /\ (forall d, In d l <-> d <> t /\ exists p, holds ts p d) /\
    st_get st' t = Task (t_has_job x) (t_depends_on x ++ l) (t_run_after x) (t_invalidated_by x)
                        (t_resources x) (t_hidden x).
Proof.
  intros Ho Hw st' x.
  assert (E : st' = append_all add_depends_on t (visited ts) st).
  { unfold st', add_dep_to_each, append_all, visited.
    apply (fold_map_snd (fun st y => if t =? y then st else store_set st t (add_depends_on y (st_get st t)))). }
  destruct (append_all_spec add_depends_on t (visited ts) st) as (Hd & Hf & Ht). rewrite <- E in *.
  split; [exact Hd|]. split; [exact Hf|]. eexists. split; [reflexivity|].
  destruct (others_spec ts t Ho Hw) as [Hn Hi]. split; [exact Hn|]. split; [exact Hi|].
  rewrite Ht. apply fold_add_depends.
Qed.

Theorem run_after_all_of_spec st t ts :
  ordered ts -> owned ts ->
  let st' := run_after_all_of st t ts in
  let x := st_get st t in
  st_dom st' = st_dom st /\
  (forall y, y <> t -> st_get st' y = st_get st y) /\
  exists l, l = filter (fun d => negb (d =? t)) (map snd (for_each_task ts)) /\
    NoDup l /\ (forall d, In d l <-> d <> t /\ exists p, holds ts p d) /\
    st_get st' t = Task (t_has_job x) (t_depends_on x) (t_run_after x ++ l) (t_invalidated_by x)
                        (t_resources x) (t_hidden x).
Proof.
  intros Ho Hw st' x.
  assert (E : st' = append_all add_run_after t (visited ts) st).
  { unfold st', run_after_all_of, append_all, visited.
    apply (fold_map_snd (fun st y => if t =? y then st else store_set st t (add_run_after y (st_get st t)))). }
  destruct (append_all_spec add_run_after t (visited ts) st) as (Hd & Hf & Ht). rewrite <- E in *.
  split; [exact Hd|]. split; [exact Hf|]. eexists. split; [reflexivity|].
  destruct (others_spec ts t Ho Hw) as [Hn Hi]. split; [exact Hn|]. split; [exact Hi|].
  rewrite Ht. apply fold_add_after.
Qed.

Theorem invalidated_by_all_of_spec st t ts :
  ordered ts -> owned ts ->
  let st' := invalidated_by_all_of st t ts in
  let x := st_get st t in
  st_dom st' = st_dom st /\
  (forall y, y <> t -> st_get st' y = st_get st y) /\
  exists l, l = filter (fun d => negb (d =? t)) (map snd (for_each_task ts)) /\
    NoDup l /\ (forall d, In d l <-> d <> t /\ exists p, holds ts p d) /\
    st_get st' t = Task (t_has_job x) (t_depends_on x) (t_run_after x) (t_invalidated_by x ++ l)
                        (t_resources x) (t_hidden x).
Proof.
  intros Ho Hw st' x.
  assert (E : st' = append_all add_invalidated_by t (visited ts) st).
  { unfold st', invalidated_by_all_of, append_all, visited.
    apply (fold_map_snd (fun st y => if t =? y then st else store_set st t (add_invalidated_by y (st_get st t)))). }
  destruct (append_all_spec add_invalidated_by t (visited ts) st) as (Hd & Hf & Ht). rewrite <- E in *.
  split; [exact Hd|]. split; [exact Hf|]. eexists. split; [reflexivity|].
  destruct (others_spec ts t Ho Hw) as [Hn Hi]. split; [exact Hn|]. split; [exact Hi|].
  rewrite Ht. apply fold_add_inval.
Qed.

(** ** C60 *)
Lemma dep_after st ts dep a b :
  ordered ts -> owned ts ->
  task_after (for_each_add_dep st ts dep) a b <->
  task_after st a b \/ (b = dep /\ a <> dep /\ exists p, holds ts p a).
Proof.
  intros Ho Hw. destruct (for_each_add_dep_spec st ts dep Ho Hw) as (_ & H1 & H2).
  unfold task_after. destruct (mem a (visited ts)) eqn:E.
  - apply mem_holds in E. destruct E as [p Hp]. destruct (Nat.eq_dec a dep) as [->|Hn].
    + rewrite (H2 dep (or_intror eq_refl)). tauto.
    + rewrite (H1 a p Hp Hn). cbn. rewrite in_app_iff. cbn. split.
      * intros [[?|[<-|[]]]|?]; auto. right. eauto.
      * intros [[?|?]|(-> & _ & _)]; auto.
  - assert (Hno : ~ exists p, holds ts p a) by (intros Hp; apply mem_holds in Hp; congruence).
    rewrite (H2 a (or_introl Hno)). tauto.
Qed.

Lemma clos_t_rt {A} (R : A -> A -> Prop) x y : clos_trans A R x y -> clos_refl_trans A R x y.
Proof. induction 1; [now apply rt_step|eapply rt_trans; eassumption]. Qed.

Lemma clos_rt_cases {A} (R : A -> A -> Prop) x y :
  clos_refl_trans A R x y -> x = y \/ clos_trans A R x y.
Proof.
  induction 1 as [x y H|x|x y z _ [->|IH1] _ [->|IH2]]; auto.
  - right. now apply t_step.
  - right. eapply t_trans; eassumption.
Qed.

Theorem add_dep_keeps_acyclic st ts dep :
  ordered ts -> owned ts -> ~ task_cyclic st ->
  (forall x p, holds ts p x -> x <> dep -> ~ clos_trans tid (task_after st) dep x) ->
  ~ task_cyclic (for_each_add_dep st ts dep).
Proof.
  intros Ho Hw Hac Hdep [t Ht].
  set (R' := task_after (for_each_add_dep st ts dep)) in *.
  assert (Hstep : forall a b, R' a b -> task_after st a b \/ (b = dep /\ a <> dep /\ exists p, holds ts p a)).
  { intros a b Hab. now apply dep_after. }
  (* a path over R' either is a path over R or passes a new edge; after the last new edge: R* from dep *)
  assert (Hpath : forall a b, clos_trans tid R' a b ->
            clos_trans tid (task_after st) a b \/
            exists x, clos_refl_trans tid (task_after st) a x /\ x <> dep /\ (exists p, holds ts p x) /\
                      clos_refl_trans tid (task_after st) dep b).
  { intros a b H. apply clos_trans_tn1 in H. induction H as [b H|b c H _ IH].
    - destruct (Hstep _ _ H) as [H'|(-> & Hn & Hp)]; [left; now apply t_step|].
      right. exists a. split; [apply rt_refl|]. split; [exact Hn|]. split; [exact Hp|apply rt_refl].
    - destruct (Hstep _ _ H) as [H'|(-> & Hn & Hp)].
      + destruct IH as [IH|(x & Hax & Hx & Hp & Hdb)].
        * left. eapply t_trans; [exact IH|now apply t_step].
        * right. exists x. split; [exact Hax|]. split; [exact Hx|]. split; [exact Hp|].
          eapply rt_trans; [exact Hdb|now apply rt_step].
      + destruct IH as [IH|(x & Hax & Hx & Hp' & Hdb)].
        * right. exists b. split; [now apply clos_t_rt|]. split; [exact Hn|]. split; [exact Hp|apply rt_refl].
        * right. exists x. split; [exact Hax|]. split; [exact Hx|]. split; [exact Hp'|apply rt_refl]. }
  destruct (Hpath t t Ht) as [H|(x & Htx & Hx & (p & Hp) & Hdt)]; [apply Hac; now exists t|].
  apply (Hdep x p Hp Hx).
  assert (Hrt : clos_refl_trans tid (task_after st) dep x) by (eapply rt_trans; eassumption).
  destruct (clos_rt_cases _ _ _ Hrt) as [->|H]; [congruence|exact H].
Qed.

Theorem add_dep_makes_cycle st ts dep x p :
  ordered ts -> owned ts -> holds ts p x -> x <> dep -> clos_trans tid (task_after st) dep x ->
  task_cyclic (for_each_add_dep st ts dep).
Proof.
  intros Ho Hw Hp Hx Hd. exists x. eapply t_trans.
  - apply t_step. apply (dep_after st ts dep x dep Ho Hw). right. eauto.
  - clear Hx Hp. revert Hd. generalize dep at 1 3. intros d Hd. induction Hd as [a b H|a b c _ IH1 _ IH2].
    + apply t_step. apply (dep_after st ts _ a b Ho Hw). now left.
    + eapply t_trans; eassumption.
Qed.
