(** The loop over the growing map does what the loop over its first keys does. *)
From Coq Require Import String Permutation Lia.
From Verif Require Import Model.Common Model.Records Model.Jobs Model.TaskSet Model.Dag Model.Sched Model.Exec
     Model.ExecSet Model.HashLoop Spec.Graph Spec.Tasks
     Spec.HashMap Proofs.Sets Proofs.TaskFacts Proofs.BuildFacts Proofs.BuildProps.
Open Scope string_scope.
Open Scope nat_scope.
Open Scope list_scope.

Lemma tmp_get_app a b t : tmp_get (a ++ b) t = match tmp_get a t with Some n => Some n | None => tmp_get b t end.
Proof. induction a as [|[n u] a IH]; [reflexivity|]. cbn. destruct (u =? t); [reflexivity|exact IH]. Qed.

Lemma filled_same : forall l, NoDup (map snd l) -> filled l = l.
Proof.
  assert (H : forall l acc, NoDup (map snd (acc ++ l)) ->
            fold_left (fun tmp e => match tmp_get tmp (snd e) with Some _ => tmp | None => tmp ++ [e] end) l acc = acc ++ l).
  { induction l as [|e l IH]; intros acc H; [now rewrite app_nil_r|]. cbn [fold_left].
    replace (tmp_get acc (snd e)) with (@None string).
    - rewrite IH, <- app_assoc; [reflexivity|]. rewrite <- app_assoc. exact H.
    - symmetry. apply tmp_get_None. rewrite map_app in H. cbn in H. apply NoDup_remove_2 in H.
      intros X. apply H. apply in_or_app. left. exact X. }
  intros l Hl. exact (H l [] Hl).
Qed.

Section Loop.
Context (st : store) (tmp : list (string * tid)) (addr : tid -> nid).
Let blank (t : tid) : string * tid := (EmptyString, t).

Record Sim (h : hstate) (b : bstate) (added : list tid) : Prop := {
  sm_dag : h_dag h = b_dag b;
  sm_index : h_index h = b_index b;
  sm_tmp : h_tmp h = tmp ++ map blank added;
  sm_added : b_added b = List.length added;
  sm_nodup : NoDup added;
  sm_in : incl added (b_index b);
  sm_dom : incl added (st_dom st) }.

(** The two outcomes of a step from a related pair. *)
Definition same (added : list tid) (index : list tid) (rh : build hstate) (rb : build bstate) : Prop :=
  match rh, rb with
  | Built h, Built b => (exists new, Sim h b (added ++ new)) /\ incl index (b_index b)
  | BuildUB, BuildUB | BuildFuel, BuildFuel => True
  | _, _ => False
  end.

Lemma deps_same rech recb t :
  (forall d h b added, Sim h b added -> same added (b_index b) (rech d h) (recb d b)) ->
  forall ds h b added, Sim h b added ->
  same added (b_index b) (dfs_deps_h rech addr t ds h) (dfs_deps recb addr t ds b).
Proof.
  intros Hr. induction ds as [|d ds IH]; intros h b added HS.
  - cbn. split; [exists []; rewrite app_nil_r; exact HS|]. intros x Hx; exact Hx.
  - cbn [dfs_deps_h dfs_deps]. specialize (Hr d h b added HS). unfold same in Hr.
    destruct (rech d h) as [h1| |], (recb d b) as [b1| |]; try destruct Hr; try exact I.
    rename H into Hn, H0 into Hi. destruct Hn as (new & S1).
    match goal with |- same _ _ (dfs_deps_h _ _ _ _ ?hh) (dfs_deps _ _ _ _ ?bb) =>
      assert (S2 : Sim hh bb (added ++ new)) end.
    { destruct S1 as [A B C D E F G]. constructor; cbn; try assumption. rewrite A. reflexivity. }
    specialize (IH _ _ _ S2). unfold same in IH |- *. cbn [b_index] in IH.
    destruct (dfs_deps_h _ _ _ _ _) as [h3| |], (dfs_deps _ _ _ _ _) as [b3| |]; try exact IH.
    destruct IH as ((new2 & S3) & I3). split; [exists (new ++ new2); rewrite app_assoc; exact S3|].
    intros x Hx. apply I3, Hi, Hx.
Qed.

Lemma dfs_same fuel : forall t h b added, Sim h b added ->
  same added (b_index b) (dfs_h fuel st addr t h) (dfs fuel st tmp addr t b).
Proof.
  induction fuel as [|f IH]; intros t h b added HS; [exact I|]. cbn [dfs_h dfs].
  rewrite (sm_index _ _ _ HS). destruct (mem t (b_index b)) eqn:Em.
  { split; [exists []; rewrite app_nil_r; exact HS|]. intros x Hx; exact Hx. }
  destruct (mem t (st_dom st)) eqn:Ed; cbn [negb]; [|exact I].
  assert (Hna : ~ In t added).
  { intros X. apply (sm_in _ _ _ HS) in X. apply mem_In in X. congruence. }
  assert (Eg : tmp_get (h_tmp h) t = tmp_get tmp t).
  { rewrite (sm_tmp _ _ _ HS), tmp_get_app. destruct (tmp_get tmp t); [reflexivity|].
    apply tmp_get_None. rewrite map_map. cbn. rewrite map_id. exact Hna. }
  rewrite Eg. destruct (tmp_get tmp t) as [name|].
  - match goal with |- same _ _ (dfs_deps_h _ _ _ _ ?hh) (dfs_deps _ _ _ _ ?bb) =>
      assert (S1 : Sim hh bb added) end.
    { destruct HS as [A B C D E F G]. constructor; cbn; try assumption; try (rewrite ?A, ?B; reflexivity).
      intros x Hx. right. apply F, Hx. }
    pose proof (deps_same _ _ t IH (t_depends_on (st_get st t)) _ _ _ S1) as R. unfold same in R |- *.
    cbn [b_index] in R. destruct (dfs_deps_h _ _ _ _ _), (dfs_deps _ _ _ _ _); try exact R.
    destruct R as (R1 & R2). split; [exact R1|]. intros x Hx. apply R2. right. exact Hx.
  - match goal with |- same _ _ (dfs_deps_h _ _ _ _ ?hh) (dfs_deps _ _ _ _ ?bb) =>
      assert (S1 : Sim hh bb (added ++ [t])) end.
    { destruct HS as [A B C D E F G]. constructor; cbn.
      - rewrite A. reflexivity.
      - reflexivity.
      - rewrite C, map_app, app_assoc. reflexivity.
      - rewrite app_length, D. cbn. lia.
      - apply NoDup_app_iff. split; [exact E|]. split; [constructor; [intros []|constructor]|].
        intros x Hx [<-|[]]. exact (Hna Hx).
      - intros x Hx. apply in_app_or in Hx. destruct Hx as [Hx|[<-|[]]]; [right; apply F, Hx|left; reflexivity].
      - intros x Hx. apply in_app_or in Hx. destruct Hx as [Hx|[<-|[]]]; [apply G, Hx|apply mem_In; exact Ed]. }
    pose proof (deps_same _ _ t IH (t_depends_on (st_get st t)) _ _ _ S1) as R. unfold same in R |- *.
    cbn [b_index] in R. destruct (dfs_deps_h _ _ _ _ _), (dfs_deps _ _ _ _ _); try exact R.
    destruct R as ((new & R1) & R2). split; [exists (t :: new)|].
    + rewrite <- app_assoc in R1. exact R1.
    + intros x Hx. apply R2. right. exact Hx.
Qed.

(** [l'] is [l] with keys of tasks in [idx] put in between. *)
Inductive mixed (idx : list tid) : list (string * tid) -> list (string * tid) -> Prop :=
| mx_nil : mixed idx [] []
| mx_keep e l l' : mixed idx l l' -> mixed idx (e :: l) (e :: l')
| mx_more t l l' : In t idx -> mixed idx l l' -> mixed idx l (blank t :: l').

Lemma mixed_refl idx l : mixed idx l l.
Proof. induction l; constructor; assumption. Qed.
Lemma mixed_incl idx idx' l l' : incl idx idx' -> mixed idx l l' -> mixed idx' l l'.
Proof. intros H. induction 1; constructor; auto. Qed.
Lemma mixed_insert idx t : In t idx -> forall a l b, mixed idx l (a ++ b) -> mixed idx l (a ++ blank t :: b).
Proof.
  intros Ht. induction a as [|e a IH]; intros l b H; [apply mx_more; assumption|].
  cbn in *. inversion H; subst.
  - apply mx_keep. apply IH. assumption.
  - apply mx_more; [assumption|]. apply IH. assumption.
Qed.

Context (place : list (string * tid) -> string * tid -> list (string * tid)) (Hp : placed place).

Lemma place_all idx : forall new l l', incl new idx -> mixed idx l l' ->
  mixed idx l (fold_left place (map blank new) l') /\
  List.length (fold_left place (map blank new) l') <= List.length l' + List.length new.
Proof.
  induction new as [|t new IH]; intros l l' Hi Hm; [split; [exact Hm|cbn; lia]|].
  cbn [map fold_left].
  assert (H : mixed idx l (place l' (blank t)) /\ List.length (place l' (blank t)) <= S (List.length l')).
  { destruct (Hp l' (blank t)) as [E|(a & b & E1 & E2)].
    - rewrite E. split; [exact Hm|lia].
    - rewrite E2. subst l'. split; [apply mixed_insert; [apply Hi; left; reflexivity|exact Hm]|].
      rewrite !app_length. cbn. lia. }
  destruct H as (H1 & H2). destruct (IH l (place l' (blank t))) as (I1 & I2).
  - intros x Hx. apply Hi. right. exact Hx.
  - exact H1.
  - split; [exact I1|]. cbn [List.length]. lia.
Qed.

Lemma dfs_indexed k t b : In t (b_index b) -> dfs (S k) st tmp addr t b = Built b.
Proof. intros H. cbn. apply mem_In in H. rewrite H. reflexivity. Qed.

Lemma contains_empty filt t : contains filt (fst (blank t)) = true -> filt = "".
Proof. destruct filt; [reflexivity|]. cbn. discriminate. Qed.

Lemma dfs_indexed_h k t h : In t (h_index h) -> dfs_h (S k) st addr t h = Built h.
Proof. intros H. cbn. apply mem_In in H. rewrite H. reflexivity. Qed.

Lemma dfs_all_added k filt : forall l b b' added h, Sim h b added ->
  dfs_all (S k) st tmp addr filt l b = Built b' -> b_added b <= b_added b'.
Proof.
  induction l as [|[name t] l IH]; intros b b' added h HS E; cbn [dfs_all] in E.
  - injection E as ->. lia.
  - destruct (contains filt name); [|exact (IH _ _ _ _ HS E)].
    pose proof (dfs_same (S k) t h b added HS) as R. unfold same in R.
    destruct (dfs (S k) st tmp addr t b) as [b1| |] eqn:E1; try discriminate E.
    destruct (dfs_h (S k) st addr t h) as [h1| |]; try destruct R. destruct H as (new & S1).
    specialize (IH _ _ _ _ S1 E). rewrite (sm_added _ _ _ S1), app_length in IH.
    rewrite (sm_added _ _ _ HS). lia.
Qed.

Lemma loop_same k cap filt : forall fuel l todo h b added, Sim h b added ->
  mixed (b_index b) l todo -> List.length tmp + List.length added <= cap ->
  List.length todo + List.length (st_dom st) <= fuel + List.length added ->
  match dfs_all (S k) st tmp addr filt l b with
  | Built b' =>
      (List.length tmp + b_added b' <= cap ->
         exists h' added', loop_h fuel (S k) cap place st addr filt todo h = Built h' /\ Sim h' b' added') /\
      (cap < List.length tmp + b_added b' -> loop_h fuel (S k) cap place st addr filt todo h = BuildUB)
  | BuildUB => loop_h fuel (S k) cap place st addr filt todo h = BuildUB
  | BuildFuel => True
  end.
Proof.
  induction fuel as [|fuel IH]; intros l todo h b added HS Hm Hc Hf.
  - assert (HL : List.length added <= List.length (st_dom st)) by (apply NoDup_incl_length; apply HS).
    destruct todo as [|x todo]; [|cbn in Hf; lia]. inversion Hm; subst. cbn.
    split; [intros _; exists h, added; split; [reflexivity|exact HS]|]. rewrite (sm_added _ _ _ HS). lia.
  - destruct todo as [|[name t] todo].
    { inversion Hm; subst. cbn.
      split; [intros _; exists h, added; split; [reflexivity|exact HS]|]. rewrite (sm_added _ _ _ HS). lia. }
    assert (Hk : forall l0, mixed (b_index b) l0 todo -> List.length tmp + List.length added <= cap ->
              match dfs_all (S k) st tmp addr filt l0 b with
              | Built b' =>
                  (List.length tmp + b_added b' <= cap ->
                     exists h' added', loop_h fuel (S k) cap place st addr filt todo h = Built h' /\ Sim h' b' added') /\
                  (cap < List.length tmp + b_added b' -> loop_h fuel (S k) cap place st addr filt todo h = BuildUB)
              | BuildUB => loop_h fuel (S k) cap place st addr filt todo h = BuildUB
              | BuildFuel => True
              end).
    { intros l0 Hm0 _. apply IH with (added := added); [exact HS|exact Hm0|exact Hc|]. cbn in Hf. lia. }
    remember ((name, t) :: todo) as td eqn:Etd. destruct Hm as [|e l l' Hm|t' l l' Ht Hm]; [discriminate Etd| |].
    + injection Etd as -> ->. cbn [dfs_all loop_h]. destruct (contains filt name); [|apply Hk; assumption].
      clear Hk. pose proof (dfs_same (S k) t h b added HS) as R. unfold same in R.
      destruct (dfs (S k) st tmp addr t b) as [b1| |]; destruct (dfs_h (S k) st addr t h) as [h1| |];
        try contradiction R; try exact I; try reflexivity.
      destruct R as ((new & S1) & Hi).
      assert (Lh : List.length (h_tmp h1) = List.length tmp + List.length (added ++ new)).
      { rewrite (sm_tmp _ _ _ S1), app_length, map_length. reflexivity. }
      rewrite Lh. destruct (cap <? List.length tmp + List.length (added ++ new)) eqn:Ec.
      { apply Nat.ltb_lt in Ec. destruct (dfs_all (S k) st tmp addr filt l b1) as [b2| |] eqn:E2; try exact I; try reflexivity.
        split; [|reflexivity]. intros H. exfalso. pose proof (dfs_all_added _ _ _ _ _ _ _ S1 E2) as M.
        rewrite (sm_added _ _ _ S1) in M. lia. }
      apply Nat.ltb_ge in Ec.
      assert (Ek : skipn (List.length (h_tmp h)) (h_tmp h1) = map blank new).
      { rewrite (sm_tmp _ _ _ HS), (sm_tmp _ _ _ S1), map_app, app_assoc, skipn_app, skipn_all, Nat.sub_diag. reflexivity. }
      rewrite Ek. destruct (place_all (b_index b1) new l todo) as (P1 & P2).
      { intros x Hx. apply (sm_in _ _ _ S1). apply in_or_app. right. exact Hx. }
      { apply (mixed_incl (b_index b)); assumption. }
      apply IH with (added := added ++ new); try assumption. rewrite app_length. cbn in Hf. lia.
    + injection Etd as <- <- <-. cbn [loop_h]. unfold blank at 1 2 3. destruct (contains filt "") eqn:Ecf; [|apply Hk; assumption].
      rewrite dfs_indexed_h by (rewrite (sm_index _ _ _ HS); exact Ht).
      rewrite (sm_tmp _ _ _ HS), app_length, map_length.
      replace (cap <? List.length tmp + List.length added) with false by (symmetry; apply Nat.ltb_ge; lia).
      replace (skipn (List.length tmp + List.length added) (tmp ++ map blank added)) with (@nil (string * tid)).
      * cbn [fold_left]. apply Hk; assumption.
      * symmetry. apply skipn_all2. rewrite app_length, map_length. lia.
Qed.

End Loop.

Theorem growing_loop : forall cap place g0 st ts filt addr ord1 ord2,
  placed place -> some_order ord1 -> some_order ord2 -> ordered ts -> owned ts ->
  List.length (for_each_task ts) <= cap ->
  insert_set_h cap place g0 st ts filt addr ord1 ord2 =
  match insert_set g0 st ts filt addr ord1 ord2 with
  | Built (g, n) => if List.length (for_each_task ts) + n <=? cap then Built g else BuildUB
  | BuildUB => BuildUB
  | BuildFuel => BuildFuel
  end.
Proof.
  intros cap place g0 st ts filt addr ord1 ord2 Hp O1 O2 Ho Hw Hc.
  destruct (insert_set_undefined g0 st ts filt addr ord1 ord2 O1 O2) as (_ & NF).
  unfold insert_set_h, insert_set in *. rewrite filled_same by (apply (visited_NoDup ts Ho Hw)).
  set (tmp := for_each_task ts) in *.
  pose proof (loop_same st tmp addr place Hp (List.length (st_dom st)) cap filt
                (List.length tmp + List.length (st_dom st)) (ord1 tmp) (ord1 tmp)
                (HState g0 [] tmp) (BState g0 [] 0) []) as L.
  assert (S0 : Sim st tmp (HState g0 [] tmp) (BState g0 [] 0) []).
  { constructor; cbn; try reflexivity; try constructor; try (intros x []). now rewrite app_nil_r. }
  specialize (L S0 (mixed_refl _ _)). cbn [List.length] in L.
  rewrite (Permutation_length (O1 tmp)) in L.
  specialize (L ltac:(lia) ltac:(lia)).
  destruct (dfs_all _ st tmp addr filt (ord1 tmp) _) as [b| |].
  - destruct L as (L1 & L2). cbn [h_dag]. destruct (List.length tmp + b_added b <=? cap) eqn:E.
    + apply Nat.leb_le in E. destruct (L1 E) as (h & added & EL & SM). rewrite EL.
      rewrite (sm_dag _ _ _ _ _ SM), (sm_index _ _ _ _ _ SM). reflexivity.
    + apply Nat.leb_gt in E. rewrite (L2 E). reflexivity.
  - rewrite L. reflexivity.
  - exfalso. apply NF. reflexivity.
Qed.

Theorem growing_defined : forall cap place g0 st ts filt addr ord1 ord2,
  placed place -> some_order ord1 -> some_order ord2 -> ordered ts -> owned ts ->
  List.length (for_each_task ts) <= cap ->
  ((exists g, insert_set_h cap place g0 st ts filt addr ord1 ord2 = Built g) <->
   live st (selected st ts filt) /\
   forall l, NoDup l -> (forall t, In t l -> selected st ts filt t /\ ~ exists p, holds ts p t) ->
     List.length (for_each_task ts) + List.length l <= cap) /\
  insert_set_h cap place g0 st ts filt addr ord1 ord2 <> BuildFuel.
Proof.
  intros cap place g0 st ts filt addr ord1 ord2 Hp O1 O2 Ho Hw Hc.
  rewrite (growing_loop cap place g0 st ts filt addr ord1 ord2 Hp O1 O2 Ho Hw Hc).
  pose proof (insert_set_undefined g0 st ts filt addr ord1 ord2 O1 O2) as (U & NF).
  pose proof (insert_set_defined g0 st ts filt addr ord1 ord2 O1 O2) as D.
  destruct (insert_set g0 st ts filt addr ord1 ord2) as [[g n]| |] eqn:E.
  - destruct (insertions_while_iterating g0 st ts filt addr ord1 ord2 O1 O2 g n E) as (l0 & N0 & S0 & ->).
    split; [|destruct (_ <=? cap); discriminate].
    destruct (List.length (for_each_task ts) + List.length l0 <=? cap) eqn:Ec.
    + apply Nat.leb_le in Ec. split; [|intros _; exists g; reflexivity].
      intros _. split; [apply D; eauto|]. intros l Nl Hl.
      assert (List.length l <= List.length l0); [|lia].
      apply NoDup_incl_length; [exact Nl|]. intros t Ht. apply S0, Hl, Ht.
    + apply Nat.leb_gt in Ec. split; [intros (g' & X); discriminate X|]. intros (_ & H).
      specialize (H l0 N0 (fun t Ht => proj1 (S0 t) Ht)). lia.
  - split; [|discriminate]. split; [intros (g' & X); discriminate X|]. intros (H & _). apply D in H.
    destruct H as (r & X). discriminate X.
  - destruct (NF eq_refl).
Qed.

Theorem growing_same : forall cap place st ts threads filt iv addr ord1 ord2 c,
  placed place -> some_order ord1 -> some_order ord2 -> ordered ts -> owned ts ->
  List.length (for_each_task ts) <= cap ->
  exec_set_h cap place st ts threads filt iv addr ord1 ord2 = Built c ->
  exec_set st ts threads filt iv addr ord1 ord2 = Built c.
Proof.
  intros cap place st ts threads filt iv addr ord1 ord2 c Hp O1 O2 Ho Hw Hc.
  unfold exec_set_h, exec_set. rewrite (growing_loop cap place dag0 st ts filt addr ord1 ord2 Hp O1 O2 Ho Hw Hc).
  destruct (insert_set dag0 st ts filt addr ord1 ord2) as [[g n]| |]; try discriminate.
  destruct (_ <=? cap); [|discriminate]. intros X. exact X.
Qed.

Theorem growing_rehash : forall cap, 1 <= cap ->
  exists st ts, ordered ts /\ owned ts /\ live st (selected st ts "") /\
    List.length (for_each_task ts) <= cap /\
    forall place, placed place ->
      insert_set_h cap place dag0 st ts "" (fun t => t) (fun l => l) (fun l => l) = BuildUB.
Proof.
  intros cap Hc. destruct (rehash_while_iterating cap) as (st & ts & g & n & Ho & Hw & Hl & E & L & Hb).
  exists st, ts. split; [exact Ho|]. split; [exact Hw|]. split; [exact Hl|]. split; [lia|]. intros place Hp.
  assert (O : forall A, some_order (fun l : list A => l)) by (intros A l; apply Permutation_refl).
  rewrite (growing_loop cap place dag0 st ts "" (fun t => t) (fun l => l) (fun l => l) Hp (O _) (O _) Ho Hw) by lia.
  rewrite E. replace (_ <=? cap) with false; [reflexivity|]. symmetry. apply Nat.leb_gt. exact Hb.
Qed.

Theorem growing_closed : forall cap place g0 st ts filt addr ord1 ord2,
  placed place -> some_order ord1 -> some_order ord2 -> ordered ts -> owned ts ->
  List.length (for_each_task ts) <= cap ->
  (forall a b, (exists p, holds ts p a) -> depends_on st a b -> exists p, holds ts p b) ->
  live st (selected st ts filt) ->
  exists g, insert_set_h cap place g0 st ts filt addr ord1 ord2 = Built g.
Proof.
  intros cap place g0 st ts filt addr ord1 ord2 Hp O1 O2 Ho Hw Hc Hcl Hl.
  rewrite (growing_loop cap place g0 st ts filt addr ord1 ord2 Hp O1 O2 Ho Hw Hc).
  destruct (proj2 (insert_set_defined g0 st ts filt addr ord1 ord2 O1 O2) Hl) as ((g & n) & E).
  rewrite E. rewrite (closed_set _ _ _ _ _ _ _ _ _ O1 O2 E Hcl).
  replace (_ <=? cap) with true; [eauto|]. symmetry. apply Nat.leb_le. lia.
Qed.

(** The same for the whole execution: it is set up, or it is undefined behaviour. *)
Lemma growing_exec : forall cap place st ts threads filt iv addr ord1 ord2,
  placed place -> some_order ord1 -> some_order ord2 -> ordered ts -> owned ts ->
  List.length (for_each_task ts) <= cap ->
  ((exists c, exec_set_h cap place st ts threads filt iv addr ord1 ord2 = Built c) <->
   live st (selected st ts filt) /\
   forall l, NoDup l -> (forall t, In t l -> selected st ts filt t /\ ~ exists p, holds ts p t) ->
     List.length (for_each_task ts) + List.length l <= cap) /\
  (~ (exists c, exec_set_h cap place st ts threads filt iv addr ord1 ord2 = Built c) <->
   exec_set_h cap place st ts threads filt iv addr ord1 ord2 = BuildUB).
Proof.
  intros cap place st ts threads filt iv addr ord1 ord2 Hp O1 O2 Ho Hw Hc.
  destruct (growing_defined cap place dag0 st ts filt addr ord1 ord2 Hp O1 O2 Ho Hw Hc) as [H1 H2].
  unfold exec_set_h. destruct (insert_set_h cap place dag0 st ts filt addr ord1 ord2) as [g| |] eqn:E.
  - split.
    + rewrite <- H1. split; intros _; eexists; reflexivity.
    + split; [intros H; exfalso; apply H; eexists; reflexivity|discriminate].
  - split.
    + rewrite <- H1. split; intros (x & Hx); discriminate Hx.
    + split; [reflexivity|intros _ (x & Hx); discriminate Hx].
  - destruct (H2 eq_refl).
Qed.
