(** The programs of example.cpp and README.md (C95). *)
From Coq Require Import String Sorted Relations Permutation Lia.
From Verif Require Import Model.Common Model.Records Model.Jobs Model.Text Model.TaskSet Model.Dag Model.Sched Model.Exec
     Model.ExecSet Model.Assemble Spec.Graph Spec.Trace Spec.Tasks Spec.Assembly Proofs.Sets Proofs.TaskFacts Proofs.BuildProps
     Proofs.SetExec Proofs.FormatFacts Proofs.LogFacts Proofs.ExecProps4 Proofs.RootCause Proofs.AssembleFacts.
Open Scope string_scope.
Open Scope nat_scope.
Open Scope list_scope.

Definition task_key (i : nat) : string := "task_" ++ dec_nat i.
Lemma task_key_inj i j : task_key i = task_key j -> i = j.
Proof.
  unfold task_key. intros E. assert (E' : dec_nat i = dec_nat j) by (cbn [append] in E; injection E as E; exact E).
  pose proof (value_dec_nat i) as H1. pose proof (value_dec_nat j) as H2. rewrite E', H2 in H1. congruence.
Qed.

Section Gen.
Variable v : nat.
Variable addr : nat -> tid.
Definition puts (l : list nat) : list assemble_op := map (fun i => APut v [] (task_key i) (addr i) sleeping_task) l.

Lemma gen_run l : forall a,
  sound a -> NoDup l -> (forall i j, In i l -> In j l -> addr i = addr j -> i = j) ->
  (forall i, In i l -> ~ In (addr i) (st_dom (a_store a))) ->
  (forall i t, In i l -> ~ holds (a_sets a v) [task_key i] t) ->
  exists a', only_builds a (puts l) a' /\ sound a' /\
    (forall w q u, holds (a_sets a' w) q u <->
       holds (a_sets a w) q u \/ (w = v /\ exists i, In i l /\ q = [task_key i] /\ u = addr i)) /\
    (forall u, In u (st_dom (a_store a')) <-> In u (st_dom (a_store a)) \/ exists i, In i l /\ u = addr i) /\
    (forall i, In i l -> st_get (a_store a') (addr i) = sleeping_task) /\
    (forall u, (forall i, In i l -> u <> addr i) -> st_get (a_store a') u = st_get (a_store a) u).
Proof.
  induction l as [|i l IH]; intros a Hs Hn Hinj Hf Hh.
  - exists a. split; [constructor|]. split; [exact Hs|]. split; [|split; [|split]].
    + intros w q u. split; [auto|]. intros [H|(_ & i & [] & _)]. exact H.
    + intros u. split; [auto|]. intros [H|(i & [] & _)]. exact H.
    + intros i [].
    + auto.
  - inversion Hn as [|? ? Hi Hl]; subst. pose proof Hs as Hs0. destruct Hs0 as [Ho Hw Hlv Ha].
    set (a1 := Assembly (create (a_store a) (addr i) sleeping_task)
      (upd (a_sets a) v (set_put (a_sets a v) [] (TaskSet (key_put (task_key i) (addr i) (set_tasks (set_at (a_sets a v) [])))
                                                         (set_sets (set_at (a_sets a v) []))))) (a_alone a)).
    assert (E : assemble a (APut v [] (task_key i) (addr i) sleeping_task) = Some a1).
    { unfold assemble. destruct (key_find (task_key i) (set_tasks (set_at (a_sets a v) []))) as [u|] eqn:F.
      - apply (found_task a Ho v [] (task_key i) u) in F. exfalso. apply (Hh i u); [cbn; auto|exact F].
      - destruct (mem (addr i) (st_dom (a_store a))) eqn:M; [|reflexivity]. apply mem_In in M.
        exfalso. apply (Hf i); cbn; auto. }
    assert (Hs1 : sound a1) by (eapply step_sound; eassumption).
    assert (P : forall w q u, holds (a_sets a1 w) q u <-> (w = v /\ q = [task_key i] /\ u = addr i) \/ holds (a_sets a w) q u).
    { intros w q u. apply (put_places a Ho v [] (task_key i) (addr i) w q u). intros x. apply (Hh i). cbn. auto. }
    destruct (IH a1) as (a' & B & S & HH & HD & HG & HO); auto.
    + intros j k Hj Hk. apply Hinj; cbn; auto.
    + intros j Hj [E1|Hj']; [|apply (Hf j); cbn; auto]. apply Hi. rewrite (Hinj i j); cbn; auto.
    + intros j t Hj Ht. apply P in Ht. destruct Ht as [(_ & E1 & _)|Ht]; [|apply (Hh j t); cbn; auto].
      apply Hi. replace i with j; [exact Hj|]. apply task_key_inj. congruence.
    + exists a'. split; [|split; [exact S|]].
      { apply ob_op with (a' := a1); [intros u []|exact E|exact B]. }
      split; [|split; [|split]].
      * intros w q u. rewrite HH, P. split.
        -- intros [[(-> & -> & ->)|H]|(-> & j & Hj & -> & ->)]; [right|left|right]; auto.
           ++ split; [reflexivity|]. exists i. cbn. auto.
           ++ split; [reflexivity|]. exists j. cbn. auto.
        -- intros [H|(-> & j & [->|Hj] & -> & ->)]; auto. right. split; [reflexivity|]. exists j. auto.
      * intros u. rewrite HD. cbn. split.
        -- intros [[<-|H]|(j & Hj & ->)]; [right; exists i|left|right; exists j]; cbn; auto.
        -- intros [H|(j & [->|Hj] & ->)]; auto. right. eauto.
      * intros j [->|Hj]; [|auto]. rewrite HO.
        -- cbn. now rewrite upd_cases, Nat.eqb_refl.
        -- intros k Hk E1. apply Hi. rewrite (Hinj j k); cbn; auto.
      * intros u Hu. rewrite HO by (intros j Hj; apply Hu; cbn; auto). cbn. rewrite upd_cases.
        destruct (Nat.eqb_spec u (addr i)) as [->|]; [|reflexivity]. exfalso. apply (Hu i); cbn; auto.
Qed.
End Gen.

Lemma builds_app a os b os' c : only_builds a os b -> only_builds b os' c -> only_builds a (os ++ os') c.
Proof. induction 1 as [|a o a' os a'' B E H IH]; intros H2; cbn; [exact H2|]. econstructor; eauto. Qed.

(** Moving a whole variable to a place without tasks. *)
Lemma move_run a v k w : sound a -> v <> w -> (forall r t, ~ holds (a_sets a v) (k :: r) t) ->
  exists a', only_builds a [AMove v [k] w []] a' /\ sound a' /\
    (forall x q u, x <> w -> (holds (a_sets a' x) q u <->
       holds (a_sets a x) q u \/ (x = v /\ exists r, q = k :: r /\ holds (a_sets a w) r u))) /\
    (forall q u, ~ holds (a_sets a' w) q u) /\
    (forall u, In u (st_dom (a_store a')) <-> In u (st_dom (a_store a))) /\
    (forall u, st_get (a_store a') u = st_get (a_store a) u).
Proof.
  intros Hs Hn N. pose proof Hs as Hs0. destruct Hs0 as [Ho Hw Hl Ha].
  assert (B : builds a (AMove v [k] w [])) by (intros r t; apply N).
  destruct (assemble a (AMove v [k] w [])) as [a'|] eqn:E.
  2: { cbn in E. apply Nat.eqb_neq in Hn. rewrite Hn in E. discriminate. }
  exists a'. split; [econstructor; eauto; constructor|]. split; [eapply step_sound; eassumption|].
  cbn [assemble] in E. pose proof Hn as Hn'. apply Nat.eqb_neq in Hn'. rewrite Hn' in E. inversion E; subst a'; clear E.
  cbn [a_store a_sets]. split; [|split; [|split]].
  - intros x q u Hx. rewrite (move_places a Ho v [k] w [] x q u Hn). cbn [app]. split.
    + intros [(-> & r & Hr & -> & H)|(H & _)]; [right|left; exact H]. split; [reflexivity|]. exists r. auto.
    + intros [H|(-> & r & -> & H)].
      * right. split; [exact H|]. split; [|congruence]. intros -> r Hr ->. now apply (N r u).
      * left. split; [reflexivity|]. exists r. split; [now apply own_nonempty in H|]. auto.
  - intros q u H. apply (move_places a Ho v [k] w [] w q u Hn) in H. destruct H as [[E _]|(H & _ & H2)]; [congruence|].
    apply (H2 eq_refl q); [now apply own_nonempty in H|reflexivity].
  - intros u. cbn. rewrite in_without. split; [tauto|]. intros H. split; [exact H|]. intros HI.
    apply (gone_at a v [k] u Ho) in HI. destruct HI as (r & _ & HI). now apply (N r u).
  - reflexivity.
Qed.

Theorem example_built : forall x n aa ab,
  (forall i j, i < n -> j < n -> aa i = aa j -> i = j) -> (forall i j, i < n -> j < n -> ab i = ab j -> i = j) ->
  (forall i j, i < n -> j < n -> aa i <> ab j) ->
  exists a, only_builds (assembly0 x) (example_main n aa ab) a /\
    (forall p t, holds (a_sets a 0) p t <->
       exists i, i < n /\ ((p = ["a"; "task_" ++ dec_nat i]%string /\ t = aa i) \/ (p = ["b"; "task_" ++ dec_nat i]%string /\ t = ab i))) /\
    (forall t, In t (st_dom (a_store a)) -> st_get (a_store a) t = sleeping_task).
Proof.
  intros x n aa ab Haa Hab Hd.
  assert (I : forall i, In i (seq 0 n) <-> i < n) by (intros i; rewrite in_seq; lia).
  destruct (gen_run 1 aa (seq 0 n) (assembly0 x) (sound0 x) (seq_NoDup n 0)) as (a1 & B1 & S1 & H1 & D1 & G1 & O1).
  { intros i j Hi Hj. apply Haa; now apply I. }
  { intros i _ []. }
  { intros i t _ H. destruct (none_holds _ _ H). }
  destruct (move_run a1 0 "a" 1 S1) as (a2 & B2 & S2 & H2 & N2 & D2 & G2); [discriminate| |].
  { intros r t H. apply H1 in H. destruct H as [H|(E & _)]; [destruct (none_holds _ _ H)|discriminate]. }
  destruct (gen_run 2 ab (seq 0 n) a2 S2 (seq_NoDup n 0)) as (a3 & B3 & S3 & H3 & D3 & G3 & O3).
  { intros i j Hi Hj. apply Hab; now apply I. }
  { intros i Hi H. apply D2, D1 in H. destruct H as [[]|(j & Hj & E)]. apply (Hd j i); try apply I; auto. }
  { intros i t _ H. apply H2 in H; [|discriminate]. destruct H as [H|(E & _)]; [|discriminate].
    apply H1 in H. destruct H as [H|(E & _)]; [destruct (none_holds _ _ H)|discriminate]. }
  assert (P0 : forall p t, holds (a_sets a3 0) p t <-> exists i, i < n /\ p = ["a"; task_key i] /\ t = aa i).
  { intros p t. rewrite H3, H2 by discriminate. split.
    - intros [[H|(_ & r & -> & H)]|(E & _)]; [|apply H1 in H|discriminate].
      + apply H1 in H. destruct H as [H|(E & _)]; [destruct (none_holds _ _ H)|discriminate].
      + destruct H as [H|(_ & i & Hi & -> & ->)]; [destruct (none_holds _ _ H)|]. exists i. split; [now apply I|auto].
    - intros (i & Hi & -> & ->). left. right. split; [reflexivity|]. eexists. split; [reflexivity|]. apply H1.
      right. split; [reflexivity|]. exists i. split; [now apply I|auto]. }
  assert (P2 : forall p t, holds (a_sets a3 2) p t <-> exists i, i < n /\ p = [task_key i] /\ t = ab i).
  { intros p t. rewrite H3, H2 by discriminate. split.
    - intros [[H|(E & _)]|(_ & i & Hi & -> & ->)]; [|discriminate|].
      + apply H1 in H. destruct H as [H|(E & _)]; [destruct (none_holds _ _ H)|discriminate].
      + exists i. split; [now apply I|auto].
    - intros (i & Hi & -> & ->). right. split; [reflexivity|]. exists i. split; [now apply I|auto]. }
  destruct (move_run a3 0 "b" 2 S3) as (a4 & B4 & S4 & H4 & N4 & D4 & G4); [discriminate| |].
  { intros r t H. apply P0 in H. destruct H as (i & _ & E & _). discriminate. }
  exists a4. split; [|split].
  - unfold example_main. eapply builds_app; [exact B1|]. eapply builds_app; [exact B2|]. eapply builds_app; [exact B3|exact B4].
  - intros p t. rewrite H4 by discriminate. rewrite P0. split.
    + intros [(i & Hi & -> & ->)|(_ & r & -> & H)]; [eauto|]. apply P2 in H. destruct H as (i & Hi & -> & ->). eauto 10.
    + intros (i & Hi & [[-> ->]|[-> ->]]); [left; eauto|]. right. split; [reflexivity|]. eexists. split; [reflexivity|].
      apply P2. eauto.
  - intros t Ht. rewrite G4. apply D4, D3 in Ht. destruct Ht as [Ht|(i & Hi & ->)]; [|now apply G3].
    apply D2, D1 in Ht. destruct Ht as [[]|(i & Hi & ->)].
    rewrite O3; [rewrite G2; now apply G1|]. intros j Hj. apply Hd; now apply I.
Qed.

Lemma NoDup_map_by {A B C} (f : A -> B) (g : A -> C) l :
  NoDup (map f l) -> (forall x y, In x l -> In y l -> g x = g y -> f x = f y) -> NoDup (map g l).
Proof.
  induction l as [|x l IH]; cbn; intros Hn Hg; constructor.
  - intros HI. apply in_map_iff in HI. destruct HI as (y & E & Hy). inversion Hn as [|? ? H1 H2]; subst. apply H1.
    rewrite (Hg x y); auto. now apply in_map.
  - inversion Hn; subst. apply IH; auto.
Qed.

Theorem example_executed : forall x n aa ab a iv addr c z s er,
  (forall i j, i < n -> j < n -> aa i = aa j -> i = j) -> (forall i j, i < n -> j < n -> ab i = ab j -> i = j) ->
  (forall i j, i < n -> j < n -> aa i <> ab j) ->
  assemble_all (assembly0 x) (example_main n aa ab) = Some a ->
  execution_of (a_store a) (a_sets a 0) "" iv addr c -> (forall t, exists log, iv t = IvRet true log) ->
  reachable c z s -> (forall m o, In (EEnd m o) (trace s) -> job_code o = 0%Z) -> result s = RRecord er ->
  Permutation (map r_name (er_runs er))
    (map (fun i => "//a/task_" ++ dec_nat i)%string (seq 0 n) ++ map (fun i => "//b/task_" ++ dec_nat i)%string (seq 0 n)) /\
  forall r, In r (er_runs er) -> r_status r = OK.
Proof.
  intros x n aa ab a iv addr c z s er Haa Hab Hd EA HE Hiv HR Hok E.
  destruct (example_built x n aa ab Haa Hab Hd) as (a' & B & HH & HG).
  rewrite (builds_all _ _ _ B) in EA. inversion EA; subst a'; clear EA.
  assert (HS : sound a) by (destruct (builds_closed _ _ _ B (sound0 x)) as [S _]; [intros t u []|exact S]).
  assert (Hsel : forall t, selected (a_store a) (a_sets a 0) "" t <-> exists p, holds (a_sets a 0) p t).
  { intros t. split.
    - intros (p & r & Hp & _ & H). apply clos_rt_rt1n in H. revert p Hp.
      induction H as [|r y t Hr H IH]; intros p Hp; [eauto|]. exfalso. unfold depends_on in Hr.
      rewrite HG in Hr by (eapply (so_live a HS); eassumption). destruct Hr.
    - intros (p & Hp). exists p, t. split; [exact Hp|]. split; [exists ""%string, (full_name p); reflexivity|apply rt_refl]. }
  destruct (set_recorded_once _ _ _ _ _ _ HE z s er HR E) as (Hn & Hr & _ & Hnm).
  assert (Name : forall r, In r (er_runs er) -> exists i, i < n /\
    ((r_name r = "//a/task_" ++ dec_nat i /\ r_task r = aa i) \/ (r_name r = "//b/task_" ++ dec_nat i /\ r_task r = ab i))%string).
  { intros r Hin. assert (H : In (r_task r) (map r_task (er_runs er))) by now apply in_map.
    apply Hr, Hsel in H. destruct H as (p & Hp). destruct (Hnm r Hin) as [_ Hp']. specialize (Hp' p Hp).
    apply HH in Hp. destruct Hp as (i & Hi & [[-> Et]|[-> Et]]); exists i; (split; [exact Hi|]); [left|right];
      (split; [rewrite Hp'; cbn [full_name slashed append]; rewrite sapp_nil; reflexivity|exact Et]). }
  split.
  - apply NoDup_Permutation.
    + apply (NoDup_map_by r_task r_name); [exact Hn|]. intros r1 r2 H1 H2 En.
      destruct (Name r1 H1) as (i & Hi & [[N1 T1]|[N1 T1]]), (Name r2 H2) as (j & Hj & [[N2 T2]|[N2 T2]]);
        rewrite N1, N2 in En; cbn [append] in En; injection En as En; try discriminate;
        rewrite T1, T2; f_equal; apply task_key_inj; unfold task_key; now rewrite En.
    + assert (Inj : forall k i j, (k ++ dec_nat i)%string = (k ++ dec_nat j)%string -> i = j).
      { intros k i j. induction k as [|ch k IH]; cbn [append]; intros En; [|injection En as En; auto].
        apply task_key_inj. unfold task_key. now rewrite En. }
      apply NoDup_app_iff. split; [|split].
      * apply FinFun.Injective_map_NoDup; [|apply seq_NoDup]. intros i j. apply (Inj "//a/task_"%string).
      * apply FinFun.Injective_map_NoDup; [|apply seq_NoDup]. intros i j. apply (Inj "//b/task_"%string).
      * intros y H1 H2. apply in_map_iff in H1, H2. destruct H1 as (i & <- & _), H2 as (j & En & _). cbn [append] in En. discriminate.
    + intros y. split.
      * intros H. apply in_map_iff in H. destruct H as (r & <- & H). apply in_app_iff.
        destruct (Name r H) as (i & Hi & [[N1 _]|[N1 _]]); rewrite N1; [left|right]; apply in_map_iff; exists i;
          (split; [reflexivity|apply in_seq; lia]).
      * intros H. assert (Q : exists i, i < n /\ (y = "//a/task_" ++ dec_nat i \/ y = "//b/task_" ++ dec_nat i)%string).
        { apply in_app_iff in H. destruct H as [H|H]; apply in_map_iff in H; destruct H as (i & <- & Hi);
            exists i; apply in_seq in Hi; (split; [lia|auto]). }
        clear H. destruct Q as (i & Hi & Q).
        set (t := if String.eqb y ("//a/task_" ++ dec_nat i) then aa i else ab i).
        set (p := [if String.eqb y ("//a/task_" ++ dec_nat i) then "a" else "b"; "task_" ++ dec_nat i]%string).
        assert (Hp : holds (a_sets a 0) p t /\ full_name p = y).
        { unfold p, t. destruct (String.eqb_spec y ("//a/task_" ++ dec_nat i)) as [Ey|Ny].
          - split; [apply HH; exists i; auto|]. subst y. cbn [full_name slashed append]. now rewrite sapp_nil.
          - destruct Q as [Q|Q]; [contradiction|]. split; [apply HH; exists i; auto|]. subst y. cbn [full_name slashed append].
            now rewrite sapp_nil. }
        destruct Hp as [Hp Ey]. assert (Ht : In t (map r_task (er_runs er))) by (apply Hr, Hsel; eauto).
        apply in_map_iff in Ht. destruct Ht as (r & Er & Hin). apply in_map_iff. exists r. split; [|exact Hin].
        destruct (Hnm r Hin) as [_ H]. rewrite <- Ey. apply H. now rewrite Er.
  - intros r Hin. destruct (exec_facts _ _ _ _ _ _ HE) as (Hwf & Hra & _ & Hnd & _ & _ & _ & _ & Hci).
    destruct (nothing_failed c z s er Hwf HR E Hok r Hin) as [H|H]; [exact H|]. exfalso.
    assert (Hin' : In r (records (trace s))) by (rewrite <- (finished_runs c z s Hwf HR er E); exact Hin).
    destruct (status_decision c z s r Hwf Hra HR Hin') as (_ & H1 & _). apply H1 in H. destruct H as [_ H]. apply H.
    exists (r_node r). split; [apply rt_refl|]. assert (Ht : In (r_task r) (map r_task (er_runs er))) by now apply in_map.
    apply Hr in Ht. destruct (Hnm r Hin) as [-> _]. unfold job_invalidated. rewrite (Hci _ Ht).
    destruct (Hiv (r_task r)) as [log ->]. eauto.
Qed.

Theorem readme_cycle : forall x a b d asm iv addr c z s0 s,
  a <> b -> assemble_all (assembly0 x) (readme_main a b d) = Some asm ->
  execution_of (a_store asm) (a_sets asm 0) "" iv addr c -> reachable c z s0 -> s_pc s0 = Created ->
  step c s0 LTick = Some s -> result s = RThrow ExcCycle.
Proof.
  intros x a b d asm iv addr c z s0 s Hab E HE HR Hc Hs. apply (set_cycle_detected _ _ _ _ _ _ HE z s0 s HR Hc Hs).
  assert (Hm : mem b [a] = false) by (cbn; destruct (Nat.eqb_spec b a); [congruence|reflexivity]).
  cbn in E. cbn in Hm. rewrite Hm in E. cbn in E. inversion E; subst asm; clear E. cbn [a_store a_sets] in *.
  set (st := store_set _ _ _) in *. set (ts := upd _ _ _ 0) in *.
  assert (HA : holds ts ["A"] a) by (apply holds_here; cbn; auto).
  assert (HB : holds ts ["B"] b) by (apply holds_here; cbn; auto).
  assert (SA : selected st ts "" a) by (exists ["A"], a; split; [exact HA|split; [exists ""%string, (full_name ["A"]); reflexivity|apply rt_refl]]).
  assert (SB : selected st ts "" b) by (exists ["B"], b; split; [exact HB|split; [exists ""%string, (full_name ["B"]); reflexivity|apply rt_refl]]).
  exists a. eapply t_trans; apply t_step; split; [exact SA| |exact SB|]; (split; [eassumption|]); left; cbn;
    unfold upd; rewrite ?Nat.eqb_refl; cbn; auto.
  destruct (Nat.eqb_spec b a); [congruence|]. cbn. auto.
Qed.

Theorem readme_built : forall x a b d, a <> b ->
  exists asm1 asm, assemble_all (assembly0 x) (firstn 1 (readme_main a b d)) = Some asm1 /\
    only_builds (assembly0 x) (readme_main a b d) asm /\
    st_get (a_store asm1) a = Task true [] [] [] [] true /\
    (forall p t, holds (a_sets asm 0) p t <-> (p = ["A"]%string /\ t = a) \/ (p = ["B"]%string /\ t = b)) /\
    st_get (a_store asm) a = Task true [b] [] [] [] false /\ st_get (a_store asm) b = Task true [a] [] [] [] false.
Proof.
  intros x a b d Hab. assert (Hm : mem b [a] = false) by (cbn; destruct (Nat.eqb_spec b a); [congruence|reflexivity]).
  cbn in Hm. eexists. eexists. split; [cbn; reflexivity|]. split.
  { unfold readme_main. eapply ob_op; [cbn; tauto|reflexivity|]. eapply ob_op; [cbn; auto|cbn; rewrite Hm; reflexivity|].
    eapply ob_op; [cbn; intros u [<-|[]]; auto|reflexivity|]. apply ob_done. }
  cbn [a_store a_sets]. split; [|split; [|split]].
  - cbn. unfold upd. now rewrite Nat.eqb_refl.
  - intros p t. split.
    + intros H. cbn in H. inversion H as [? n t' ? HI|? ? ? ? ? ? HI]; subst; cbn in HI.
      * destruct HI as [E|[E|[]]]; inversion E; subst; auto.
      * destruct HI.
    + intros [[-> ->]|[-> ->]]; apply holds_here; cbn; auto.
  - cbn. unfold upd. now rewrite Nat.eqb_refl.
  - cbn. unfold upd. destruct (Nat.eqb_spec b a); [congruence|]. now rewrite Nat.eqb_refl.
Qed.

(** A set is replaced although a task outside depends on one of its tasks. *)
Definition replaced : list assemble_op :=
  [ APut 1 [] "t" 1 sleeping_task; AMove 0 ["a"] 1 []; APut 0 [] "x" 2 (Task true [1] [] [] [] false);
    APut 1 [] "t" 3 sleeping_task; AMove 0 ["a"] 1 [] ].

Theorem replaced_dangles : exists a,
  assemble_all (assembly0 sleeping_task) replaced = Some a /\
  holds (a_sets a 0) ["x"] 2 /\ depends_on (a_store a) 2 1 /\ ~ In 1 (st_dom (a_store a)) /\
  forall threads iv addr ord1 ord2, some_order ord1 -> some_order ord2 ->
    exec_set (a_store a) (a_sets a 0) threads "" iv addr ord1 ord2 = BuildUB.
Proof.
  destruct (assemble_all (assembly0 sleeping_task) replaced) as [a|] eqn:E; [|vm_compute in E; discriminate].
  exists a. split; [reflexivity|]. vm_compute in E. inversion E; subst a; clear E. cbn [a_sets a_store st_dom].
  split; [apply holds_here; cbn; auto|]. split; [cbn; auto|]. split; [cbn; intuition discriminate|].
  intros threads iv addr ord1 ord2 H1 H2. apply exec_set_undefined; [exact H1|exact H2|].
  exists 1. split; [|cbn; intuition discriminate].
  exists ["x"], 2. split; [apply holds_here; cbn; auto|]. split; [now exists "", (full_name ["x"])|].
  apply rt_step. cbn. auto.
Qed.
