(** Printing and reading decimal numbers. *)
From Coq Require Import String Ascii Lia.
From Verif Require Import Model.Common Model.Text Spec.Files.
Open Scope nat_scope.

Lemma digit_cases : forall d, (d < 10)%N ->
  d = 0%N \/ d = 1%N \/ d = 2%N \/ d = 3%N \/ d = 4%N \/ d = 5%N \/ d = 6%N \/ d = 7%N \/ d = 8%N \/ d = 9%N.
Proof. intros. lia. Qed.

Lemma digit_val_digit d : (d < 10)%N -> digit_val (digit d) = Some d.
Proof.
  intros H. apply digit_cases in H.
  repeat destruct H as [->|H]; try reflexivity. subst. reflexivity.
Qed.

Lemma digit_plain d : (d < 10)%N ->
  is_space (digit d) = false /\ Ascii.eqb (digit d) "-" = false /\ Ascii.eqb (digit d) "+" = false.
Proof.
  intros H. apply digit_cases in H.
  repeat destruct H as [->|H]; try (repeat split; reflexivity). subst. repeat split; reflexivity.
Qed.

Lemma size_nat_div10 n : (10 <= n)%N -> N.size_nat (n / 10) < N.size_nat n.
Proof.
  intros H. assert (Hs : forall m, m <> 0%N -> N.of_nat (N.size_nat m) = N.succ (N.log2 m)).
  { intros [|p] Hm; [congruence|]. rewrite <- N.size_log2 by congruence. cbn.
    clear. induction p; cbn [Pos.size_nat Pos.size]; lia. }
  assert (H1 : (n / 10 <> 0)%N) by (intros E; apply N.div_small_iff in E; lia).
  enough (N.log2 (n / 10) < N.log2 n)%N by (specialize (Hs _ H1) as E1; assert (n <> 0)%N by lia;
    specialize (Hs n ltac:(lia)) as E2; lia).
  apply N.le_lt_trans with (N.log2 (n / 2)).
  - apply N.log2_le_mono. apply N.div_le_compat_l. lia.
  - rewrite <- N.div2_div. rewrite N.div2_spec, N.log2_shiftr.
    assert (0 < N.log2 n)%N by (apply N.log2_pos; lia). lia.
Qed.

(** What the printer puts in front of [acc] reads back. *)
Lemma read_dec_aux fuel : forall n acc pre any, N.size_nat n < fuel ->
  exists k, read_digits (dec_aux fuel n acc) pre any = read_digits acc (pre * k + n)%N true /\
            (exists e, k = (10 ^ N.of_nat e)%N /\ e <> 0).
Proof.
  induction fuel as [|f IH]; intros n acc pre any Hf; [lia|].
  cbn [dec_aux]. assert (Hm : (n mod 10 < 10)%N) by (apply N.mod_lt; lia).
  destruct (N.ltb_spec n 10) as [Hn|Hn].
  - exists 10%N. split; [|exists 1; split; [reflexivity|lia]].
    cbn [read_digits]. rewrite digit_val_digit by assumption.
    rewrite N.mod_small by assumption. f_equal. lia.
  - pose proof (size_nat_div10 n Hn).
    destruct (IH (n / 10)%N (String (digit (n mod 10)) acc) pre any ltac:(lia)) as (k & E & e & -> & He).
    exists (10 ^ N.of_nat (S e))%N. split; [|exists (S e); split; [reflexivity|lia]].
    rewrite E. cbn [read_digits]. rewrite digit_val_digit by assumption. f_equal.
    rewrite Nat2N.inj_succ, N.pow_succ_r'. pose proof (N.div_mod n 10). lia.
Qed.

Lemma read_dec_N n : read_digits (dec_N n) 0 false = (n, true).
Proof.
  unfold dec_N. destruct (read_dec_aux (S (N.size_nat n)) n "" 0 false ltac:(lia)) as (k & E & _).
  rewrite E. cbn. reflexivity.
Qed.

Lemma dec_aux_head fuel : forall n acc, fuel <> 0 ->
  exists d r, dec_aux fuel n acc = String (digit d) r /\ (d < 10)%N.
Proof.
  induction fuel as [|f IH]; intros n acc Hf; [lia|].
  assert (Hm : (n mod 10 < 10)%N) by (apply N.mod_lt; lia).
  cbn [dec_aux]. destruct (n <? 10)%N; [eauto|].
  destruct f as [|f]; [cbn; eauto|]. apply IH. lia.
Qed.

Lemma dec_N_head n : exists d r, dec_N n = String (digit d) r /\ (d < 10)%N.
Proof. apply dec_aux_head. lia. Qed.

Lemma dec_N_inj a b : dec_N a = dec_N b -> a = b.
Proof. intros E. pose proof (read_dec_N a) as H. rewrite E, read_dec_N in H. congruence. Qed.

Lemma read_int_dec z : is_int z -> read_int (dec_Z z) = z.
Proof.
  intros Hz. unfold is_int, int_min, int_max in Hz. unfold dec_Z.
  destruct (Z.ltb_spec z 0) as [Hneg|Hpos]; unfold read_int.
  - cbn [append skip_space]. cbn [is_space]. change (is_space "-") with false.
    cbn [Ascii.eqb]. rewrite read_dec_N. cbn [fst Ascii.eqb Bool.eqb]. unfold int_min, int_max. lia.
  - destruct (dec_N_head (Z.abs_N z)) as (d & r & E & Hd). rewrite E.
    destruct (digit_plain d Hd) as (H1 & H2 & H3). cbn [skip_space]. rewrite H1, H2, H3.
    rewrite <- E, read_dec_N. cbn [fst]. unfold int_min, int_max. lia.
Qed.
