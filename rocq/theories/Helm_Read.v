(** Lemmas about reading the Helmholtz table. *)
From Coq Require Import Reals Bool List Lia Arith.PeanoNat.
From Verif Require Import Helm_Model.
Import ListNotations.

Lemma nth_skip (n m : nat) (l : list R) (d : R) : nth m (skipn n l) d = nth (n + m) l d.
Proof. revert l. induction n as [|n IH]; intros l; [reflexivity|]. destruct l as [|x l]; [destruct m; reflexivity|]. apply IH. Qed.
Lemma skip_skip (n m : nat) (l : list R) : skipn n (skipn m l) = skipn (m + n) l.
Proof. revert l. induction m as [|m IH]; intros l; [reflexivity|]. destruct l as [|x l]; [destruct n; reflexivity|]. apply IH. Qed.

Local Ltac dec := repeat match goal with
  | |- context [Nat.leb ?a ?b] => destruct (Nat.leb_spec a b)
  | |- context [Nat.ltb ?a ?b] => destruct (Nat.ltb_spec a b)
  | |- context [Nat.eqb ?a ?b] => destruct (Nat.eqb_spec a b)
  end; cbn [andb].

Lemma read_tables_spec n : forall k j i a file,
  ((length file < n)%nat -> read_tables n k j i a file = None) /\
  ((n <= length file)%nat -> exists a', read_tables n k j i a file = Some (a', skipn n file) /\
     forall k' j' i', a' k' j' i' =
       (if (Nat.leb k k' && Nat.ltb k' (k + n) && Nat.eqb j' j && Nat.eqb i' i)%bool then nth (k' - k) file 0%R else a k' j' i')).
Proof.
  induction n as [|n IH]; intros k j i a file; cbn [read_tables].
  - split; [lia|]. intros _. exists a. split; [reflexivity|]. intros k' j' i'. dec; try reflexivity; lia.
  - destruct file as [|x file]; cbn [length]; [split; [reflexivity|lia]|].
    destruct (IH (S k) j i (setn a k j i x) file) as (H1 & H2). split; intros L; [apply H1; lia|].
    destruct (H2 ltac:(lia)) as (a' & E & V). exists a'. split; [exact E|]. intros k' j' i'. rewrite V. unfold setn. dec; try lia; try reflexivity.
    + replace (k' - k)%nat with (S (k' - S k)) by lia. reflexivity.
    + replace (k' - k)%nat with 0%nat by lia. reflexivity.
Qed.
Lemma read_row_spec c : forall nt j i a file,
  ((length file < c * nt)%nat -> read_row c nt j i a file = None) /\
  ((c * nt <= length file)%nat -> exists a', read_row c nt j i a file = Some (a', skipn (c * nt) file) /\
     forall k' j' i', a' k' j' i' =
       (if (Nat.ltb k' nt && Nat.eqb j' j && Nat.leb i i' && Nat.ltb i' (i + c))%bool then nth ((i' - i) * nt + k') file 0%R else a k' j' i')).
Proof.
  induction c as [|c IH]; intros nt j i a file; cbn [read_row].
  - split; [lia|]. intros _. exists a. split; [reflexivity|]. intros k' j' i'. dec; try reflexivity; lia.
  - destruct (read_tables_spec nt 0 j i a file) as (H1 & H2). change (S c * nt)%nat with (nt + c * nt)%nat.
    destruct (Nat.le_gt_cases nt (length file)) as [L|L].
    + destruct (H2 L) as (a1 & E1 & V1). rewrite E1. destruct (IH nt j (S i) a1 (skipn nt file)) as (K1 & K2).
      assert (LS : length (skipn nt file) = (length file - nt)%nat) by apply skipn_length. split; intros LL; [apply K1; lia|].
      destruct (K2 ltac:(lia)) as (a' & E & V). exists a'. rewrite E, skip_skip. split; [reflexivity|].
      intros k' j' i'. rewrite V, V1, nth_skip. dec; try lia; try reflexivity.
      * f_equal. replace (i' - i)%nat with (S (i' - S i)) by lia. cbn. lia.
      * f_equal. replace (i' - i)%nat with 0%nat by lia. lia.
    + rewrite (H1 L). split; intros LL; [reflexivity|lia].
Qed.
Lemma read_rows_spec c : forall n0 nt j a file,
  ((length file < c * (n0 * nt))%nat -> read_rows c n0 nt j a file = None) /\
  ((c * (n0 * nt) <= length file)%nat -> exists a', read_rows c n0 nt j a file = Some (a', skipn (c * (n0 * nt)) file) /\
     forall k' j' i', a' k' j' i' =
       (if (Nat.ltb k' nt && Nat.leb j j' && Nat.ltb j' (j + c) && Nat.ltb i' n0)%bool then nth (((j' - j) * n0 + i') * nt + k') file 0%R else a k' j' i')).
Proof.
  induction c as [|c IH]; intros n0 nt j a file; cbn [read_rows].
  - split; [lia|]. intros _. exists a. split; [reflexivity|]. intros k' j' i'. dec; try reflexivity; lia.
  - destruct (read_row_spec n0 nt j 0 a file) as (H1 & H2). change (S c * (n0 * nt))%nat with (n0 * nt + c * (n0 * nt))%nat.
    destruct (Nat.le_gt_cases (n0 * nt) (length file)) as [L|L].
    + destruct (H2 L) as (a1 & E1 & V1). rewrite E1. destruct (IH n0 nt (S j) a1 (skipn (n0 * nt) file)) as (K1 & K2).
      assert (LS : length (skipn (n0 * nt) file) = (length file - n0 * nt)%nat) by apply skipn_length. split; intros LL; [apply K1; lia|].
      destruct (K2 ltac:(lia)) as (a' & E & V). exists a'. rewrite E, skip_skip. split; [reflexivity|].
      intros k' j' i'. rewrite V, V1, nth_skip. dec; try lia; try reflexivity.
      * f_equal. replace (j' - j)%nat with (S (j' - S j)) by lia. ring.
      * f_equal. replace (j' - j)%nat with 0%nat by lia. replace (i' - 0)%nat with i' by lia. ring.
    + rewrite (H1 L). split; intros LL; [reflexivity|]. lia.
Qed.

(** [number of the file that table nt.. holds at (slot k, row j, column i) after the numbers before it] *)
Lemma SetTables_spec nt file :
  ((length file < (101 * 271) * nt)%nat -> SetTablesFromFile nt file = None) /\
  (((101 * 271) * nt <= length file)%nat -> exists a, SetTablesFromFile nt file = Some (a, skipn ((101 * 271) * nt) file) /\
     forall k j i, (k < nt)%nat -> (j < 101)%nat -> (i < 271)%nat -> a k j i = nth ((j * 271 + i) * nt + k) file 0%R).
Proof.
  unfold SetTablesFromFile. destruct (read_rows_spec NTEMP NRHO nt 0 (fun _ _ _ => 0%R) file) as (H1 & H2).
  assert (E : (NTEMP * (NRHO * nt) = (101 * 271) * nt)%nat) by (unfold NTEMP, NRHO; rewrite Nat.mul_assoc; reflexivity). rewrite E in *.
  split; [exact H1|]. intros L. destruct (H2 L) as (a & Ea & V). exists a. split; [exact Ea|].
  intros k j i Hk Hj Hi. rewrite V. unfold NTEMP, NRHO. dec; try lia. replace (j - 0)%nat with j by lia. reflexivity.
Qed.
