(** * Ex_Csv: concrete tables for the examples of Properties_Csv.v. *)
From Coq Require Import List ZArith Lia Bool Ascii Reals.
From Verif Require Import Base BaseFacts Dbl DblFacts Scalar Spec_Tau Spec_Select Spec_Recon
  Model_Heap Model_Csv Model_CsvData Spec_Csv Spec_CsvData Proof_CsvVal5 Ref_Csv.
Import ListNotations.
Open Scope list_scope.
Open Scope Z_scope.

Definition good_rowb (k : nat) (fs : list text) : bool :=
  Nat.eqb (List.length fs) k &&
  forallb (fun f => nonempty f &&
    forallb (fun c => negb (Ascii.eqb c ","%char || Ascii.eqb c "010"%char || Ascii.eqb c "000"%char)) f) fs &&
  (Z.of_nat (List.length (row_text fs)) <=? 1023).
Lemma good_rowb_ok k fs : good_rowb k fs = true -> good_row k fs.
Proof.
  unfold good_rowb. intro H. apply andb_prop in H as [H C]. apply andb_prop in H as [A B].
  split; [apply Nat.eqb_eq; exact A|]. split; [|apply Z.leb_le; exact C].
  apply Forall_forall. intros f I. rewrite forallb_forall in B. specialize (B f I).
  apply andb_prop in B as [N P]. split; [destruct f; [discriminate|discriminate]|].
  intros c Ic. rewrite forallb_forall in P. specialize (P c Ic). apply negb_true_iff in P.
  apply orb_false_iff in P as [P P3]. apply orb_false_iff in P as [P1 P2].
  repeat split; intros ->; rewrite Ascii.eqb_refl in *; discriminate.
Qed.
Lemma well_formedb k rows : forallb (good_rowb k) rows = true -> well_formed k rows.
Proof. intro H. apply Forall_forall. intros fs I. apply good_rowb_ok. rewrite forallb_forall in H. apply H, I. Qed.
Definition good_tableb (t : table) (rows : list (list text)) : bool :=
  forallb (good_rowb (List.length (columns t))) rows &&
  match rows with [] => false | _ => true end && (zlen rows <? 2 ^ 64).
Lemma good_tableb_ok t rows : good_tableb t rows = true -> good_table t rows.
Proof.
  unfold good_tableb. intro H. apply andb_prop in H as [H C]. apply andb_prop in H as [A B].
  split; [apply well_formedb; exact A|]. split; [destruct rows; discriminate|apply Z.ltb_lt; exact C].
Qed.

(** The one-digit field. *)
Definition dg (n : nat) : text := [ascii_of_nat (48 + n)].
(** A row that starts with [a] and has [b] in the other columns. *)
Definition row (k a b : nat) : list text := dg a :: repeat (dg b) (k - 1).
Definition ex_geo : list (list text) := [row 19 0 0; row 19 1 1; row 19 2 2; row 19 3 3].
(** Radial velocities -1 (column 9). *)
Definition ex_geo_in : list (list text) :=
  map (fun n => repeat (dg n) 8 ++ [["-"%char; "1"%char]] ++ repeat (dg n) 10) [1; 2; 3]%nat.
Definition ex_cal : list (list text) := [row 4 1 2; row 4 3 4].
Definition ex_dlp : list (list text) := [row 13 1 1; row 13 2 2; row 13 3 3].
Definition ex_dlp_in : list (list text) := [row 13 3 1; row 13 2 2; row 13 1 3].
Definition ex_dlp_chord : list (list text) := [row 13 1 1; row 13 2 2; row 13 1 3].
Definition ex_tau : list (list text) := [row 13 1 5; row 13 3 7].
Definition ex_legacy : list (list text) := [row 12 1 1; row 12 2 2; row 12 3 3].
Definition ex_geo_legacy : list (list text) := [row 18 0 0; row 18 1 1; row 18 2 2].
Definition ex_uranus : list (list text) := [row 17 1 1; row 17 2 2; row 17 3 3].
Definition ex_merged : list (list text) := [row 19 1 2; row 19 3 4].
Definition ex_header : list text := ["B"%char] :: repeat ["h"%char] 18.

Definition ref (alloc : site -> bool) : csvlib dbl_scalar := ref_csv dbl_scalar alloc.
Definition all_ok : site -> bool := fun _ => true.
Definition ex_lib : csvlib dbl_scalar := ref all_ok.
Lemma ex_laws : csv_laws ex_lib. Proof. apply ref_csv_laws. Qed.
Lemma ex_interp : interp_law ex_lib.
Proof. intros xs ys ps. cbn. apply map_length. Qed.
Lemma ex_allocs : all_allocs ex_lib.
Proof. intro k. split; [reflexivity|intro c; reflexivity]. Qed.
Definition ex_heap : heap := mkHeap [] 0 0.
Lemma ex_good_heap : good_heap ex_heap.
Proof. split; [constructor|intros b []]. Qed.

Definition numbersb (l : list double) : bool := forallb (fun x => negb (dnan x)) l.
Lemma numbersb_ok l : numbersb l = true -> numbers l.
Proof. intros H x I. unfold numbersb in H. rewrite forallb_forall in H. specialize (H x I). apply negb_true_iff in H. exact H. Qed.
Lemma egressb_ok l : match l with [] => false | _ => true end && forallb (dlt (dofZ 0)) l = true -> egress l.
Proof.
  intro H. apply andb_prop in H as [A B]. split; [destruct l; discriminate|].
  intros x I. apply pos_lt. rewrite forallb_forall in B. exact (B x I).
Qed.
Lemma ingressb_ok l : forallb (fun x => dlt x (dofZ 0)) l = true -> ingress l.
Proof. intros B x I. apply neg_lt. rewrite forallb_forall in B. exact (B x I). Qed.
