(** Ordered iteration over a [BTreeMap] keyed by numbers: the entries in
    ascending order of their keys. *)
From Verif Require Import Base.

Section Btree.
Context {A : Type}.
Implicit Types m : gmap N A.

Definition key_le (x y : N * A) : Prop := x.1 <= y.1.
Global Instance key_le_dec x y : Decision (key_le x y).
Proof. unfold key_le. apply _. Defined.
Global Instance key_le_total : Total key_le.
Proof. intros x y. unfold key_le. lia. Qed.
Global Instance key_le_trans : Transitive key_le.
Proof. intros x y z. unfold key_le. lia. Qed.

Definition btree_list m : list (N * A) := merge_sort key_le (map_to_list m).

Lemma btree_list_perm m : btree_list m ≡ₚ map_to_list m.
Proof. apply merge_sort_Permutation. Qed.
Lemma elem_of_btree_list m k a : (k, a) ∈ btree_list m <-> m !! k = Some a.
Proof. by rewrite btree_list_perm, elem_of_map_to_list. Qed.
Lemma btree_list_NoDup m : NoDup (map fst (btree_list m)).
Proof.
  change (map fst) with (fmap (M:=list) (@fst N A)).
  rewrite btree_list_perm. apply NoDup_fst_map_to_list.
Qed.

Definition key_lt (x y : N * A) : Prop := x.1 < y.1.
Lemma btree_list_sorted m : StronglySorted key_lt (btree_list m).
Proof.
  assert (H : StronglySorted key_le (btree_list m)).
  { apply Sorted_StronglySorted; [intros ???; apply key_le_trans|]. apply Sorted_merge_sort. apply _. }
  pose proof (btree_list_NoDup m) as Hn. revert H Hn. generalize (btree_list m) as l.
  induction l as [|x l IH]; intros Hs Hn; [constructor|].
  apply StronglySorted_inv in Hs as [Hs Hx]. apply NoDup_cons in Hn as [Hnx Hn].
  constructor; [by apply IH|]. rewrite Forall_forall in Hx |- *. intros y Hy.
  specialize (Hx y Hy). unfold key_le, key_lt in *.
  assert (x.1 <> y.1); [|lia]. intros E. apply Hnx. rewrite E.
  apply elem_of_list_fmap. eauto.
Qed.
End Btree.
