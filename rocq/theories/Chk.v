(** Programs that do not look at the result of a request for memory, compared with the
    same programs with an assertion. *)
From Coq Require Import ZArith List Lia.
From stdpp Require Import gmap list.
From Verif Require Import Mem Prog GmpAlloc.
Local Open Scope Z_scope.

Definition chk_o {A} (o o' : outcome A) : Prop := match o' with OOM n => o = OOM n \/ o = UB | _ => o = o' end.
Definition chk {A} (p p' : prog A) : Prop := forall orc t st, chk_o (run true orc p t st) (run true orc p' t st).
Lemma chk_o_refl {A} (o : outcome A) : chk_o o o.
Proof. destruct o; cbn; auto. Qed.
Lemma chk_refl {A} (p : prog A) : chk p p.
Proof. intros orc t st. apply chk_o_refl. Qed.
Lemma chk_bind {A B} (p : prog A) (f g : A -> prog B) : (forall x, chk (f x) (g x)) -> chk (bind p f) (bind p g).
Proof.
  intros H orc. induction p as [a|p k IH|p c k IH|o k IH|o z k IH|k IH|o k IH|k IH|o k IH
    |n k IH|p n k IH|p k IH|n k IH|p k IH|k IH|g' k IH|a b k IH| |]; intros t st.
  1: exact (H a orc t st).
  all: simpl; repeat case_match; first [apply IH | apply chk_o_refl | done].
Qed.
Lemma chk_if {A} (c : bool) (p p' q q' : prog A) : chk p p' -> chk q q' -> chk (if c then p else q) (if c then p' else q').
Proof. by destruct c. Qed.
Lemma chk_malloc {A} n (k : ptr -> prog A) : chk (malloc_raw n k) (malloc_text n k).
Proof.
  intros orc t st. unfold malloc_raw, malloc_text. cbn [run]. destruct (granted orc t n) eqn:E.
  - apply chk_o_refl.
  - rewrite bool_decide_eq_false_2 by (by intros [? ?]). by right.
Qed.
