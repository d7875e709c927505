(** More about programs compared with the same programs with an assertion. *)
From Coq Require Import ZArith List Lia.
From stdpp Require Import gmap list.
From Verif Require Import Mem Prog GmpAlloc Chk.
Local Open Scope Z_scope.

Lemma chk_NewO {A} (f g : oid -> prog A) : (forall o, chk (f o) (g o)) -> chk (NewO f) (NewO g).
Proof. intros H orc t st. cbn [run]. apply H. Qed.
Lemma run_bind {A B} (p : prog A) (f : A -> prog B) orc : forall t st, run true orc (bind p f) t st =
  match run true orc p t st with Done a st' t' => run true orc (f a) t' st' | OOM n => OOM n | AssertFail => AssertFail | UB => UB | OutOfFuel => OutOfFuel end.
Proof.
  induction p as [a|p k IH|p c k IH|o k IH|o z k IH|k IH|o k IH|k IH|o k IH
    |n k IH|p n k IH|p k IH|n k IH|p k IH|k IH|g' k IH|a b k IH| |]; intros t st.
  1: done.
  all: simpl; repeat (first [apply IH | done | case_match]); done.
Qed.
Lemma chk_bind2 {A B} (p p' : prog A) (f : A -> prog B) : chk p p' -> chk (bind p f) (bind p' f).
Proof.
  intros H orc t st. specialize (H orc t st). rewrite !run_bind. destruct (run true orc p' t st) eqn:E; cbn [chk_o] in H.
  2:{ destruct H as [-> | ->]; [by left|by right]. }
  all: rewrite H; apply chk_o_refl.
Qed.
