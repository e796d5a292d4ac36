(** * Results under admissible answers ([wx]) and results that may be given ([may_give]). *)
From Coq Require Import List Arith NArith Bool.
From Verif Require Import Str Path Json Types Prog Run Exec Resolve SimP SpecLoad SpecCache SpecTerm.
Import ListNotations.

Lemma wx_may_give {A} : forall (ok ok' : forall o, ans o -> Prop), (forall o x, ok o x -> ok' o x) -> forall p : prog A,
  wx ok (fun r => match r with Done a => may_give ok' p a | _ => True end) p.
Proof.
  intros ok ok' Hok p. induction p as [a|m| |o k IH]; cbn [wx]; auto.
  - exists []. split; constructor.
  - intros x Hx. eapply wx_mono; [|apply IH]. intros [a|m|]; auto. intros (tr & H1 & H2). exists (mkev o x :: tr). split; [constructor; exact H1|].
    constructor; [apply Hok, Hx|exact H2].
Qed.
Lemma moved_self : forall R, moved_to R (rv_cache R) (rv_id R) = R. Proof. intros []. reflexivity. Qed.
Lemma may_wx {A} : forall ok (p : prog A) Q a, wx ok Q p -> may_give ok p a -> Q (Done a).
Proof.
  intros ok p Q a H (tr & Hx & Hf). remember (Done a) as r eqn:Er. induction Hx as [b|m| |o k x tr r Hx IH]; try exact H.
  inversion Hf as [|e tr' He Hf']; subst. apply IH; auto.
Qed.
Lemma true_disk : forall fs R o x, true_answer fs R o x -> disk_answer fs o x.
Proof. intros fs R [] x H; cbn in *; auto. Qed.
