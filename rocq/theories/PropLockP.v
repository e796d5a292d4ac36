(** * Examples for PropLock.v *)
From Coq Require Import String.
From Coq Require Import List Arith NArith Bool Lia.
From Verif Require Import Str StrP Path Json Types Parse Map Prog Desc Resolve Top Run Posix Demo SpecRun SpecLoad SpecCache SpecJson SpecTerm SpecDesc SpecEnd PosixP PropCacheP PropTermP EndP PropEndP Lock SpecLock LockP LiveP.
Import ListNotations.

Definition sched55 (n : nat) : fsys * nat := (disk16 (n / 3), n mod 2).
Definition l55 (f : nat) : list call := [c63 f; CResolve R16 f (lit "/r/src") (lit "p")]%string.
Lemma fair55 : forall i, i < 2 -> fair sched55 i.
Proof.
  intros i Hi n. exists (i + n * 2). split; [lia|]. unfold sched55. cbn [snd]. rewrite Nat.mod_add by discriminate. apply Nat.mod_small, Hi.
Qed.
Lemma fin_map {A} : forall l : list (thread A), Forall finished l <-> forallb (fun b => b) (map (fun t => match t_prog t with Do _ _ => false | _ => true end) l) = true.
Proof.
  induction l as [|t l IH]; [split; [reflexivity|constructor]|]. cbn [map forallb]. rewrite andb_true_iff, <- IH.
  split.
  - intros H. inversion H as [|? ? Ht Hl]; subst. split; [|exact Hl]. destruct (t_prog t) eqn:E; try reflexivity. contradiction (Ht _ _ E).
  - intros [H1 H2]. constructor; [|exact H2]. intros o k E. rewrite E in H1. discriminate.
Qed.
Lemma done200 : Forall finished (fst (locked_run H55 (first sched55 200) (map (fun c => start (call_prog c)) (l55 60)) st0)).
Proof. apply (proj2 (fin_map _)). vm_compute. reflexivity. Qed.
Lemma open40 : ~ Forall finished (fst (locked_run H55 (first sched55 40) (map (fun c => start (call_prog c)) (l55 60)) st0)).
Proof. intros H. apply (proj1 (fin_map _)) in H. vm_compute in H. discriminate H. Qed.
Lemma calm55 : forall n, SpecEnd.calm nmc w16 (fst (sched55 n)).
Proof. intros n. exact (disks16 (n / 3)). Qed.
Lemma plain55 : forall f, Forall (fun c => call_plain w16 c) (l55 f).
Proof. intros f. constructor; [exact (plain16 f (lit "/r") (lit "@/y") eq_refl)|]. constructor; [exact (plain16 f (lit "/r/src") (lit "p") eq_refl)|constructor]. Qed.
Lemma live55 :
  ((forall n, SpecEnd.calm nmc w16 (fst (sched55 n))) /\ (forall i, i < 2 -> fair sched55 i) /\ client (js_of T16) nmc R16 /\
   forall f, Forall (fun c => call_plain w16 c) (l55 f)) /\
  Forall finished (fst (locked_run H55 (first sched55 200) (map (fun c => start (call_prog c)) (l55 60)) st0)) /\
  ~ Forall finished (fst (locked_run H55 (first sched55 40) (map (fun c => start (call_prog c)) (l55 60)) st0)).
Proof.
  exact (conj (conj calm55 (conj fair55 (conj client16 plain55))) (conj done200 open40)).
Qed.
