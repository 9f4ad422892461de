(** Proofs about SchemaCache.v *)
From Coq Require Import String List Arith Lia NArith.
From Verif Require Import PyStr Classes ClassProofs SchemaCache.
Import ListNotations.
Opaque u.

Lemma calls_app a : forall cache b, exists cache', calls cache (a ++ b) = calls cache a ++ calls cache' b /\
  (forall x o, dget x cache = Some o -> dget x cache' = Some o) /\
  (forall x, dget x cache' = match dget x cache with Some o => Some o | None =>
     match find (fun r => match r with (y, AObj _, _) => str_eqb y x | _ => false end) (calls cache a) with Some (_, AObj o, _) => Some o | _ => None end end).
Proof.
  induction a as [|c a IH]; intros cache b.
  - exists cache. cbn. split; [reflexivity|]. split; [auto|]. intros x. now destruct (dget x cache).
  - cbn [app calls]. destruct (load_schema cache (k_uri c) (k_base c) (k_out c)) as [[cache1 an] t] eqn:E. destruct (IH cache1 b) as (cache' & H1 & H2 & H3). exists cache'. cbn. rewrite H1. split; [reflexivity|].
    assert (G : forall x, dget x cache1 = match dget x cache with Some o => Some o | None => match an with AObj o => if str_eqb (k_uri c) x then Some o else None | _ => None end end).
    { intros x. unfold load_schema in E. destruct (dget (k_uri c) cache) as [o|] eqn:Ec.
      - injection E as <- <- <-. destruct (dget x cache) eqn:Ex; [reflexivity|]. destruct (str_eqb_spec (k_uri c) x) as [He|_]; [congruence|reflexivity].
      - destruct (k_out c) as [o|m|m|m]; injection E as <- <- <-; rewrite ?dget_dset.
        + destruct (str_eqb_spec (k_uri c) x) as [He|_]; [subst x; now rewrite Ec|]. now destruct (dget x cache).
        + now destruct (dget x cache).
        + now destruct (dget x cache).
        + now destruct (dget x cache). }
    split.
    + intros x o Hx. apply H2. rewrite G, Hx. reflexivity.
    + intros x. rewrite H3, G. destruct (dget x cache); [reflexivity|]. destruct an as [o|m|m|m]; try reflexivity. destruct (str_eqb (k_uri c) x); reflexivity.
Qed.

(** ** threads *)
Definition sys_ok (s : sys) : Prop :=
  (forall x o, dget x (s_cache s) = Some o -> In (x, o) (s_loaded s)) /\
  (forall i t, nth_error (s_threads s) i = Some t ->
     match t_state t with
     | TStore o => In (t_uri t, o) (s_loaded s)
     | TRead => dget (t_uri t) (s_cache s) <> None
     | TDone (AObj o) => In (t_uri t, o) (s_loaded s)
     | _ => True
     end).
Lemma nth_put {A} (x : A) : forall l i j y, nth_error (put i x l) j = Some y -> (i = j /\ y = x) \/ (i <> j /\ nth_error l j = Some y).
Proof.
  induction l as [|z l IH]; intros i j y H; cbn in H; [destruct i; destruct j; discriminate|]. destruct i, j; cbn in H.
  - left. split; congruence.
  - right. split; [lia|assumption].
  - right. split; [lia|assumption].
  - destruct (IH _ _ _ H) as [[-> ->]|[N G]]; [now left|]. right. split; [lia|assumption].
Qed.
Lemma tstep_ok s i out : sys_ok s -> sys_ok (tstep s i out).
Proof.
  intros [H1 H2]. unfold tstep. destruct (nth_error (s_threads s) i) as [t|] eqn:Ei; [|split; assumption]. pose proof (H2 i t Ei) as Ht. destruct (t_state t) eqn:Es.
  - destruct (dget (t_uri t) (s_cache s)) as [o|] eqn:Ed; split; cbn; auto; intros j t' Hj; apply nth_put in Hj as [[_ ->]|[_ Hj]]; cbn; auto; try congruence; now apply H2 in Hj.
  - destruct out as [o|m|m|m]; split; cbn; auto; intros j t' Hj; apply nth_put in Hj as [[_ ->]|[_ Hj]]; cbn; auto; apply H2 in Hj; destruct (t_state t') as [| | | |[]]; auto.
  - split; cbn.
    + intros x o' Hx. rewrite dget_dset in Hx. destruct (str_eqb_spec (t_uri t) x) as [<-|_]; [|auto]. injection Hx as <-. assumption.
    + intros j t' Hj; apply nth_put in Hj as [[_ ->]|[_ Hj]]; cbn; [rewrite dget_dset, str_eqb_refl; discriminate|]. apply H2 in Hj. destruct (t_state t') as [| | | |[]]; auto.
      rewrite dget_dset. destruct (str_eqb (t_uri t) (t_uri t')); [discriminate|assumption].
  - destruct (dget (t_uri t) (s_cache s)) as [o|] eqn:Ed; [|split; assumption]. split; cbn; auto. intros j t' Hj; apply nth_put in Hj as [[_ ->]|[_ Hj]]; cbn; auto. now apply H2 in Hj.
  - split; assumption.
Qed.
Lemma trun_ok sched : forall s, sys_ok s -> sys_ok (trun s sched).
Proof. induction sched as [|io sched IH]; intros s Hs; [assumption|]. cbn. apply IH. now apply tstep_ok. Qed.
Lemma start_ok uris : sys_ok (start uris).
Proof.
  split; cbn; [discriminate|]. intros i t Hi. apply nth_error_In, in_map_iff in Hi as (x & <- & _). exact I.
Qed.
