(** Relational specification of the two basic dictionary updates, used by several areas, with the
    proofs that Base.v's ordered dictionaries satisfy it. Keys are strings. *)
From Verif Require Import Base.

(** [e'] is [e] with the entry [k -> w] stored: only [k] changes, an existing key keeps its place, a
    new key goes to the end. *)
Definition stored {V} (e e' : list (string * V)) (k : string) (w : V) : Prop :=
  In (k, w) e' /\
  (forall k' w', k' <> k -> (In (k', w') e' <-> In (k', w') e)) /\
  (forall w', In (k, w') e' -> w' = w) /\
  map fst e' = map fst e ++ if in_dec string_dec k (map fst e) then [] else [k].

(** [e'] is the right-biased union of [e] and [o]; the keys of [e] come first in their order, then the
    new keys in the order of [o]. *)
Definition union_of {V} (e o e' : list (string * V)) : Prop :=
  (forall k w, In (k, w) e' <-> In (k, w) o \/ (In (k, w) e /\ ~ In k (map fst o))) /\
  map fst e' = map fst e ++ filter (fun k => if in_dec string_dec k (map fst e) then false else true) (map fst o).

Notation sspec := String.eqb_spec.

Lemma od_set_stored {V} (e : list (string * V)) k w :
  NoDup (map fst e) -> stored e (od_set String.eqb e k w) k w.
Proof.
  intros Hnd. pose proof (od_wf_set String.eqb sspec e k w Hnd) as Hnd'.
  split; [|split; [|split]].
  - apply (od_get_In String.eqb sspec). apply od_get_set_same. apply sspec.
  - intros k' w' N. split; intros H.
    + apply (od_In_get String.eqb sspec) in H; [|assumption].
      rewrite od_get_set_other in H by (try apply sspec; assumption).
      eapply od_get_In; [apply sspec|eassumption].
    + apply (od_In_get String.eqb sspec) in H; [|assumption].
      apply (od_get_In String.eqb sspec).
      rewrite od_get_set_other by (try apply sspec; assumption). assumption.
  - intros w' H. apply (od_In_get String.eqb sspec) in H; [|assumption].
    rewrite od_get_set_same in H by apply sspec. congruence.
  - pose proof (od_keys_set String.eqb sspec e k w) as Hk. unfold od_keys in Hk. rewrite Hk.
    destruct (od_mem String.eqb e k) eqn:E.
    + apply (od_mem_keys String.eqb sspec) in E. destruct (in_dec string_dec k (map fst e)); [|contradiction].
      rewrite app_nil_r. reflexivity.
    + destruct (in_dec string_dec k (map fst e)) as [i|]; [|reflexivity].
      apply (od_mem_keys String.eqb sspec) in i. congruence.
Qed.

Lemma od_update_union {V} (e o : list (string * V)) : NoDup (map fst e) -> NoDup (map fst o) ->
  union_of e o (od_update String.eqb e o) /\ NoDup (map fst (od_update String.eqb e o)).
Proof.
  intros He Ho. pose proof (od_wf_update String.eqb sspec o e He) as Hnd. split; [|exact Hnd]. split.
  - intros k w. split.
    + intros H. apply (od_In_get String.eqb sspec) in H; [|assumption].
      rewrite (od_get_update String.eqb sspec), (last_get_wf String.eqb sspec o k Ho) in H.
      destruct (od_get String.eqb o k) as [v|] eqn:G.
      * left. inversion H; subst. eapply od_get_In; [apply sspec|eassumption].
      * right. split; [eapply od_get_In; [apply sspec|eassumption]|].
        apply (od_get_None String.eqb sspec) in G. assumption.
    + intros H. apply (od_get_In String.eqb sspec).
      rewrite (od_get_update String.eqb sspec), (last_get_wf String.eqb sspec o k Ho).
      destruct H as [H|[H1 H2]].
      * rewrite (od_In_get String.eqb sspec o k w Ho H). reflexivity.
      * rewrite (proj2 (od_get_None String.eqb sspec o k) H2).
        apply (od_In_get String.eqb sspec); assumption.
  - pose proof (od_keys_update String.eqb sspec o e Ho) as H. unfold od_keys in H. rewrite H. f_equal.
    apply filter_ext. intros k. destruct (in_dec string_dec k (map fst e)) as [i|n].
    + apply (od_mem_keys String.eqb sspec) in i. rewrite i. reflexivity.
    + destruct (od_mem String.eqb e k) eqn:E; [|reflexivity].
      apply (od_mem_keys String.eqb sspec) in E. contradiction.
Qed.
