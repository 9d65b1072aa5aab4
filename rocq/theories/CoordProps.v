(** C61: sexagesimal conversion. *)
From Coq Require Import QArith Qround Lqa Qabs.
From Verif Require Import Base Str CoordSpec CoordModel.
Local Open Scope Q_scope.

(** Every non-negative angle is recovered from its notation, given as numbers or as text; hours count fifteen degrees. *)
Theorem C61_value : forall pyfloat x d m s a, sexagesimal x false d m s ->
  (a = ATup [inject_Z (Z.of_nat d); inject_Z (Z.of_nat m); s] \/
   exists td tm ts, a = AStr (td ++ ":" ++ tm ++ ":" ++ ts)%string /\
     has_char colon td = false /\ has_char colon tm = false /\ has_char colon ts = false /\
     pyfloat td = Ok (inject_Z (Z.of_nat d)) /\ pyfloat tm = Ok (inject_Z (Z.of_nat m)) /\ pyfloat ts = Ok s) ->
  exists v w, dms_to_deg pyfloat a = Ok v /\ v == x /\ hms_to_deg pyfloat a = Ok w /\ w == 15 * x.
Proof.
  intros pyfloat x d m s a (_ & _ & E) A.
  assert (F : fields pyfloat a = Ok (inject_Z (Z.of_nat d), inject_Z (Z.of_nat m), s)).
  { destruct A as [->|(td & tm & ts & -> & N1 & N2 & N3 & P1 & P2 & P3)]; [reflexivity|]. unfold fields.
    cbn [String.append]. rewrite split_on_app, split_on_app, !split_on_nochar by assumption. cbn [app mapM]. rewrite P1, P2, P3. reflexivity. }
  unfold dms_to_deg, hms_to_deg. rewrite F. cbn [bind]. do 2 eexists. split; [reflexivity|]. split; [rewrite E; field|]. split; [reflexivity|]. rewrite E. field.
Qed.
Print Assumptions C61_value.

(** Anything but three fields is a ValueError; a field that is not a number raises what float() raises. *)
Theorem C61_fields : forall pyfloat,
  (forall l, length l <> 3%nat -> dms_to_deg pyfloat (ATup l) = Err ValueError /\ hms_to_deg pyfloat (ATup l) = Err ValueError) /\
  (forall s e, mapM pyfloat (split_on colon s) = Err e -> dms_to_deg pyfloat (AStr s) = Err e /\ hms_to_deg pyfloat (AStr s) = Err e) /\
  (forall s l, mapM pyfloat (split_on colon s) = Ok l -> dms_to_deg pyfloat (AStr s) = dms_to_deg pyfloat (ATup l) /\ hms_to_deg pyfloat (AStr s) = hms_to_deg pyfloat (ATup l)).
Proof.
  intros pyfloat. unfold dms_to_deg, hms_to_deg, fields. split; [|split].
  - intros l N. destruct l as [|a [|b [|c [|e l]]]]; cbn in *; try (split; reflexivity). congruence.
  - intros s e E. rewrite E. split; reflexivity.
  - intros s l E. rewrite E. split; reflexivity.
Qed.
Print Assumptions C61_fields.

(** The conversion is linear in the three numbers, so the sign must be put on each of them. *)
Theorem C61_linear : forall pyfloat d m s k v, dms_to_deg pyfloat (ATup [d; m; s]) = Ok v ->
  exists v', dms_to_deg pyfloat (ATup [k * d; k * m; k * s]) = Ok v' /\ v' == k * v.
Proof. intros pyfloat d m s k v E. cbn in E. assert (v = d + m / 60 + s / 3600) by congruence. subst. eexists. split; [reflexivity|]. field. Qed.
Print Assumptions C61_linear.

(** A negative angle written the usual way, with the sign on the first field only, comes out wrong: too large by twice the
    minutes and seconds. *)
Theorem C61_negative_refuted : forall pyfloat x d m s, sexagesimal x true d m s -> 0 < inject_Z (Z.of_nat m) / 60 + s / 3600 ->
  exists v, dms_to_deg pyfloat (ATup [- inject_Z (Z.of_nat d); inject_Z (Z.of_nat m); s]) = Ok v /\
    v == x + 2 * (inject_Z (Z.of_nat m) / 60 + s / 3600) /\ ~ v == x.
Proof.
  intros pyfloat x d m s (_ & _ & E) P. eexists. split; [reflexivity|].
  assert (V : - inject_Z (Z.of_nat d) + inject_Z (Z.of_nat m) / 60 + s / 3600 == x + 2 * (inject_Z (Z.of_nat m) / 60 + s / 3600)).
  { rewrite E. field. }
  split; [exact V|]. rewrite V. intros Q. lra.
Qed.
Print Assumptions C61_negative_refuted.

(** In particular declinations between 0 and -1 degree lose their sign. *)
Theorem C61_minus_zero_refuted : forall pyfloat, pyfloat "-0"%string = Ok 0 -> pyfloat "30"%string = Ok 30 -> pyfloat "00"%string = Ok 0 ->
  exists v, dms_to_deg pyfloat (AStr "-0:30:00"%string) = Ok v /\ v == 1 # 2 /\ sexagesimal (- (1 # 2)) true 0 30 0.
Proof.
  intros pyfloat A B C. unfold dms_to_deg, fields. cbn [split_on colon Ascii.eqb Bool.eqb]. cbn. rewrite A, B, C. cbn [bind].
  eexists. split; [reflexivity|]. split; [reflexivity|]. unfold sexagesimal. split; [lia|]. split; [lra|]. reflexivity.
Qed.
Print Assumptions C61_minus_zero_refuted.

(** Every angle has a sexagesimal notation. *)
Theorem C61_every_angle : forall x, exists neg d m s, sexagesimal x neg d m s /\ (0 <= x -> neg = false).
Proof.
  assert (P : forall x, 0 <= x -> exists d m s, (m < 60)%nat /\ 0 <= s < 60 /\ x == inject_Z (Z.of_nat d) + inject_Z (Z.of_nat m) / 60 + s / 3600).
  { intros x Hx. set (d := Qfloor x). set (r := (x - inject_Z d) * 60). set (m := Qfloor r). exists (Z.to_nat d), (Z.to_nat m), ((r - inject_Z m) * 60).
    pose proof (Qfloor_le x) as D1. pose proof (Qlt_floor x) as D2. fold d in D1, D2. rewrite inject_Z_plus in D2. change (inject_Z 1) with 1 in D2.
    assert (D0 : (0 <= d)%Z). { unfold d. change 0%Z with (Qfloor 0). apply Qfloor_resp_le. exact Hx. }
    assert (R : 0 <= r < 60) by (unfold r; lra).
    pose proof (Qfloor_le r) as M1. pose proof (Qlt_floor r) as M2. fold m in M1, M2. rewrite inject_Z_plus in M2. change (inject_Z 1) with 1 in M2.
    assert (M0 : (0 <= m)%Z). { unfold m. change 0%Z with (Qfloor 0). apply Qfloor_resp_le. apply R. }
    rewrite !Z2Nat.id by assumption. split.
    - assert ((m < 60)%Z); [|lia]. rewrite Zlt_Qlt. change (inject_Z 60) with 60. lra.
    - split; [lra|]. unfold r at 1. unfold Qdiv. change (/ 60) with (1#60). change (/ 3600) with (1#3600). unfold r. ring. }
  intros x. destruct (Qlt_le_dec x 0) as [N|N].
  - destruct (P (- x)) as (d & m & s & A & B & C); [lra|]. exists true, d, m, s. split; [|lra]. split; [exact A|]. split; [exact B|]. lra.
  - destruct (P x N) as (d & m & s & A & B & C). exists false, d, m, s. split; [|auto]. split; [exact A|]. split; [exact B|]. lra.
Qed.
Print Assumptions C61_every_angle.

Example C61_example : exists v, dms_to_deg (fun s => if String.eqb s "12" then Ok 12 else if String.eqb s "30" then Ok 30 else if String.eqb s "36" then Ok 36 else Err ValueError) (AStr "12:30:36") = Ok v /\ v == 1251 # 100.
Proof. eexists. split; [reflexivity|]. reflexivity. Qed.
