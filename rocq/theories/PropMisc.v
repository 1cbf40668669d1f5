(** Property theorems C27 (state layout) and C46 (raw frames).
    Model: LayoutModel.  Specification: the definitions at the head of LayoutProofs. *)
From Coq Require Import ZArith List Bool Lia.
From Verif Require Import LayoutModel LayoutProofs.
Import ListNotations.

(** * C27 *)
Theorem C27_layout_refuted : exists s, ~ consistent s.
Proof.
  exists {| gyro_sf := true; acce_sf := false; level_arm := true; odo_sf := false |}.
  rewrite layout_iff. discriminate.
Qed.
Print Assumptions C27_layout_refuted.
(** exactly the selections without a switched-off block between switched-on ones work *)
Theorem C27_layout_exact_partial : forall s, consistent s <->
  (level_arm s = true -> acce_sf s = true \/ gyro_sf s = false) /\
  (odo_sf s = true -> (level_arm s = true /\ (acce_sf s = true \/ gyro_sf s = false)) \/
                      (level_arm s = false /\ acce_sf s = false /\ gyro_sf s = false)).
Proof.
  intro s. rewrite layout_iff. destruct s as [[] [] [] []]; cbv; intuition discriminate.
Qed.
Print Assumptions C27_layout_exact_partial.
(** all blocks always lie inside the state vector *)
Theorem C27_inside : forall s b i, In b (blocks s) -> holds b i -> BASE_STATE <= i < STATE_CNT s.
Proof. exact blocks_inside. Qed.
Print Assumptions C27_inside.
Example C27_default : consistent {| gyro_sf := false; acce_sf := false; level_arm := false; odo_sf := false |} /\
  consistent {| gyro_sf := true; acce_sf := true; level_arm := true; odo_sf := true |}.
Proof. split; rewrite layout_iff; reflexivity. Qed.

(** * C46 *)
Theorem C46_velocity_twos_complement : forall h l, (0 <= h < 256 -> 0 <= l < 256 ->
  let u := h * 256 + l in raw_velocity h l = if u <? 32768 then u else u - 65536)%Z.
Proof. exact raw_velocity_spec. Qed.
Print Assumptions C46_velocity_twos_complement.
Example C46_nonvacuous : raw_velocity 255 24 = (-232)%Z /\ raw_velocity 3 232 = 1000%Z.
Proof. split; reflexivity. Qed.
(** the checksum test accepts the all-zero frame and rejects every other frame, intact or not *)
Theorem C46_checksum_refuted : forall frame, length frame = 20%nat -> Forall (fun b => 0 <= b < 256)%Z frame ->
  (adi_checksum frame = true <-> frame = repeat 0%Z 20).
Proof. exact checksum_iff. Qed.
Print Assumptions C46_checksum_refuted.
