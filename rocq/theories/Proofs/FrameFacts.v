From Coq Require Import Lia.
From Verif Require Export Proofs.VarintFacts.

Lemma decode_at_negative : forall A (D : decoder A) buf off max,
  off < 0 \/ max < 0 -> decode_at D buf off max = Crash.
Proof.
  intros A D buf off max H. unfold decode_at, makeByteRange.
  destruct (Z.ltb_spec off 0); [reflexivity|].
  destruct (Z.ltb_spec max 0); [reflexivity|]. lia.
Qed.
