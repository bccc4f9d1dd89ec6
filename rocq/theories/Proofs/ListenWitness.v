(** Server sockets for the examples. *)
From Verif Require Import Model.Bytes Model.Connect Model.Listen Spec.ListenSpec Proofs.ListenFacts.

Definition lo (static : bool) : lopts := {| lo_static := static; lo_abort := 200 |}.
Definition an_info (fam port fd : Z) (bind : bool) (sel : Z) : info :=
  {| in_fam := fam; in_name := Some port; in_fd := fd; in_bind := bind; in_listen := true; in_sel := sel; in_ask := true |}.
(** IPv4 cannot be bound at first, IPv6 gets a port, IPv4 can have the same one. *)
Definition looks : list (option (list info)) :=
  [Some [an_info 2 0 5 false 40000; an_info 10 0 5 true 40001];
   Some [an_info 2 40001 6 true 9; an_info 10 40001 7 true 9]].
Definition both_ready : lpoll :=
  {| lp_poll := {| po_abort := false; po_after := 30; po_res := 2; po_intr := false |}; lp_ready := [true; true] |}.
Definition first_only : lpoll :=
  {| lp_poll := {| po_abort := false; po_after := 30; po_res := 1; po_intr := false |}; lp_ready := [true; false] |}.
Definition life : list lop :=
  [LListen looks; LNext [] 1000 false [both_ready] 8; LNext [] 1000 false [both_ready] 8; LHang;
   LNext [] 1000 true [first_only] 9].
Definition listening : lst :=
  {| l_port := 40001; l_fds := [5; 6]; l_conn := -1; l_idx := 0; l_now := 0;
     l_tr := [LOpen 5; LClose 5; LOpen 5; LBound 5 40001; LOpen 6; LBound 6 40001] |}.
Lemma life_run : l_run (lo false) (l_new 22356) life = Ret (Some
  {| l_port := 40001; l_fds := [5; 6]; l_conn := 9; l_idx := 0; l_now := 90;
     l_tr := l_tr listening ++ [LAccept 6 8; LClose 8; LAccept 5 8; LClose 8; LAccept 5 9] |}).
Proof. vm_compute. reflexivity. Qed.
Lemma looks_ok : looks_sane looks.
Proof.
  intros l i [E|[E|[]]] H; injection E as <-; repeat (destruct H as [<-|H]; [repeat split; discriminate|]); destruct H.
Qed.
Lemma life_sane : Forall op_sane life.
Proof.
  repeat (apply Forall_cons; [try exact looks_ok; try exact I; try (intros ? ? [])|]). constructor.
Qed.
Lemma listening_run : listen (lo false) looks (l_new 22356) = Ret (Some (OK, listening)).
Proof. vm_compute. reflexivity. Qed.
Lemma looks_honest : honest (lo false) (l_new 22356) looks.
Proof.
  split.
  - intros i p [<-|[<-|[]]] E; injection E as <-; reflexivity.
  - intros _ i l' E. vm_compute in E. injection E as <- <-.
    intros i p [<-|[<-|[]]] E; injection E as <-; reflexivity.
Qed.
Definition calls : list call :=
  [{| k_timeout := 1000; k_polls := [both_ready]; k_acc := 8 |}; {| k_timeout := 1000; k_polls := [both_ready]; k_acc := 9 |}].
Lemma calls_run : option_map l_tr (accepted (lo false) listening calls)
  = Some (l_tr listening ++ [LAccept 6 8; LClose 8; LAccept 5 9]).
Proof. vm_compute. reflexivity. Qed.
