(** Received pieces of a file: FileChunksInfo, Protocol.h:80-193 and
    Protocol.cpp:62-107. *)
From Verif Require Export Model.ProtocolCodec.

(** FileChunksInfo::getTotalChunkSize, Protocol.cpp:62-68. *)
Definition getTotalChunkSize (l : list interval) : Z :=
  fold_right (fun c s => (iv_end c - iv_start c) + s) 0 l.

(** std::sort with Interval::operator<, Protocol.h:98-100 (by start only).
    std::sort may leave intervals of equal start in any order; this insertion
    sort is one such order, and [C09_merge_any_sort] covers all of them. *)
Fixpoint insert_interval (c : interval) (l : list interval) : list interval :=
  match l with
  | [] => [c]
  | d :: r => if iv_start d <? iv_start c then d :: insert_interval c r else c :: l
  end.
Definition sort_intervals (l : list interval) : list interval :=
  fold_right insert_interval [] l.

(** The loop of FileChunksInfo::mergeChunks, Protocol.cpp:80-90. *)
Fixpoint merge_loop (cur : interval) (l : list interval) : list interval :=
  match l with
  | [] => [cur]
  | c :: r =>
      if iv_end cur <? iv_start c then cur :: merge_loop c r
      else merge_loop {| iv_start := iv_start cur; iv_end := Z.max (iv_end cur) (iv_end c) |} r
  end.
Definition merge_sorted (l : list interval) : list interval :=
  match l with
  | [] => []
  | c :: r => merge_loop c r
  end.

(** FileChunksInfo::mergeChunks, Protocol.cpp:74-92. *)
Definition mergeChunks (l : list interval) : list interval := merge_sorted (sort_intervals l).

(** Interval(start, end), Protocol.h:89-91: aborts the process when
    [end < start]. *)
Definition mkInterval (s e : Z) : outcome interval :=
  if e <? s then Crash else Ret {| iv_start := s; iv_end := e |}.

(** FileChunksInfo::getRemainingChunks, Protocol.cpp:94-107. *)
Fixpoint remaining_loop (curStart : Z) (l : list interval) (size : Z) : outcome (list interval) :=
  match l with
  | [] =>
      if curStart <? size
      then obind (mkInterval curStart size) (fun c => Ret [c])
      else Ret []
  | c :: r =>
      if curStart <? iv_start c
      then obind (mkInterval curStart (iv_start c)) (fun d =>
           obind (remaining_loop (iv_end c) r size) (fun t => Ret (d :: t)))
      else remaining_loop (iv_end c) r size
  end.
Definition getRemainingChunks (l : list interval) (size : Z) : outcome (list interval) :=
  remaining_loop 0 l size.
