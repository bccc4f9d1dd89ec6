(** What the sender's queue should contain. *)
From Verif Require Export Spec.IntervalSpec Model.SourceQueue.

Definition covers (s : source) (x : Z) : bool :=
  (s_offset s <=? x) && (x <? s_offset s + s_size s).

(** How many blocks of the list contain byte [x]. *)
Definition times_covered (l : list source) (x : Z) : nat :=
  length (filter (fun s => covers s x) l).

Definition total_size (l : list source) : Z := fold_right (fun s n => s_size s + n) 0 l.

(** Received pieces as a receiver keeps them: merged, inside the file. *)
Definition pieces_ok (size : Z) (l : list interval) : Prop :=
  separated l /\ Forall wf_interval l /\ Forall (fun c => iv_end c <= size) l.

(** The receiver's entry for a file, usable when it is not larger. *)
Definition resumes (prev : list file_chunks) (name : list Z) (size : Z) (f : file_chunks) : Prop :=
  In f prev /\ fc_fileName f = name /\ fc_fileSize f <= size.

(** The pieces announced for a file that is continued make sense. *)
Definition pieces_fit (prev : list file_chunks) (name : list Z) (size : Z) : Prop :=
  forall f, resumes prev name size f -> pieces_ok size (fc_chunks f).

Definition already (prev : list file_chunks) (name : list Z) (size x : Z) : Prop :=
  exists f, resumes prev name size f /\ covered (fc_chunks f) x.

Definition blockBytes (mb : Z) : Z := mb * 1048576.

(** [bs] is an exact partition of the missing bytes of the file. *)
Definition exact_blocks (prev : list file_chunks) (mb : Z) (name : list Z) (size : Z)
    (bs : list source) : Prop :=
  (forall x, 0 <= x < size -> ~ already prev name size x -> times_covered bs x = 1%nat) /\
  (forall x, x < 0 \/ size <= x \/ already prev name size x -> times_covered bs x = 0%nat) /\
  (forall s, In s bs -> s_name s = name /\ s_fileSize s = size /\ s_failed s = 0 /\
     0 <= s_offset s /\ s_offset s + s_size s <= size /\
     (0 < size -> 0 < s_size s) /\ (0 <= s_size s) /\
     (0 < mb -> s_size s <= blockBytes mb)) /\
  ((forall f, ~ resumes prev name size f) -> bs <> []) /\
  (mb <= 0 -> (forall f, ~ resumes prev name size f) -> length bs = 1%nat).

(** Identity fields of the blocks of a file: a fresh id from [lo, hi) or the id
    under which the receiver knows the file. *)
Definition identity_ok (prev : list file_chunks) (name : list Z) (size id : Z) (s : source) : Prop :=
  s_seqId s = id /\
  (forall f, resumes prev name size f ->
     id = fc_seqId f /\ s_prevSeqId s = 0 /\
     s_alloc s = (if fc_fileSize f <? size then EXISTS_TOO_SMALL else EXISTS_CORRECT_SIZE)) /\
  ((forall f, In f prev -> fc_fileName f <> name) ->
     s_alloc s = NOT_EXISTS /\ s_prevSeqId s = 0) /\
  (forall f, In f prev -> fc_fileName f = name -> size < fc_fileSize f ->
     s_alloc s = EXISTS_TOO_LARGE /\ s_prevSeqId s = fc_seqId f).

(** Priority order of the queue: deletions first, then fewest failures, then
    largest, then lowest offset, then name. [before a b]: [a] is served first. *)
Inductive name_before : list Z -> list Z -> Prop :=
| nb_nil y b : name_before [] (y :: b)
| nb_lt x y a b : x < y -> name_before (x :: a) (y :: b)
| nb_eq x a b : name_before a b -> name_before (x :: a) (x :: b).

Definition is_deletion (s : source) : Prop := s_alloc s = TO_BE_DELETED.

Definition before (a b : source) : Prop :=
  (is_deletion a /\ ~ is_deletion b) \/
  ((is_deletion a <-> is_deletion b) /\
   (s_failed a < s_failed b \/
    (s_failed a = s_failed b /\
     (s_size b < s_size a \/
      (s_size a = s_size b /\
       (s_offset a < s_offset b \/
        (s_offset a = s_offset b /\ name_before (s_name a) (s_name b)))))))).

(** Same in every respect that the order looks at. *)
Definition same_rank (a b : source) : Prop :=
  (is_deletion a <-> is_deletion b) /\ s_failed a = s_failed b /\ s_size a = s_size b /\
  s_offset a = s_offset b /\ s_name a = s_name b.

(** The blocks of one file. *)
Definition blocks_named (name : list Z) (l : list source) : list source :=
  filter (fun s => if list_eq_dec Z.eq_dec (s_name s) name then true else false) l.

(** The receiver does not announce one id for two files. *)
Definition prev_ids_distinct (prev : list file_chunks) : Prop :=
  forall f g, In f prev -> In g prev -> fc_seqId f = fc_seqId g -> fc_fileName f = fc_fileName g.
