(** The words the theorems are stated in: sources of bytes, and what it means to
    have taken bytes from one. *)
From Coq Require Import NArith List Bool Lia.
From Verif Require Import Base BaseFacts Types Platform Config Buf Parser Contract Refine Instances.
Import ListNotations.
Open Scope N_scope.

(** The parser [p] reads from a buffer which meets the contract of [ParseBuf]
    (Contract.v) and will deliver the bytes [l], the first of them at position
    [a], and then the error [fin]. *)
Definition source {S : Type} (PB : parsebuf S) (mo : mode) (fin : perror) (cap : N)
  (mem : memory) (p : parser S) (l : list N) (a : N) : Prop :=
  exists rep, contract PB mo fin cap mem rep /\ rep (p_buf p) l a /\ wf l.

(** [p'] is [p] after the first [n] bytes of [l] were taken from its source. *)
Definition moved {S : Type} (PB : parsebuf S) (mo : mode) (fin : perror) (cap : N)
  (mem : memory) (l : list N) (a : N) (p : parser S) (n : N) (p' : parser S) : Prop :=
  n <= len l /\ source PB mo fin cap mem p' (drop n l) (a + n) /\
  p_cfg p' = p_cfg p /\ p_off p' = p_off p + n.

(** Memory with [d] at [a]. *)
Definition memory_of (a : N) (d : list N) : memory := fun x => nth (N.to_nat (x - a)) d 0.

(** Buffers which never lend misaligned memory for an array at position [a]. *)
Definition lends_aligned (pl : platform) (mo : mode) (a : N) : Prop :=
  match mo with NoExt => True | Whole | Coh => a mod word_align pl = 0 | AnyExt => False end.

(** * Sources there are *)

Lemma memory_of_at : forall a d, mem_at (memory_of a d) a d.
Proof.
  intros a d i b H. unfold memory_of. replace (a + i - a) with i by lia.
  rewrite get_nth in H. now apply nth_error_nth.
Qed.

(** Contiguous memory. *)
Lemma slice_source : forall a d c cap mem, bytes d -> len d < 2 ^ 64 -> len d <= cap ->
  mem_at mem a d ->
  source slice_buf Whole eof_error cap mem (new_parser (mkSlice a d) c) d a.
Proof.
  intros a d c cap mem Hb Hl Hc Hm. exists (slice_rep cap mem).
  split; [apply slice_contract|]. split; [repeat split; assumption|split; assumption].
Qed.

(** A [BufReader] whose reads are not empty until the end. *)
Lemma reader_source : forall b rs e c cap mem, 16384 <= cap ->
  bytes (b ++ concat rs) -> len (b ++ concat rs) < 2 ^ 64 -> Forall (fun r => r <> []) rs ->
  source bufreader_buf NoExt (reader_fin e) cap mem (new_parser (mkReader b rs e) c)
    (b ++ concat rs) 0.
Proof.
  intros b rs e c cap mem Hc Hb Hl Hr. exists (reader_rep e).
  split; [now apply reader_contract|]. split; [repeat split; assumption|split; assumption].
Qed.

(** Any list of chunks. *)
Lemma chunks_source : forall cs c mo cap mem a, 16384 <= cap ->
  bytes (concat (map chunk_data cs)) -> len (concat (map chunk_data cs)) < 2 ^ 64 ->
  list_ok mo mem cs a ->
  source chunklist_buf mo eof_error cap mem (new_parser cs c) (concat (map chunk_data cs)) a.
Proof.
  intros cs c mo cap mem a Hcap Hb Hl Hc. exists (chunklist_rep mo mem).
  split; [now apply chunklist_contract|]. split; [split; auto|split; assumption].
Qed.

(** * From refinement steps *)

Lemma step_moved : forall S (PB : parsebuf S) mo fin cap cap' mem rep a p l p' l' n,
  contract PB mo fin cap mem rep -> wf l -> step cap' rep a p l 0 p' l' n ->
  moved PB mo fin cap mem l a p n p'.
Proof.
  intros S PB mo fin cap cap' mem rep a p l p' l' n HC Hw Hs.
  destruct (st_len _ _ _ _ _ _ _ _ _ Hs) as (k & Hk & El & En & Eo).
  pose proof (st_rep _ _ _ _ _ _ _ _ _ Hs) as Hr. subst l'. rewrite N.add_0_l in En. subst k.
  split; [exact Hk|]. split.
  - exists rep. split; [exact HC|]. split; [exact Hr|now apply wf_drop].
  - split; [apply (st_cfg _ _ _ _ _ _ _ _ _ Hs)|exact Eo].
Qed.

Lemma source_wf : forall S (PB : parsebuf S) mo fin cap mem p l a,
  source PB mo fin cap mem p l a -> wf l.
Proof. intros S PB mo fin cap mem p l a (rep & _ & _ & H); exact H. Qed.

(** [p'] is [p] after [n] bytes were taken from its source, with [rest] to come. *)
Definition after {S : Type} (PB : parsebuf S) (mo : mode) (fin : perror) (cap : N)
  (mem : memory) (p : parser S) (n : N) (rest : list N) (a : N) (p' : parser S) : Prop :=
  source PB mo fin cap mem p' rest (a + n) /\ p_cfg p' = p_cfg p /\ p_off p' = p_off p + n.

Lemma step_after : forall S (PB : parsebuf S) mo fin cap cap' mem rep a p l p' l' n,
  contract PB mo fin cap mem rep -> wf l -> step cap' rep a p l 0 p' l' n ->
  after PB mo fin cap mem p n l' a p'.
Proof.
  intros S PB mo fin cap cap' mem rep a p l p' l' n HC Hw Hs.
  pose proof (step_moved _ _ _ _ _ _ _ _ _ _ _ _ _ _ HC Hw Hs) as (Hn & H & Hc & Ho).
  destruct (st_len _ _ _ _ _ _ _ _ _ Hs) as (k & Hk & El & En & Eo).
  rewrite N.add_0_l in En. subst k l'. repeat split; assumption.
Qed.
