(** C81: what is decoded is no larger than the bytes it was read from. *)
From Coq Require Import NArith List Bool Lia.
From Verif Require Import Base BaseFacts Types Platform Config Buf Parser Contract Refine.
From Verif Require Import Instances Records Sample Record RefFrame Wire Spec Size SizeFacts SizeTop.
From Verif Require Import ExData PropsFrame PropsSafe PropsSame PropsBorrow.
Import ListNotations.
Open Scope N_scope.

(** The new reservations. *)
Definition reserved_since {S : Type} (p p' : parser S) (n : N) : Prop := total (p_log p') = total (p_log p) + n.

(** The body of a record of any type, from anything which implements [ParseBuf], however it behaves. *)
Theorem C81_body : forall pl S (PB : parsebuf S) md p b md' p',
  dispatch pl PB keeper md p = (Ok (b, md'), p') ->
  p_off p + body_bytes b <= p_off p' /\
  forall n, reserved_since p p' n -> p_off p + n <= p_off p'.
Proof.
  intros pl S PB md p b md' p' E. rewrite dispatch_eq in E. apply bind_ok in E.
  destruct E as (b' & q & E1 & E). apply lift_ok in E. destruct E as [E ->].
  rewrite keeper_keeps in E. injection E as -> ->.
  destruct (body_fed pl PB _ _ _ _ E1) as [O L]. split; [exact O|]. unfold reserved_since. intros n Hn. lia.
Qed.

(** The parts which can be read alone. *)
Theorem C81_parts : forall pl S (PB : parsebuf S) p p',
  (forall s, parse_sample_id pl PB p = (Ok s, p') -> p_off p + id_bytes s <= p_off p') /\
  (forall v, parse_read_value pl PB p = (Ok v, p') -> p_off p + value_bytes v <= p_off p') /\
  (forall g, parse_read_group pl PB p = (Ok g, p') -> p_off p + group_bytes g <= p_off p') /\
  (forall r, parse_regs_user pl PB p = (Ok r, p') -> p_off p + regs_bytes r <= p_off p') /\
  (forall r, parse_regs_intr pl PB p = (Ok r, p') -> p_off p + regs_bytes r <= p_off p') /\
  (forall n c, parse_bytes pl PB n p = (Ok c, p') -> p_off p + items 1 c <= p_off p') /\
  (forall n c, parse_slice pl PB (elem_u64 pl) n p = (Ok c, p') -> p_off p + items 8 c <= p_off p').
Proof.
  intros pl S PB p p'. split; [|split; [|split; [|split; [|split; [|split]]]]].
  - intros s E. apply (sample_id_fed pl PB _ _ _ E).
  - intros s E. apply (value_fed pl PB _ _ _ E).
  - intros s E. apply (group_fed pl PB _ _ _ E).
  - intros s E. exact (proj1 (registers_fed pl PB _ _ _ _ E)).
  - intros s E. exact (proj1 (registers_fed pl PB _ _ _ _ E)).
  - intros n s E. apply (bytes_fed pl PB _ _ _ _ E).
  - intros n s E. apply (words_fed pl PB _ _ _ _ E).
Qed.

(** A record of a recording, with its header and its id. *)
Theorem C81_record : forall pl S (PB : parsebuf S) mo fin cap mem p l a b md p',
  source PB mo fin cap mem p l a -> gives pl PB p (inr (b, md)) p' ->
  p_off p + record_bytes b md <= p_off p' /\
  forall n, reserved_since p p' n -> p_off p + 8 + n <= p_off p'.
Proof.
  intros pl S PB mo fin cap mem p l a b md p' (rep & HC & Hr & Hw) G.
  specialize (G _ keeper). cbv beta iota in G. rewrite <- deliver_answer, keeper_keeps in G. apply kept_collect in G.
  destruct (collect_fits pl S PB mo fin cap mem rep p l a b md p' HC Hr Hw G) as [O L].
  split; [exact O|]. unfold reserved_since. intros n Hn. lia.
Qed.

(** The size of all records among [rs]. *)
Fixpoint told (rs : list result) : N :=
  match rs with
  | [] => 0
  | inl _ :: t => told t
  | inr (b, md) :: t => record_bytes b md + told t
  end.

(** A whole recording, whatever was read of it before. *)
Theorem C81_recording : forall pl S (PB : parsebuf S) mo fin cap mem rs p l a p',
  pl_ok pl -> source PB mo fin cap mem p l a -> run_gives pl PB p rs p' ->
  p_off p + told rs <= p_off p' /\ told rs <= len l.
Proof.
  intros pl S PB mo fin cap mem rs. 
  assert (H : forall p l a p', pl_ok pl -> source PB mo fin cap mem p l a -> run_gives pl PB p rs p' ->
    p_off p + told rs <= p_off p' /\ p_off p' <= p_off p + len l).
  { induction rs as [|r rs IH]; intros p l a p' Hpl Hs R; cbn [run_gives] in R.
    - subst p'. cbn [told]. lia.
    - destruct R as (p1 & G & R).
      destruct (C04_record pl S PB mo fin cap mem _ keeper p l a Hpl Hs) as [_ (k & Hk & Hs1 & _ & Ho)].
      pose proof (G _ keeper) as GV. rewrite GV in Hs1, Ho. cbn [snd] in Hs1, Ho.
      destruct (IH p1 _ _ p' Hpl Hs1 R) as [I1 I2]. rewrite len_drop in I2.
      destruct r as [e|[b md]]; cbn [told].
      + lia.
      + destruct (C81_record pl S PB mo fin cap mem p l a b md p1 Hs G) as [O _]. lia. }
  intros p l a p' Hpl Hs R. destruct (H p l a p' Hpl Hs R). lia.
Qed.

(** A sample with ip, time, two callers, one branch and two registers, from a file read in three pieces. *)
Definition sized_cfg : config := mkConfig (cf_new 0 0x1825 false false 0) 5 0 Little.
Definition sized : list N :=
  w_header LE 9 0 104 ++ concat (map (w64 LE) [0xff00; 17;  2; 0xff01; 0xff02;  1; 3; 4; 5;  2; 71; 72]).
Definition sized_pieces : list (list N) := [take 21 sized; take 30 (drop 21 sized); drop 51 sized].

Example C81_example :
  (forall cap mem, 16384 <= cap ->
     source bufreader_buf NoExt eof_error cap mem (reader_of sized_pieces sized_cfg) sized 0) /\
  (exists s p', gives pl64 bufreader_buf (reader_of sized_pieces sized_cfg) (inr (BSample s, mkMeta 9 0 sample_id_default)) p' /\
    s_ip s = Some 0xff00 /\ s_callchain s = Some (Owned [0xff01; 0xff02]) /\
    s_lbr s = Some (Owned [mkBranch 3 4 5]) /\ s_regs_user s = Some (mkRegs 2 5 (Owned [71; 72])) /\
    p_off p' = 104 /\ record_bytes (BSample s) (mkMeta 9 0 sample_id_default) = 88 /\ p_log p' = [16; 24; 16]) /\
  (exists p', gives pl64 slice_buf (on_slice 4096 ex_lost ex_cfg) (inr (BLost (mkLost 7 9), mkMeta 2 1 ex_id)) p' /\
    p_off p' = 40 /\ record_bytes (BLost (mkLost 7 9)) (mkMeta 2 1 ex_id) = 40).
Proof.
  split; [|split].
  - intros cap mem Hc. change sized with ([] ++ concat sized_pieces).
    apply (reader_source [] sized_pieces None); [exact Hc|vm_compute; repeat constructor|reflexivity|].
    repeat constructor; discriminate.
  - eexists. eexists. split; [apply collect_gives; vm_compute; reflexivity|].
    repeat (split; [reflexivity|]). vm_compute. reflexivity.
  - eexists. split; [apply collect_gives; vm_compute; reflexivity|]. split; reflexivity.
Qed.

(** Each kind of record: the size is counted in full. *)
Example C81_example_sizes :
  body_bytes (BMmap (mkMmap 1 2 3 4 5 (Owned [97; 98]))) = 34 /\
  body_bytes (BMmap2 (mkMmap2 1 2 3 4 5 (MdDefault 1 2 3 4) 6 7 (Owned [97; 98]))) = 66 /\
  body_bytes (BMmap2 (mkMmap2 1 2 3 4 5 (MdBuildId (zeros 20) 20) 6 7 (Owned [97]))) = 62 /\
  body_bytes (BTextPoke (mkTextPoke 1 (Borrowed 8 [1; 2]) (Borrowed 10 [3]))) = 11 /\
  body_bytes (BNamespaces (mkNamespaces 1 2 (Owned [mkNs 1 2; mkNs 3 4]))) = 40 /\
  body_bytes (BRead (mkRead 1 2 (mkReadValue 23 1 2 3 4 5))) = 48 /\
  body_bytes (BBpfEvent (mkBpf 1 2 3 (zeros 8))) = 16 /\
  body_bytes (BUnknown (Owned [1; 2; 3])) = 3 /\
  group_bytes (mkReadGroup 15 1 2 (Owned [1; 2; 3; 4])) = 48.
Proof. repeat split; reflexivity. Qed.

Print Assumptions C81_body.
Print Assumptions C81_parts.
Print Assumptions C81_record.
Print Assumptions C81_recording.
