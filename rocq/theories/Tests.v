(** The tests of the crate, run on the model.  The expected values are those of the
    Rust assertions; tests without assertions state what the model does and that
    it is not a panic. *)
From Coq Require Import NArith List Bool.
From Verif Require Import Base Types Platform Config Buf Parser Records Sample Record Attr Read ExData.
Import ListNotations.
Open Scope N_scope.

(** [Parser::new(bytes, config)] and one call. *)
Definition test {A : Type} (m : M slice A) (c : config) (bytes : list N) : out A :=
  fst (m (on_slice 4096 bytes c)).
Definition little : config := config_default Little.

(** src/util/cow.rs:48-62. *)
Example truncate_owned :
  out_map cow_list (cow_truncate (Owned [0; 1; 2; 3; 4; 5]) 4) = Ok [0; 1; 2; 3].
Proof. reflexivity. Qed.
Example truncate_borrowed :
  out_map cow_list (cow_truncate (Borrowed 4096 [0; 1; 2; 3; 4; 5]) 4) = Ok [0; 1; 2; 3].
Proof. reflexivity. Qed.

(** src/parsebuf.rs:322-332. *)
Definition chunkbuf (l : list (list N)) : parser (list chunk) :=
  new_parser (map (External 4096) l) little.
Example cursor_over_split :
  fst (cursor_new chunklist_buf 8
         (chunkbuf [[97; 98; 99; 100; 101; 102]; [48; 49; 50; 52; 53; 54; 55; 56; 57]])) =
  Ok (mkCursor [Borrowed 4096 [48; 49]; Borrowed 4096 [97; 98; 99; 100; 101; 102]] 0 8).
Proof. vm_compute. reflexivity. Qed.
Example cursor_zero_split :
  fst (cursor_new chunklist_buf 4 (chunkbuf [[]; [48; 49; 50; 51; 52]])) =
  Ok (mkCursor [Borrowed 4096 [48; 49; 50; 51]] 0 4).
Proof. vm_compute. reflexivity. Qed.

(** src/records/lost.rs:35-48. *)
Example test_lost :
  test (parse_lost pl64 slice_buf) little
    [0x10; 0x00; 0x99; 0x00; 0x00; 0x00; 0x00; 0x00;
     0x00; 0xAF; 0x00; 0x00; 0x00; 0x7B; 0x00; 0x00] =
  Ok (mkLost 0x990010 0x7B000000AF00).
Proof. vm_compute. reflexivity. Qed.

(** src/records/exit.rs:40-58. *)
Example test_exit :
  test (parse_exit pl64 slice_buf) little
    [0x10; 0x10; 0x00; 0x00; 0x00; 0x05; 0x00; 0x00;
     0x01; 0x00; 0x00; 0x00; 0x02; 0x00; 0x00; 0x00;
     0x03; 0x00; 0x00; 0x00; 0x04; 0x00; 0x00; 0x00] =
  Ok (mkExit 0x1010 0x0500 0x01 0x02 0x0400000003).
Proof. vm_compute. reflexivity. Qed.

(** src/records/comm.rs:86-100. *)
Example test_comm :
  exists r, test (parse_comm pl64 slice_buf) little
    [0x10; 0x10; 0x00; 0x00; 0x00; 0x05; 0x00; 0x00; 116; 101; 115; 116; 0x00; 0x00; 0x00; 0x00] = Ok r /\
  cm_pid r = 0x1010 /\ cm_tid r = 0x0500 /\ cow_list (cm_comm r) = [116; 101; 115; 116].
Proof. eexists. split; [vm_compute; reflexivity|]. repeat split. Qed.

(** src/records/mmap.rs:118-134. *)
Example test_mmap :
  exists r, test (parse_mmap pl64 slice_buf) little
    [10; 100; 0; 0; 11; 100; 0; 0; 0; 160; 118; 129; 189; 127; 0; 0; 0; 16; 0; 0; 0; 0; 0;
     0; 0; 160; 118; 129; 189; 127; 0; 0; 47; 47; 97; 110; 111; 110; 0; 0] = Ok r /\
  mm_pid r = 25610 /\ mm_tid r = 25611 /\ mm_addr r = 0x7FBD8176A000 /\ mm_len r = 4096 /\
  mm_pgoff r = 0x7FBD8176A000 /\ cow_list (mm_filename r) = [47; 47; 97; 110; 111; 110].
Proof. eexists. split; [vm_compute; reflexivity|]. repeat split. Qed.

(** src/records/throttle.rs:42-58. *)
Example test_throttle :
  test (parse_throttle pl64 slice_buf) little
    [0x10; 0x20; 0x30; 0x40; 0x50; 0x60; 0x70; 0x80;
     0x90; 0xA0; 0xB0; 0xC0; 0xD0; 0xE0; 0xF0; 0x00;
     0xEF; 0xBE; 0xAD; 0xDE; 0xFE; 0xCA; 0xEF; 0xBE] =
  Ok (mkThrottle 0x8070605040302010 0x00F0E0D0C0B0A090 0xBEEFCAFEDEADBEEF).
Proof. vm_compute. reflexivity. Qed.

(** src/records/sample.rs:755-771. *)
Example simple_parse_sample :
  exists s, test (parse_sample pl64 slice_buf) (with_sample_type little (N.lor SF_ADDR SF_ID))
    [0x00; 0x01; 0x02; 0x03; 0x04; 0x05; 0x06; 0x07;
     0x08; 0x09; 0x0A; 0x0B; 0x0C; 0x0D; 0x0E; 0x0F] = Ok s /\
  s_addr s = Some 0x0706050403020100 /\ s_id s = Some 0x0F0E0D0C0B0A0908 /\
  s_cpu s = None /\ s_time s = None.
Proof. eexists. split; [vm_compute; reflexivity|]. repeat split. Qed.

(** src/records/sample.rs:773-809.  The data hold two entries with ids: with [ID] in the
    read_format the assertions of the test hold.  The test itself leaves [ID] out; then
    the entries are one word each, and the cgroup field is the third of the four words.
    So by this model the last assertion of the test, [cgroup() == Some(1)], fails. *)
Definition cgroup_data : list N :=
  [0xd4; 0x08; 0x00; 0x00; 0xd4; 0x08; 0x00; 0x00;
   0xc9; 0x77; 0x8e; 0xa1; 0x3a; 0xa4; 0x00; 0x00;
   0x00; 0x00; 0x00; 0x00; 0x00; 0x00; 0x00; 0x00;
   0x02; 0x00; 0x00; 0x00; 0x00; 0x00; 0x00; 0x00;
   0xd0; 0xbe; 0xc0; 0x28; 0x00; 0x00; 0x00; 0x00;
   0x24; 0x02; 0x00; 0x00; 0x00; 0x00; 0x00; 0x00;
   0xbd; 0x00; 0x00; 0x00; 0x00; 0x00; 0x00; 0x00;
   0xac; 0x79; 0xc0; 0x28; 0x00; 0x00; 0x00; 0x00;
   0xbe; 0x00; 0x00; 0x00; 0x00; 0x00; 0x00; 0x00;
   0x01; 0x00; 0x00; 0x00; 0x00; 0x00; 0x00; 0x00].
Definition cgroup_config (read_format : N) : config :=
  with_read_format
    (with_sample_type little
       (N.lor SF_TID (N.lor SF_CGROUP (N.lor SF_READ (N.lor SF_TIME SF_CPU)))))
    read_format.
Definition cgroup_test (read_format cgroup : N) : Prop :=
  exists s g, test (parse_sample pl64 slice_buf) (cgroup_config read_format) cgroup_data = Ok s /\
  s_pid s = Some 0x08d4 /\ s_tid s = Some 0x08d4 /\ s_time s = Some 0xA43AA18E77C9 /\
  s_cpu s = Some 0 /\ s_values s = Some g /\ group_len g = Ok 2 /\ s_cgroup s = Some cgroup.
Example parse_sample_with_cgroup_id :
  cgroup_test (N.lor RF_GROUP (N.lor RF_TIME_ENABLED RF_ID)) 1.
Proof.
  eexists. eexists. split; [vm_compute; reflexivity|]. do 4 (split; [reflexivity|]).
  split; [reflexivity|]. split; vm_compute; reflexivity.
Qed.
Example parse_sample_with_cgroup :
  cgroup_test (N.lor RF_GROUP RF_TIME_ENABLED) 0x28c079ac.
Proof.
  eexists. eexists. split; [vm_compute; reflexivity|]. do 4 (split; [reflexivity|]).
  split; [reflexivity|]. split; vm_compute; reflexivity.
Qed.

(** src/config.rs:265-268. *)
Example assert_sufficient_spare_sample_type_bits : 24 + 8 <= popcount CF_SAMPLE_TYPE.
Proof. vm_compute. discriminate. Qed.

(** src/parse.rs:686-693. *)
Example test_parse_rest :
  out_map cow_list (test (parse_rest slice_buf) (config_default Native) [1; 2; 3; 4; 5]) =
  Ok [1; 2; 3; 4; 5].
Proof. vm_compute. reflexivity. Qed.

(** tests/regression.rs.  Every test allocates less than 4 MiB. *)
Definition unit_visitor : visitor unit :=
  mkVisitor (fun _ => Ok tt) None None None None None None None None None None None None None None None None None None None None None None .
Definition fuzz_test (c : config) (data : list N) : out unit * bool :=
  let (r, p) := parse_record pl64 slice_buf unit_visitor (on_slice 4096 data c) in
  (r, forallb (fun n => n <? 4 * 1024 * 1024) (p_log p)).
(** [RawParseConfig::arbitrary]: three integers from the front of the data. *)
Definition fuzz_with_config (data : list N) : out unit * bool :=
  fuzz_test
    (mkConfig (from_le (take 8 data)) (from_le (take 8 (drop 8 data)))
       (from_le (take 8 (drop 16 data))) Little)
    (drop 24 data).

Definition zero_header_size_data : list N :=
  [0; 0; 0; 0; 0; 0; 0; 0].
Example zero_header_size :
  fuzz_test little zero_header_size_data = (Err (mkError KInvalidRecord (Some (SrcMsg MsgHeaderTooSmall))), true).
Proof. vm_compute. reflexivity. Qed.

Definition overlarge_header_size_data : list N :=
  [9; 0; 0; 0; 0; 251; 85; 182; 246].
Example overlarge_header_size :
  fuzz_test little overlarge_header_size_data = (Err (mkError KEof None), true).
Proof. vm_compute. reflexivity. Qed.

Definition enormous_slice_data : list N :=
  [16; 0; 0; 0; 0; 180; 8; 69; 86; 81; 0; 180; 180; 8].
Example enormous_slice :
  fuzz_test little enormous_slice_data = (Err (mkError KEof None), true).
Proof. vm_compute. reflexivity. Qed.

Definition buffer_smaller_than_sample_id_len_data : list N :=
  [224; 115; 115; 93; 115; 115; 115; 115; 115; 115; 115; 115; 115; 115; 115; 115; 255;
   255; 255; 255; 255; 255; 255; 255; 255; 255; 255; 255; 255; 255; 255; 255; 255; 255;
   255; 255; 115; 115; 115; 115; 19; 0; 0; 0; 0; 0; 0; 0; 115; 115; 115; 115; 135; 135;
   135; 135; 135; 135; 135; 135; 115; 115; 115; 115; 135; 131; 120; 135; 255; 0; 0;
   115; 115; 115; 115; 115; 115; 115; 115; 115; 115].
Example buffer_smaller_than_sample_id_len :
  fuzz_with_config buffer_smaller_than_sample_id_len_data = (Err (mkError KEof None), true).
Proof. vm_compute. reflexivity. Qed.

Definition oversize_alloc_data : list N :=
  [214; 115; 91; 93; 115; 141; 140; 140; 148; 115; 115; 115; 115; 115; 115; 115; 145;
   115; 115; 255; 255; 255; 255; 255; 255; 255; 255; 1; 0; 0; 0; 255; 255; 255; 9; 0;
   0; 0; 115; 115; 115; 115; 115; 115; 115; 107; 114; 115; 115; 115; 255; 135; 135; 1;
   0; 0; 0; 135; 135; 135; 0; 0; 0; 0; 0; 0; 0; 0; 0; 0; 0; 0; 0; 0; 0; 0; 0; 0; 224;
   115; 115; 93; 115; 0; 0; 115; 115; 115; 115; 115; 114; 115; 40; 115; 115; 115; 255;
   255; 255; 0; 0; 0; 0; 0; 0; 0; 0; 255; 255; 255; 255; 255; 255; 255; 255; 255; 255;
   255; 255; 1; 0; 0; 0; 255; 255; 255; 9; 0; 0; 0; 0; 0; 0; 0; 255; 255; 255; 255;
   255; 115; 255; 255; 255; 255; 255; 255; 255; 255; 255; 115; 255; 255; 38; 255; 255;
   255; 1].
Example oversize_alloc :
  fuzz_with_config oversize_alloc_data = (Err (mkError KEof None), true).
Proof. vm_compute. reflexivity. Qed.

Definition bad_group_data : list N :=
  [214; 115; 91; 93; 115; 115; 115; 115; 59; 115; 115; 115; 115; 115; 115; 115; 23; 0;
   0; 0; 0; 0; 0; 0; 0; 115; 115; 122; 115; 115; 115; 255; 135; 135; 9; 0; 0; 0; 135;
   0; 0; 189; 0; 115].
Example bad_group :
  fuzz_with_config bad_group_data = (Err (mkError KEof None), true).
Proof. vm_compute. reflexivity. Qed.

Definition oversize_read_group_data : list N :=
  [214; 115; 91; 93; 115; 255; 255; 255; 255; 115; 115; 115; 115; 115; 145; 135; 9; 0;
   0; 0; 135; 255; 115; 135; 0; 0; 0; 115; 16; 115; 123; 255; 135; 135; 9; 0; 0; 0; 0;
   0; 115; 16; 115].
Example oversize_read_group :
  fuzz_with_config oversize_read_group_data = (Err (mkError KEof None), true).
Proof. vm_compute. reflexivity. Qed.

(** tests/fuzz.rs: the bytes of a [perf_event_attr] in memory, then a record. *)
Definition fuzz_test_1_data : list N :=
  [224; 115; 115; 93; 115; 115; 115; 115; 115; 115; 115; 115; 115; 115; 115; 115; 115;
   115; 115; 115; 115; 115; 115; 59; 115; 115; 115; 115; 115; 115; 115; 115; 130; 115;
   255; 255; 255; 255; 255; 255; 255; 255; 255; 255; 255; 255; 255; 255; 255; 255; 255;
   255; 255; 255; 255; 255; 255; 255; 255; 255; 255; 255; 255; 255; 255; 255; 255; 255;
   255; 255; 255; 255; 255; 255; 255; 197; 197; 197; 197; 197; 197; 255; 255; 255; 255;
   38; 255; 255; 255; 255; 224; 115; 115; 93; 115; 115; 115; 115; 115; 115; 115; 115;
   115; 115; 115; 115; 115; 115; 115; 115; 255; 255; 255; 115; 115; 115; 115; 115; 115;
   115; 115; 115; 115; 115; 115; 115; 115; 115; 115; 115; 255; 255; 255; 255; 255; 255;
   255; 255; 115; 115; 115].
Definition attr_in_memory (m : list N) : attr :=
  let u32 o := from_le (take 4 (drop o m)) in
  let u64 o := from_le (take 8 (drop o m)) in
  mkAttr (u32 0) (u32 4) (u64 8) (u64 16) (u64 24) (u64 32) (u64 40) (u32 48) (u32 52)
    (u64 56) (u64 64) (u64 72) (u64 80) (u32 88) (u32 92) (u64 96) (u32 104)
    (from_le (take 2 (drop 108 m))) (u32 112) (u64 120) (u64 128).
Definition fuzz_attr (attr_len : N) (data : list N) : out unit * bool :=
  fuzz_test (config_of_attr LE Native (attr_in_memory (take attr_len data))) (drop attr_len data).
(** [size_of::<perf_event_attr>()] is 128 or 136, by version of the bindings. *)
Example fuzz_test_1 : fuzz_attr 136 fuzz_test_1_data = (Err (mkError KEof None), true).
Proof. vm_compute. reflexivity. Qed.
Example fuzz_test_1_128 : fuzz_attr 128 fuzz_test_1_data = (Err (mkError KEof None), true).
Proof. vm_compute. reflexivity. Qed.
