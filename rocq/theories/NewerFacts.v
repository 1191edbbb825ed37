(** Which byte strings are records with something appended (for C90). *)
From Coq Require Import NArith List Bool Lia.
From Verif Require Import Base BaseFacts Types Platform Config Buf Parser Instances Records Sample Record Attr.
From Verif Require Import Contract Flat Refine Wire Codec SliceRecord Accept AcceptFacts AcceptRecord PictureFacts ExData Newer.
Import ListNotations.
Open Scope N_scope.

Lemma app_same_len : forall A (a b c d : list A), a ++ b = c ++ d -> len a = len c -> a = c /\ b = d.
Proof.
  intros A a b c d E H. unfold len in H. apply Nnat.Nat2N.inj in H. revert c H E.
  induction a as [|x a IH]; intros [|y c] H E; try discriminate; [now split|].
  cbn in *. injection E as -> E. injection H as H. destruct (IH c H E) as [-> ->]. now split.
Qed.

Lemma app_same_len2 : forall A (a b c d : list A), a ++ b = c ++ d -> len b = len d -> a = c /\ b = d.
Proof.
  intros A a b c d E H. apply app_same_len; [exact E|]. apply (f_equal len) in E. rewrite !len_app in E. lia.
Qed.

Lemma w_header_inj : forall o t m s t' m' s' x y, t < 2 ^ 32 -> m < 2 ^ 16 -> s < 2 ^ 16 ->
  t' < 2 ^ 32 -> m' < 2 ^ 16 -> s' < 2 ^ 16 ->
  w_header o t m s ++ x = w_header o t' m' s' ++ y -> t = t' /\ m = m' /\ s = s' /\ x = y.
Proof.
  intros o t m s t' m' s' x y Ht Hm Hs Ht' Hm' Hs' E.
  assert (K : forall e, order_of pl64 e = o -> mkHeader t m s = mkHeader t' m' s').
  { intros e He. pose proof (head_of_header pl64 (mkConfig 0 0 0 e) t m s x Ht Hm Hs) as H1.
    pose proof (head_of_header pl64 (mkConfig 0 0 0 e) t' m' s' y Ht' Hm' Hs') as H2.
    cbn [c_endian] in *. rewrite He in *. rewrite E in H1. congruence. }
  assert (H : mkHeader t m s = mkHeader t' m' s') by (destruct o; [apply (K Little)|apply (K Big)]; reflexivity).
  injection H as -> -> ->. repeat split. apply app_inv_head in E. exact E.
Qed.

Lemma laid_more : forall fs bs rest extra, laid fs bs rest -> laid fs bs (rest ++ extra).
Proof.
  induction fs as [|[q d] fs IH]; intros bs rest extra H; [exact H|].
  destruct H as (b1 & b2 & -> & Hf & Hd & H). exists b1, b2. split; [reflexivity|]. split; [exact Hf|].
  split; [|now apply IH]. intros E. specialize (Hd E). rewrite app_assoc. intros N. now apply app_eq_nil in N as [N _].
Qed.

Lemma tail_fits : forall o w si bs t, fits (l_sample_id o w si) bs -> t <> 1 -> t <> 9 -> len bs = tail_len w t.
Proof.
  intros o w si bs t H H1 H9. rewrite <- (fits_len _ _ H). unfold tail_len, l_sample_id.
  replace (t =? 1) with false by (symmetry; now apply N.eqb_neq).
  replace (t =? 9) with false by (symmetry; now apply N.eqb_neq). cbn [orb].
  destruct (ws_id_all w); [|reflexivity]. cbn [negb l_if filter].
  unfold l_cpu, l_twice, l_if, w_if.
  assert (J : forall l, len (just l) = len l) by (intros l; unfold len, just; now rewrite map_length).
  assert (Y : forall n, len (any n) = n) by (intros n; unfold len, any; rewrite repeat_length; apply Nnat.N2Nat.id).
  destruct (sbit w 1), (sbit w 2), (sbit w 6), (sbit w 9), (sbit w 7), (sbit w 16);
    rewrite !len_app, ?J, ?len_app, ?J, ?Y, ?w32_len, ?w64_len; reflexivity.
Qed.

Lemma w_type_bound : forall w m b, body_given w m b -> w_type b < 2 ^ 32.
Proof. intros w m [] H; try reflexivity. cbn in *. now destruct H as (_ & H & _). Qed.

(** A name with something appended. *)
Lemma name_longer : forall s k extra, string_given s k ->
  exists s' k', w_str s' k' = w_str s k ++ extra /\ string_given s' k'.
Proof.
  intros s k extra [Hl Hn]. destruct (strip_zeros (w_str s k ++ extra)) as (k' & E & H).
  exists (strip (w_str s k ++ extra)), k'. split; [now symmetry|]. split; [exact H|].
  unfold w_str at 1. rewrite <- E. intros N. now apply app_eq_nil in N as [N _].
Qed.

Lemma str_nat : forall s k s' k' extra, w_str s' k' = w_str s k ++ extra ->
  s' ++ repeat 0 (N.to_nat k') = s ++ repeat 0 (N.to_nat k) ++ extra.
Proof. intros s k s' k' extra E. unfold w_str, zeros in E. now rewrite <- app_assoc in E. Qed.

Lemma record_longer : forall bits host o w m si b f f' extra,
  longer o w f f' extra -> is_record bits host o w m si b f ->
  exists b', w_type b' = w_type b /\ grown (expected b) extra (expected b') /\ is_record bits host o w m si b' f'.
Proof.
  intros bits host o w m si b f f' extra (t & m0 & core & tail & Ht & Hm0 & Ef & Ef' & Htl & Hsz)
    (body & unread & tail' & Eb & Hs & Hm & Hg & Hl & Hu & Hid).
  rewrite Eb in Ef. apply w_header_inj in Ef as (<- & <- & _ & Ep);
    [|exact (w_type_bound _ _ _ Hg)|exact Hm|exact Hs|exact Ht|exact Hm0|lia].
  assert (Hlt : len tail' = len tail).
  { rewrite Htl. destruct b; cbn [ends_in_id w_type] in *;
      try (destruct Hid as [_ Hid]; first [apply (tail_fits _ _ _ _ _ Hid); discriminate|now rewrite Hid]).
    destruct Hid as [_ Hid]. apply (tail_fits _ _ _ _ _ Hid); destruct Hg as (Hg & _); lia. }
  rewrite app_assoc in Ep. apply app_same_len2 in Ep as [Ec ->]; [|exact Hlt]. subst core.
  assert (Hsz2 : forall x y, x ++ y = (body ++ unread) ++ extra ->
    f' = w_header o (w_type b) m (8 + len (x ++ y ++ tail)) ++ x ++ y ++ tail /\ 8 + len (x ++ y ++ tail) < 2 ^ 16).
  { intros x y Exy. rewrite (app_assoc x y tail), Exy, <- (app_assoc (body ++ unread) extra tail).
    replace (8 + len ((body ++ unread) ++ extra ++ tail)) with (8 + len (body ++ unread) + len extra + len tail)
      by (rewrite !len_app; lia).
    split; [exact Ef'|exact Hsz]. }
  (* types whose last field does not take everything *)
  assert (K : ~ takes_all b -> is_record bits host o w m si b f').
  { intros Hn. destruct (Hsz2 body (unread ++ extra) (app_assoc _ _ _)) as [E1 E2].
    exists body, (unread ++ extra), tail. split; [exact E1|]. split; [exact E2|]. split; [exact Hm|].
    split; [exact Hg|]. split; [now apply laid_more|]. split; [contradiction|exact Hid]. }
  assert (J : takes_all b -> f' = w_header o (w_type b) m (8 + len ((body ++ extra) ++ [] ++ tail)) ++ (body ++ extra) ++ [] ++ tail /\
                8 + len ((body ++ extra) ++ [] ++ tail) < 2 ^ 16).
  { intros Ha. apply Hsz2. rewrite (Hu Ha), !app_nil_r. reflexivity. }
  clear Hsz2 Ef' Eb Hs Hsz Htl Ht Hm0 Hlt.
  destruct b; try (eexists; split; [reflexivity|]; split; [|apply K; intros []]; reflexivity);
    clear K; destruct (J Logic.I) as [E1 E2]; clear J; cbn [w_type expected grown name_of renamed ends_in_id l_body] in *.
  - (* MMAP *)
    destruct Hg as (G1 & G2 & G3 & G4 & G5 & G6). destruct (name_longer _ _ extra G6) as (s' & k' & E & G).
    exists (WMmap (mkMmap (mm_pid r) (mm_tid r) (mm_addr r) (mm_len r) (mm_pgoff r) s') k').
    split; [reflexivity|]. split.
    { exists (N.to_nat k), (N.to_nat k'), s'. split; [reflexivity|]. split; [apply G|now apply str_nat]. }
    exists (body ++ extra), [], tail. split; [exact E1|]. split; [exact E2|]. split; [exact Hm|].
    split; [repeat split; try assumption; apply G|]. split; [|split; [reflexivity|exact Hid]].
    apply laid_one_inv in Hl as [Hl _]. apply fits_just in Hl. apply laid_one, fits_just. subst body.
    cbn [w_body mm_pid mm_tid mm_addr mm_len mm_pgoff mm_filename]. rewrite E, <- !app_assoc. reflexivity.
  - (* COMM *)
    destruct Hg as (G1 & G2 & G6). destruct (name_longer _ _ extra G6) as (s' & k' & E & G).
    exists (WComm (mkComm (cm_pid r) (cm_tid r) s') k').
    split; [reflexivity|]. split.
    { exists (N.to_nat k), (N.to_nat k'), s'. split; [reflexivity|]. split; [apply G|now apply str_nat]. }
    exists (body ++ extra), [], tail. split; [exact E1|]. split; [exact E2|]. split; [exact Hm|].
    split; [repeat split; try assumption; apply G|]. split; [|split; [reflexivity|exact Hid]].
    apply laid_one_inv in Hl as [Hl _]. apply fits_just in Hl. apply laid_one, fits_just. subst body.
    cbn [w_body cm_pid cm_tid cm_comm]. rewrite E, <- !app_assoc. reflexivity.
  - (* MMAP2 *)
    destruct Hg as (G1 & G2 & G3 & G4 & G5 & Gd & G7 & G8 & G6). destruct (name_longer _ _ extra G6) as (s' & k' & E & G).
    exists (WMmap2 (mkMmap2 (m2_pid r) (m2_tid r) (m2_addr r) (m2_len r) (m2_pgoff r) (m2_detail r) (m2_prot r) (m2_flags r) s') k').
    split; [reflexivity|]. split.
    { exists (N.to_nat k), (N.to_nat k'), s'. split; [reflexivity|]. split; [apply G|now apply str_nat]. }
    exists (body ++ extra), [], tail. split; [exact E1|]. split; [exact E2|]. split; [exact Hm|].
    split; [repeat split; try assumption; apply G|]. split; [|split; [reflexivity|exact Hid]].
    destruct Hl as (b1 & b2 & -> & F1 & _ & b3 & b4 & -> & F2 & _ & Hl).
    apply laid_one_inv in Hl as [Hl _]. apply fits_just in Hl.
    exists b1, (b3 ++ b4 ++ extra). split; [now rewrite <- !app_assoc|]. split; [exact F1|]. split; [discriminate|].
    exists b3, (b4 ++ extra). split; [reflexivity|]. split; [exact F2|]. split; [discriminate|].
    apply laid_one, fits_just. subst b4.
    cbn [m2_prot m2_flags m2_filename]. rewrite E, <- !app_assoc. reflexivity.
  - (* KSYMBOL *)
    destruct Hg as (G1 & G2 & G3 & G4 & G6). destruct (name_longer _ _ extra G6) as (s' & k' & E & G).
    exists (WKsymbol (mkKsymbol (ks_addr r) (ks_len r) (ks_type r) (ks_flags r) s') k').
    split; [reflexivity|]. split.
    { exists (N.to_nat k), (N.to_nat k'), s'. split; [reflexivity|]. split; [apply G|now apply str_nat]. }
    exists (body ++ extra), [], tail. split; [exact E1|]. split; [exact E2|]. split; [exact Hm|].
    split; [repeat split; try assumption; apply G|]. split; [|split; [reflexivity|exact Hid]].
    apply laid_one_inv in Hl as [Hl _]. apply fits_just in Hl. apply laid_one, fits_just. subst body.
    cbn [w_body ks_addr ks_len ks_type ks_flags ks_name]. rewrite E, <- !app_assoc. reflexivity.
  - (* CGROUP *)
    destruct Hg as (G1 & G6). destruct (name_longer _ _ extra G6) as (s' & k' & E & G).
    exists (WCgroup (mkCgroup (cg_id r) s') k').
    split; [reflexivity|]. split.
    { exists (N.to_nat k), (N.to_nat k'), s'. split; [reflexivity|]. split; [apply G|now apply str_nat]. }
    exists (body ++ extra), [], tail. split; [exact E1|]. split; [exact E2|]. split; [exact Hm|].
    split; [repeat split; try assumption; apply G|]. split; [|split; [reflexivity|exact Hid]].
    apply laid_one_inv in Hl as [Hl _]. apply fits_just in Hl. apply laid_one, fits_just. subst body.
    cbn [w_body cg_id cg_path]. rewrite E, <- !app_assoc. reflexivity.
  - (* unknown types *)
    destruct Hg as (G1 & G2 & G3). exists (WOther t (d ++ extra)). split; [reflexivity|]. split; [reflexivity|].
    exists (body ++ extra), [], tail. split; [exact E1|]. split; [exact E2|]. split; [exact Hm|].
    split. { repeat split; try assumption. intros N. apply app_eq_nil in N as [N _]. contradiction. }
    split; [|split; [reflexivity|exact Hid]].
    apply laid_one_inv in Hl as [Hl _]. apply fits_just in Hl. apply laid_one, fits_just. now subst body.
Qed.
