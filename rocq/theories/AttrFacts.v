(** What the flat parser of [perf_event_attr] does to an encoded one. *)
From Coq Require Import NArith List Bool Lia.
From Verif Require Import Base BaseFacts Types Platform Config Buf Parser Contract Flat Attr Wire WireAttr.
From Verif Require Import Codec SameFacts.
Import ListNotations.
Open Scope N_scope.

Section Go.
Context (pl : platform) (env : fenv).
Let o := order_of pl (c_endian (fe_cfg env)).

(** [f] takes [bs], then it is [g]. *)
Definition Go {B : Type} (f : F B) (bs : list N) (g : F B) : Prop :=
  forall rest pos, f env (bs ++ rest) pos = g env rest (pos + len bs).

Lemma go_refl : forall B (f : F B), Go f [] f.
Proof. intros B f rest pos. cbn [app]. now rewrite len_nil, N.add_0_r. Qed.

Definition takes {A : Type} (m : F A) (bs : list N) (v : A) : Prop :=
  forall rest pos, m env (bs ++ rest) pos = FOk v rest (pos + len bs) [].

Lemma go_bind : forall A B (m : F A) (k : A -> F B) bs1 bs2 v g,
  takes m bs1 v -> Go (k v) bs2 g -> Go (fbind m k) (bs1 ++ bs2) g.
Proof.
  intros A B m k bs1 bs2 v g H1 H2 rest pos. unfold fbind. rewrite <- app_assoc, H1, H2, len_app.
  rewrite N.add_assoc. now destruct (g env rest _).
Qed.

Lemma takes_uint : forall (n : nat) v, (0 < n)%nat -> v < 256 ^ N.of_nat n ->
  takes (f_uint pl (N.of_nat n)) (enc o n v) v.
Proof.
  intros n v Hn Hv rest pos. unfold f_uint, fbind.
  rewrite take_app_1; [| |rewrite enc_len; lia].
  2: { intros E. apply (f_equal (@length N)) in E. rewrite enc_length in E. cbn in E. lia. }
  unfold fcfg, fret. rewrite enc_len, drop_all, take_all by (rewrite enc_len; lia). cbn [app].
  fold o. now rewrite from_enc.
Qed.
Lemma takes_16 : forall v, v < 2 ^ 16 -> takes (f_uint pl 2) (w16 o v) v.
Proof. intros v H. apply (takes_uint 2); [lia|exact H]. Qed.
Lemma takes_32 : forall v, v < 2 ^ 32 -> takes (f_uint pl 4) (w32 o v) v.
Proof. intros v H. apply (takes_uint 4); [lia|exact H]. Qed.
Lemma takes_64 : forall v, v < 2 ^ 64 -> takes (f_uint pl 8) (w64 o v) v.
Proof. intros v H. apply (takes_uint 8); [lia|exact H]. Qed.

Lemma takes_or0 : forall b m bs v, (b = true -> takes m bs v) ->
  takes (f_or0 b m) (w_if b bs) (if b then v else 0).
Proof.
  intros [] m bs v H; cbn [f_or0 w_if]; [now apply H|].
  intros rest pos. cbn. now rewrite N.add_0_r.
Qed.

(** The fields after [size], each present or not. *)
Definition w_fields (s : N) (a : attr) (r2 r3 : N) : list N :=
  let v0 := 64 <=? s in let v3 := 96 <=? s in let v5 := 112 <=? s in let v6 := 120 <=? s in
  w_if v0 (w64 o (at_config a)) ++ w_if v0 (w64 o (at_sample_period a)) ++
  w_if v0 (w64 o (at_sample_type a)) ++ w_if v0 (w64 o (at_read_format a)) ++ w_if v0 (w64 o (at_bits a)) ++
  w_if v0 (w32 o (at_wakeup_events a)) ++ w_if v0 (w32 o (at_bp_type a)) ++ w_if v0 (w64 o (at_config1 a)) ++
  w_if (72 <=? s) (w64 o (at_config2 a)) ++ w_if (80 <=? s) (w64 o (at_branch_sample_type a)) ++
  w_if v3 (w64 o (at_sample_regs_user a)) ++ w_if v3 (w32 o (at_sample_stack_user a)) ++
  w_if v3 (w32 o (at_clockid a)) ++ w_if (104 <=? s) (w64 o (at_sample_regs_intr a)) ++
  w_if v5 (w32 o (at_aux_watermark a)) ++ w_if v5 (w16 o (at_sample_max_stack a)) ++ w_if v5 (w16 o r2) ++
  w_if v6 (w32 o (at_aux_sample_size a)) ++ w_if v6 (w32 o r3) ++
  w_if (128 <=? s) (w64 o (at_sig_data a)) ++ w_if (136 <=? s) (w64 o (at_config3 a)).

(** What is left when they have been read. *)
Definition f_tail (s : N) (a : attr) : F attr :=
  _ <~ (if 136 <? s then
          rest <~ f_rest ;;
          if forallb (fun b => b =? 0) rest then fret tt
          else ffail (custom_error KUnsupportedData MsgAttrTail)
        else fret tt) ;;
  fret a.

(** The values read. *)
Definition cut (a : attr) : attr :=
  let s := at_size a in
  let v0 := 64 <=? s in let v3 := 96 <=? s in let v5 := 112 <=? s in let v6 := 120 <=? s in
  let k b v := if b : bool then v else 0 in
  mkAttr (at_type a) s (k v0 (at_config a)) (k v0 (at_sample_period a)) (k v0 (at_sample_type a))
    (k v0 (at_read_format a)) (k v0 (at_bits a)) (k v0 (at_wakeup_events a)) (k v0 (at_bp_type a))
    (k v0 (at_config1 a)) (k (72 <=? s) (at_config2 a)) (k (80 <=? s) (at_branch_sample_type a))
    (k v3 (at_sample_regs_user a)) (k v3 (at_sample_stack_user a)) (k v3 (at_clockid a))
    (k (104 <=? s) (at_sample_regs_intr a)) (k v5 (at_aux_watermark a)) (k v5 (at_sample_max_stack a))
    (k v6 (at_aux_sample_size a)) (k (128 <=? s) (at_sig_data a)) (k (136 <=? s) (at_config3 a)).

Lemma go_fields : forall a r2 r3 ext, attr_ok a r2 r3 ext ->
  Go (f_attr_fields pl (at_type a) (at_size a)) (w_fields (at_size a) a r2 r3) (f_tail (at_size a) (cut a)).
Proof.
  intros a r2 r3 ext H. unfold attr_ok in H. repeat (destruct H as [? H]).
  unfold f_attr_fields, w_fields. cbv zeta.
  rewrite <- (app_nil_r (w_if (136 <=? at_size a) _)).
  repeat (eapply go_bind;
    [apply takes_or0; intros _; first [apply takes_64; assumption | apply takes_32; assumption | apply takes_16; assumption]|];
    cbv beta).
  apply go_refl.
Qed.
End Go.

(** The encoder cuts where the parser stops. *)
Lemma take_app_ge : forall n (l r : list N), len l <= n -> take n (l ++ r) = l ++ take (n - len l) r.
Proof. intros n l r H. rewrite take_app. now rewrite take_all. Qed.

Lemma cut_seen : forall a, In (at_size a) versions \/ 136 < at_size a -> cut a = attr_seen a.
Proof.
  intros a H. unfold cut, attr_seen. cbv zeta. unfold versions in H. cbn [In] in H.
  destruct H as [H|H].
  - repeat destruct H as [<-|H]; [reflexivity..|contradiction].
  - repeat match goal with |- context [?x <=? at_size a] =>
      replace (x <=? at_size a) with true by (symmetry; apply N.leb_le; cbn; lia) end. reflexivity.
Qed.

Lemma fields_eq : forall o a r2 r3 ext, attr_ok a r2 r3 ext ->
  forall pl c fin, order_of pl (c_endian c) = o ->
  w_attr o a r2 r3 ext =
  w32 o (at_type a) ++ w32 o (at_size a) ++ w_fields pl (mkEnv c fin) (at_size a) a r2 r3 ++ ext.
Proof.
  intros o a r2 r3 ext H pl c fin Eo. do 23 (destruct H as [_ H]). unfold w_attr, w_fields. cbn [fe_cfg]. rewrite Eo.
  cbv zeta. unfold w_attr_struct. set (s := at_size a) in *.
  rewrite !app_assoc. f_equal. rewrite <- !app_assoc.
  destruct H as [[H ->]|[H _]].
  - unfold versions in H. cbn [In] in H.
    repeat destruct H as [E|H]; [..|contradiction]; clearbody s; subst s; cbn [N.leb N.compare Pos.compare Pos.compare_cont w_if];
      repeat (rewrite take_app_ge by (rewrite ?w64_len, ?w32_len, ?w16_len; lia);
              rewrite ?w64_len, ?w32_len, ?w16_len; cbn [N.sub Pos.sub_mask Pos.pred_double Pos.double_mask Pos.succ_double_mask Pos.double_pred_mask Pos.sub_mask_carry Pos.pred_mask]).
    all: rewrite ?take_0, ?app_nil_r; try reflexivity.
    rewrite take_all by (rewrite w64_len; lia). reflexivity.
  - rewrite take_all; [|repeat rewrite len_app; rewrite ?w64_len, ?w32_len, ?w16_len; lia].
    repeat match goal with |- context [?x <=? s] =>
      replace (x <=? s) with true by (symmetry; apply N.leb_le; lia) end. reflexivity.
Qed.

Lemma struct_len : forall o a r2 r3, len (w_attr_struct o a r2 r3) = 136.
Proof. intros. unfold w_attr_struct. rewrite !len_app, !w64_len, !w32_len, !w16_len. reflexivity. Qed.

Lemma attr_size : forall o a r2 r3 ext, attr_ok a r2 r3 ext ->
  64 <= at_size a /\ len (w_attr o a r2 r3 ext) = at_size a /\ attr_size_ok (at_size a) = true.
Proof.
  intros o a r2 r3 ext H. do 23 (destruct H as [_ H]).
  unfold w_attr. rewrite len_app, len_take, struct_len. destruct H as [[H ->]|[H ->]].
  - unfold versions in H. cbn [In] in H. repeat destruct H as [<-|H]; [..|contradiction];
      (split; [|split]; [lia|reflexivity|reflexivity]).
  - split; [lia|]. split; [lia|]. unfold attr_size_ok, PERF_ATTR_SIZE_MAX, PERF_ATTR_SIZE_VER8.
    replace (136 <? at_size a) with true by (symmetry; now apply N.ltb_lt). apply orb_true_r.
Qed.

Lemma attr_flat : forall pl c fin a r2 r3 ext four rest, attr_ok a r2 r3 ext -> len four = 4 ->
  f_attr pl (mkEnv c fin) (w_attr (order_of pl (c_endian c)) a r2 r3 ext ++ four ++ rest) 0 =
  if (at_size a <=? 136) || forallb (fun b => b =? 0) (ext ++ four)
  then FOk (attr_seen a) rest (at_size a + 4) []
  else FErr (custom_error KUnsupportedData MsgAttrTail) rest (at_size a + 4) [].
Proof.
  intros pl c fin a r2 r3 ext four rest H Hf. set (o := order_of pl (c_endian c)).
  pose proof (attr_size o a r2 r3 ext H) as (Hs & Hl & Hok).
  pose proof (fields_eq o a r2 r3 ext H pl c eof_error eq_refl) as Ew.
  pose proof (go_fields pl (mkEnv c eof_error) a r2 r3 ext H) as G.
  set (fs := w_fields pl (mkEnv c eof_error) (at_size a) a r2 r3) in *.
  rewrite Ew in *. rewrite !len_app, !w32_len in Hl.
  assert (Ht : at_type a < 2 ^ 32) by apply H. assert (Hz : at_size a < 2 ^ 32) by apply H.
  unfold f_attr, fbind. rewrite <- !app_assoc.
  rewrite (takes_32 pl (mkEnv c fin) (at_type a) Ht).
  rewrite (takes_32 pl (mkEnv c fin) (at_size a) Hz).
  rewrite Hok. cbn [negb]. rewrite !w32_len. unfold fbind, f_split, fcfg.
  replace (at_size a - 4 =? 0) with false by (symmetry; apply N.eqb_neq; lia).
  unfold f_take.
  destruct (fs ++ ext ++ four ++ rest) as [|y t] eqn:E.
  { exfalso. apply (f_equal len) in E. rewrite !len_app in E. cbn in E. lia. }
  rewrite <- E. replace (fs ++ ext ++ four ++ rest) with ((fs ++ ext ++ four) ++ rest) by now rewrite <- !app_assoc.
  assert (L3 : len (fs ++ ext ++ four) = at_size a - 4) by (rewrite !len_app; lia).
  replace (len ((fs ++ ext ++ four) ++ rest) <? at_size a - 4) with false
    by (symmetry; apply N.ltb_ge; rewrite len_app; lia).
  rewrite take_app_exact, drop_app_exact by now rewrite L3.
  unfold f_sub. cbn [fst snd fe_cfg]. rewrite G. unfold f_tail.
  rewrite (cut_seen a) by (do 23 (destruct H as [_ H]); tauto).
  replace (0 + 4 + 4 + (at_size a - 4)) with (at_size a + 4) by lia.
  destruct (N.leb_spec (at_size a) 136) as [H1|H1].
  - replace (136 <? at_size a) with false by (symmetry; apply N.ltb_ge; lia). reflexivity.
  - replace (136 <? at_size a) with true by (symmetry; now apply N.ltb_lt). cbn [orb].
    unfold fbind, f_rest. destruct (ext ++ four) as [|z u] eqn:E2.
    { exfalso. apply (f_equal len) in E2. rewrite len_app in E2. cbn in E2. lia. }
    cbn [fe_fin]. change (is_eof eof_error) with true. cbv iota beta.
    destruct (forallb (fun b => b =? 0) (z :: u)); reflexivity.
Qed.

(** The four bytes are needed. *)
Lemma attr_flat_short : forall pl c fin a r2 r3 ext more, attr_ok a r2 r3 ext -> len more < 4 ->
  exists l n, f_attr pl (mkEnv c fin) (w_attr (order_of pl (c_endian c)) a r2 r3 ext ++ more) 0 = FErr fin l n [].
Proof.
  intros pl c fin a r2 r3 ext more H Hf. set (o := order_of pl (c_endian c)).
  pose proof (attr_size o a r2 r3 ext H) as (Hs & Hl & Hok).
  pose proof (fields_eq o a r2 r3 ext H pl c eof_error eq_refl) as Ew.
  set (fs := w_fields pl (mkEnv c eof_error) (at_size a) a r2 r3) in *.
  rewrite Ew in *. rewrite !len_app, !w32_len in Hl.
  assert (Ht : at_type a < 2 ^ 32) by apply H. assert (Hz : at_size a < 2 ^ 32) by apply H.
  unfold f_attr, fbind. rewrite <- !app_assoc.
  rewrite (takes_32 pl (mkEnv c fin) (at_type a) Ht).
  rewrite (takes_32 pl (mkEnv c fin) (at_size a) Hz).
  rewrite Hok. cbn [negb]. rewrite !w32_len. unfold fbind, f_split, fcfg.
  replace (at_size a - 4 =? 0) with false by (symmetry; apply N.eqb_neq; lia).
  unfold f_take. destruct (fs ++ ext ++ more) as [|y t] eqn:E; [eauto|]. rewrite <- E.
  replace (len (fs ++ ext ++ more) <? at_size a - 4) with true
    by (symmetry; apply N.ltb_lt; rewrite !len_app; lia). cbn [fe_fin]. eauto.
Qed.

Lemma attr_flat_size : forall pl c fin t s rest, t < 2 ^ 32 -> s < 2 ^ 32 -> ~ In s versions -> s <= 136 ->
  let o := order_of pl (c_endian c) in
  f_attr pl (mkEnv c fin) (w32 o t ++ w32 o s ++ rest) 0 =
  FErr (custom_error KInvalidRecord (MsgAttrSize s)) rest 8 [].
Proof.
  intros pl c fin t s rest Ht Hs Hn Hm o. unfold f_attr, fbind.
  rewrite (takes_32 pl (mkEnv c fin) t Ht).
  rewrite (takes_32 pl (mkEnv c fin) s Hs). rewrite !w32_len.
  replace (attr_size_ok s) with false; [reflexivity|]. symmetry.
  unfold attr_size_ok, PERF_ATTR_SIZE_MAX, PERF_ATTR_SIZE_VER8.
  replace (136 <? s) with false by (symmetry; now apply N.ltb_ge). rewrite orb_false_r.
  match goal with |- existsb _ ?l = _ => change l with versions end.
  destruct (existsb (N.eqb s) versions) eqn:E; [|reflexivity]. apply existsb_exists in E.
  destruct E as (x & Hx & Ex). apply N.eqb_eq in Ex. subst x. contradiction.
Qed.
