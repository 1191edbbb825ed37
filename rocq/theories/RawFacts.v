(** Facts about Raw.v. *)
From Coq Require Import NArith List Bool Lia.
From Verif Require Import Base BaseFacts Types Platform Config Buf Parser Raw.
Import ListNotations.
Open Scope N_scope.

(** Two methods which go through the same states with results related by [R]. *)
Definition agree {S A B : Type} (R : A -> B -> Prop) (m : M S A) (m' : M S B) : Prop :=
  forall p, snd (m p) = snd (m' p) /\
    match fst (m p), fst (m' p) with
    | Ok a, Ok b => R a b
    | Err e, Err e' => e = e'
    | Panic, Panic | Fuel, Fuel => True
    | _, _ => False
    end.

Section Agree.
Context {S : Type}.

Lemma agree_ok : forall A B (R : A -> B -> Prop) (m : M S A) m' p a, agree R m m' -> fst (m p) = Ok a ->
  exists b, fst (m' p) = Ok b /\ R a b.
Proof.
  intros A B R m m' p a H E. destruct (H p) as [_ G]. rewrite E in G.
  destruct (fst (m' p)) as [b|e| |]; try contradiction. now exists b.
Qed.

Lemma agree_refl : forall A (m : M S A), agree eq m m.
Proof. intros A m p. split; [reflexivity|]. now destruct (fst (m p)). Qed.

Lemma agree_ret : forall A B (R : A -> B -> Prop) a b, R a b -> agree (S := S) R (ret a) (ret b).
Proof. intros A B R a b H p. now split. Qed.

Lemma agree_lift_fuel : forall A B (R : A -> B -> Prop), agree (S := S) R (lift Fuel) (lift Fuel).
Proof. intros A B R p. now split. Qed.

Lemma agree_fail : forall A B (R : A -> B -> Prop) e, agree (S := S) R (fail e) (fail e).
Proof. intros A B R e p. now split. Qed.

Lemma agree_bind : forall A B C D (R : A -> B -> Prop) (Q : C -> D -> Prop) m m' (k : A -> M S C) k',
  agree R m m' -> (forall a b, R a b -> agree Q (k a) (k' b)) -> agree Q (bind m k) (bind m' k').
Proof.
  intros A B C D R Q m m' k k' Hm Hk p. unfold bind. specialize (Hm p).
  destruct (m p) as [[a|e| |] p1], (m' p) as [[b|e'| |] p2]; cbn in Hm; destruct Hm as [-> Hm]; try contradiction.
  - exact (Hk a b Hm p2).
  - now split.
  - now split.
  - now split.
Qed.

Section Loop.
Context {St St' B B' : Type} (I : St -> St' -> Prop) (R : B -> B' -> Prop).
Definition step_rel (x : St + B) (y : St' + B') : Prop :=
  match x, y with inl x, inl y => I x y | inr b, inr b' => R b b' | _, _ => False end.

Lemma agree_loop_pos : forall (body : St -> M S (St + B)) body',
  (forall x y, I x y -> agree step_rel (body x) (body' y)) ->
  forall n x y, I x y -> agree step_rel (loop_pos body n x) (loop_pos body' n y).
Proof.
  intros body body' Hb. induction n as [n IH|n IH|]; intros x y Hxy; cbn [loop_pos].
  - eapply agree_bind; [exact (Hb x y Hxy)|]. intros [u|u] [v|v] H; cbn in H; try contradiction.
    + eapply agree_bind; [exact (IH u v H)|]. intros [u'|u'] [v'|v'] H'; cbn in H'; try contradiction.
      * now apply IH.
      * now apply agree_ret.
    + now apply agree_ret.
  - eapply agree_bind; [exact (IH x y Hxy)|]. intros [u|u] [v|v] H; cbn in H; try contradiction.
    + now apply IH.
    + now apply agree_ret.
  - now apply Hb.
Qed.

Lemma agree_loop : forall (body : St -> M S (St + B)) body',
  (forall x y, I x y -> agree step_rel (body x) (body' y)) ->
  forall x y, I x y -> agree R (loop body x) (loop body' y).
Proof.
  intros body body' Hb x y H. unfold loop.
  eapply agree_bind; [exact (agree_loop_pos body body' Hb loop_fuel x y H)|].
  intros [u|u] [v|v] H'; cbn in H'; try contradiction.
  - apply agree_lift_fuel.
  - now apply agree_ret.
Qed.
End Loop.
End Agree.

(** ** Memory. *)
Lemma written_map : forall d, written (map Some d) = Some d.
Proof. induction d as [|b d IH]; cbn; [reflexivity|now rewrite IH]. Qed.

Lemma written_inv : forall m d, written m = Some d -> m = map Some d.
Proof.
  induction m as [|[b|] m IH]; intros d H; cbn in H; try discriminate.
  - now injection H as <-.
  - destruct (written m) as [d'|]; [|discriminate]. injection H as <-. cbn. now rewrite (IH d' eq_refl).
Qed.

Lemma len_map : forall A B (f : A -> B) l, len (map f l) = len l.
Proof. intros A B f l. unfold len. now rewrite map_length. Qed.

Lemma take_map : forall A B (f : A -> B) l n, take n (map f l) = map f (take n l).
Proof. induction l as [|x l IH]; intros n; cbn; [reflexivity|]. destruct (n =? 0); [reflexivity|]. cbn. now rewrite IH. Qed.

Lemma len_repeat : forall A (x : A) n, len (repeat x n) = N.of_nat n.
Proof. intros A x n. unfold len. now rewrite repeat_length. Qed.

Section Facts.
Context (pl : platform) {S : Type} (PB : parsebuf S).

(** Where [parse_to_slice] is: [n] bytes to go, and those before have been written. *)
Definition filling (x : N * N * cells) (y : N * list N) : Prop :=
  let '(n, dst, m) := x in let '(n', d) := y in
  n = n' /\ dst = len d /\ len m = dst + n /\ take dst m = map Some d.

Theorem raw_to_slice_agree : forall m,
  agree (fun (r : option cells) d => r = Some (map Some d) /\ len d = len m) (raw_to_slice PB m) (parse_to_slice PB (len m)).
Proof.
  intros m. unfold raw_to_slice, parse_to_slice.
  assert (G : forall t, agree (fun (r : option cells) d => r = Some (map Some d) /\ len d = t)
    (loop (fun '(n, dst, m) => if n =? 0 then ret (inr (Some m)) else
       c <- m_chunk PB ;;
       let k := N.min (len (chunk_data c)) n in
       match copy (chunk_data c) m dst k, ptr_add m dst k with
       | Some m', Some dst' => m_advance PB k ;;; ret (inl (n - k, dst', m'))
       | _, _ => ret (inr None)
       end) (t, 0, m))
    (loop (fun '(n, dst) => if n =? 0 then ret (inr dst) else
       c <- m_chunk PB ;;
       let cl := N.min (len (chunk_data c)) n in
       let dst := dst ++ take cl (chunk_data c) in
       m_advance PB cl ;;; ret (inl (n - cl, dst))) (t, [])) \/ len m <> t).
  { intros t. destruct (N.eq_dec (len m) t) as [Et|Et]; [left|now right].
    apply (agree_loop (fun x y => filling x y /\ len (snd x) = t)).
    - intros [[n dst] m1] [n' d] [(<- & -> & Hl & Hm) Ht]. cbn in Ht.
      destruct (n =? 0) eqn:E.
      + apply N.eqb_eq in E. apply agree_ret. cbn. rewrite <- Hm.
        rewrite (take_all (len d) m1) by lia. split; [reflexivity|lia].
      + apply N.eqb_neq in E. eapply agree_bind; [apply agree_refl|]. intros c c' <-. cbn zeta.
        set (k := N.min (len (chunk_data c)) n). assert (Hk : k <= n /\ k <= len (chunk_data c)) by (unfold k; lia).
        unfold copy, ptr_add. assert (F1 : (len (chunk_data c) <? k) = false) by (apply N.ltb_ge; lia).
        assert (F2 : (len m1 <? len d + k) = false) by (apply N.ltb_ge; lia). rewrite F1, F2. cbn [orb].
        eapply agree_bind; [apply agree_refl|]. intros _ _ _. apply agree_ret. cbn.
        assert (L : len (take k (chunk_data c)) = k) by (rewrite len_take; lia).
        repeat split.
        * rewrite len_app. lia.
        * rewrite !len_app, len_take, len_map, L, len_drop. lia.
        * rewrite Hm, app_assoc, <- map_app.
          rewrite take_app_le by (rewrite len_map, len_app; lia).
          apply take_all. rewrite len_map, len_app. lia.
        * rewrite !len_app, len_take, len_map, L, len_drop. lia.
    - cbn. repeat split; try lia. now rewrite take_0. }
  destruct (G (len m)) as [H|H]; [exact H|congruence].
Qed.

Lemma to_slice_len : forall n p d p', parse_to_slice PB n p = (Ok d, p') -> len d = n.
Proof.
  intros n p d p' H. pose proof (raw_to_slice_agree (repeat None (N.to_nat n)) p) as [_ G].
  rewrite len_repeat, N2Nat.id, H in G. cbn in G.
  match type of G with match ?x with _ => _ end => destruct x; try contradiction end. exact (proj2 G).
Qed.

(** [parse_bytes] when [g] bytes are given where [n] are asked for. *)
Definition bytes_granted (g n : N) : M S (cow N) :=
  r <- parse_bytes_direct PB n ;;
  match r with
  | Some (a, d) => ret (Borrowed a d)
  | None =>
      h <- m_hint PB ;;
      let fits := match h with Some hint => n <=? hint | None => false end in
      if fits then
        m_alloc pl n ;;;
        d <- parse_to_slice PB g ;;
        ret (Owned (take n d))
      else
        d <- parse_bytes_slow pl PB n ;;
        ret (Owned d)
  end.

Lemma raw_bytes_agree : forall grant n, n <= grant n ->
  agree (fun r c => r = Some c) (raw_parse_bytes pl PB grant n) (bytes_granted (grant n) n).
Proof.
  intros grant n Hn. unfold raw_parse_bytes, bytes_granted.
  eapply agree_bind; [apply agree_refl|]. intros r r' <-. destruct r as [[a d]|]; [now apply agree_ret|].
  eapply agree_bind; [apply agree_refl|]. intros h h' <-. cbn zeta.
  destruct (match h with Some hint => n <=? hint | None => false end).
  - eapply agree_bind with (R := fun v _ => v = mkVec (repeat None (N.to_nat (grant n))) 0).
    { intros p. unfold with_capacity, bind. destruct (m_alloc pl n p) as [[[]|e| |] p1]; now split. }
    intros v _ ->. cbn [v_mem v_len].
    rewrite drop_0, take_0. cbn [app].
    pose proof (raw_to_slice_agree (repeat None (N.to_nat (grant n)))) as G. rewrite len_repeat, N2Nat.id in G.
    eapply agree_bind; [exact G|]. intros r d [-> Hd]. apply agree_ret.
    unfold set_len, vec_bytes. cbn [v_mem v_len]. rewrite len_map, (proj2 (N.ltb_ge _ _)) by lia.
    rewrite take_map, written_map. cbn [v_mem v_len]. now rewrite take_map, written_map.
  - eapply agree_bind; [apply agree_refl|]. intros d d' <-. now apply agree_ret.
Qed.

Lemma granted_exact : forall n p, bytes_granted n n p = parse_bytes pl PB n p.
Proof.
  intros n p. unfold bytes_granted, parse_bytes, bind.
  destruct (parse_bytes_direct PB n p) as [[[[a d]|]|e| |] p1]; try reflexivity.
  destruct (m_hint PB p1) as [[h|e| |] p2]; try reflexivity.
  destruct (match h with Some hint => n <=? hint | None => false end); [|reflexivity].
  destruct (m_alloc pl n p2) as [[[]|e| |] p3]; try reflexivity.
  destruct (parse_to_slice PB n p3) as [[d|e| |] p4] eqn:E; try reflexivity.
  apply to_slice_len in E. rewrite take_all by lia. reflexivity.
Qed.

Lemma raw_array_agree : forall n, agree (fun r d => r = Some d) (raw_array PB n) (parse_array PB n).
Proof.
  intros n. unfold raw_array, parse_array. eapply agree_bind; [apply agree_refl|]. intros c c' <-.
  destruct (len (chunk_data c) <? n).
  - intros p. pose proof (raw_to_slice_agree (repeat (Some 0) (N.to_nat n)) p) as [G1 G2].
    rewrite len_repeat, N2Nat.id in G1, G2. unfold bind.
    destruct (raw_to_slice PB (repeat (Some 0) (N.to_nat n)) p) as [[r|e| |] p1],
      (parse_to_slice PB n p) as [[d|e'| |] p2]; cbn in G1, G2; try contradiction; subst; try (split; reflexivity).
    destruct G2 as [-> _]. split; [reflexivity|]. cbn. apply written_map.
  - eapply agree_bind; [apply agree_refl|]. intros _ _ _. now apply agree_ret.
Qed.

Lemma raw_slice_agree : forall A (E : elem A) n,
  agree (fun r s => r = Some s) (raw_slice_direct pl PB E n) (parse_slice_direct pl PB E n).
Proof.
  intros A E n. unfold raw_slice_direct, parse_slice_direct. eapply agree_bind; [apply agree_refl|]. intros c c' <-.
  destruct (negb (is_native pl (c_endian c))); [now apply agree_ret|].
  unfold checked_mul. destruct (n * el_size E <=? usize_max pl); [|apply agree_fail].
  intros p. unfold bind. destruct (parse_bytes_direct PB (n * el_size E) p) as [[[[a d]|]|e| |] p1] eqn:Ep; try (now split).
  assert (Hd : len d = n * el_size E).
  { unfold parse_bytes_direct, bind in Ep. destruct (m_chunk PB p) as [[[x|x x']|e| |] p2]; try discriminate.
    destruct (N.ltb_spec (len x') (n * el_size E)) as [L|L]; [discriminate|].
    destruct (m_advance PB (n * el_size E) p2) as [[[]|e| |] p3]; try discriminate.
    injection Ep as <- <- <-. rewrite len_take. lia. }
  cbn [fst snd ret]. set (al := word_align pl). assert (Hal : al <> 0) by (unfold al, word_align; destruct (pl_align pl); discriminate).
  unfold align_to. set (h := (al - a mod al) mod al).
  assert (Hh : h = 0 <-> a mod al = 0).
  { unfold h. assert (Hlt : a mod al < al) by now apply N.mod_lt. revert Hlt. generalize (a mod al). intros r Hlt.
    clear h. split; intros H0.
    - destruct (N.eq_dec r 0) as [Z|Z]; [exact Z|]. rewrite N.mod_small in H0 by lia. lia.
    - rewrite H0, N.sub_0_r. now apply N.mod_same. }
  destruct (N.ltb_spec (len d) h) as [L|L].
  - assert (Ha : (a mod al =? 0) = false) by (apply N.eqb_neq; intros Z; apply Hh in Z; lia).
    rewrite Ha. cbn [orb negb len length N.of_nat]. destruct (len d =? 0) eqn:Ed.
    + apply N.eqb_eq in Ed. destruct d; [|unfold len in Ed; cbn in Ed; lia]. unfold elements. cbn [fst snd]. rewrite Ha. cbn. now split.
    + cbn. now split.
  - destruct (N.eq_dec h 0) as [Z|Z].
    + rewrite Z. assert (Ha : (a mod al =? 0) = true) by (apply N.eqb_eq; now apply Hh).
      assert (Hm : (len d - 0) / el_size E * el_size E = len d).
      { rewrite N.sub_0_r, Hd. destruct (N.eq_dec (el_size E) 0) as [->|Hz]; [now rewrite !N.mul_0_r|].
        now rewrite N.div_mul. }
      rewrite Hm, take_0, drop_0, N.add_0_l, N.add_0_r, (drop_all (len d) d), (take_all (len d) d) by lia.
      cbn [len length N.of_nat N.eqb negb orb]. unfold elements. cbn [fst snd]. rewrite Ha. cbn. now split.
    + assert (Ha : (a mod al =? 0) = false) by (apply N.eqb_neq; intros H0; apply Hh in H0; lia).
      assert (Hd0 : (len d =? 0) = false) by (apply N.eqb_neq; lia).
      assert (Ht : (len (take h d) =? 0) = false) by (apply N.eqb_neq; rewrite len_take; lia).
      rewrite Ha, Hd0, Ht. cbn. now split.
Qed.
End Facts.
