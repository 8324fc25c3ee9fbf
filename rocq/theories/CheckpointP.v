(** * Checkpoint files: names, loading, cleanup *)
From Coq Require Import ZArith NArith List Bool Arith Lia Ascii String Permutation.
From Verif Require Import F64 Base Builders Types Runner Observer Env Codec Checkpoint SpecCheckpoint CodecP.
Import ListNotations.

(** ** Decimal numbers *)
Definition dval (c : ascii) : N := (N_of_ascii c - 48)%N.
Definition value_from (a : N) (d : bytes) : N := fold_left (fun a c => a * 10 + dval c)%N d a.
Lemma value_is : forall d, digits_value d = value_from 0 d.
Proof. reflexivity. Qed.
Lemma value_app : forall a b x, value_from x (a ++ b) = value_from (value_from x a) b.
Proof. intros. apply fold_left_app. Qed.
Lemma value_ge : forall d a, (a <= value_from a d)%N.
Proof. induction d as [|c d IH]; intro a; simpl; [lia|]. etransitivity; [|apply IH]. lia. Qed.
Lemma digit_spec : forall n, (n < 10)%N -> is_digit (digit n) /\ dval (digit n) = n.
Proof.
  intros n H. unfold is_digit, dval, digit. rewrite N_ascii_embedding by lia. lia.
Qed.
Lemma digit_val_some : forall c, is_digit c -> digit_val c = Some (dval c).
Proof.
  intros c [H1 H2]. unfold digit_val. apply N.leb_le in H1. apply N.leb_le in H2. rewrite H1, H2. reflexivity.
Qed.
Lemma digit_val_inv : forall c x, digit_val c = Some x -> is_digit c /\ x = dval c.
Proof.
  intros c x. unfold digit_val, is_digit, dval. cbv zeta. generalize (N_of_ascii c). intros n H.
  destruct (N.leb_spec 48 n); [|discriminate H]. destruct (N.leb_spec n 57); [|discriminate H].
  cbn [andb] in H. split; [split; assumption|]. congruence.
Qed.
Lemma parse_step : forall a c d, parse_digits a (c :: d) =
  match digit_val c with
  | Some x => if (a * 10 + x <? u64_mod)%N then parse_digits (a * 10 + x) d else None
  | None => None
  end.
Proof. reflexivity. Qed.
Lemma value_step : forall a c d, value_from a (c :: d) = value_from (a * 10 + dval c) d.
Proof. reflexivity. Qed.
Lemma parse_value : forall d a, Forall is_digit d -> (value_from a d < u64_mod)%N ->
  parse_digits a d = Some (value_from a d).
Proof.
  induction d as [|c d IH]; intros a H L; [reflexivity|]. apply Forall_cons_iff in H as [Hc Hd].
  rewrite parse_step, (digit_val_some c Hc). rewrite value_step in *.
  pose proof (value_ge d (a * 10 + dval c)) as G.
  rewrite (proj2 (N.ltb_lt _ _) (N.le_lt_trans _ _ _ G L)). apply IH; assumption.
Qed.
Lemma parse_inv : forall d a v, parse_digits a d = Some v -> (a < u64_mod)%N ->
  Forall is_digit d /\ value_from a d = v /\ (v < u64_mod)%N.
Proof.
  induction d as [|c d IH]; intros a v H La.
  - injection H as <-. split; [constructor|]. split; [reflexivity|exact La].
  - rewrite parse_step in H. destruct (digit_val c) as [x|] eqn:Hx; [|discriminate].
    apply digit_val_inv in Hx as [Hc ->].
    destruct (N.ltb_spec (a * 10 + dval c) u64_mod) as [L|L]; [|discriminate].
    apply IH in H as (Hd & Hv & Hl); [|exact L]. rewrite value_step.
    split; [constructor; assumption|]. split; assumption.
Qed.
Lemma digits_spec : forall f n, (n < 10 ^ N.of_nat f)%N ->
  Forall is_digit (digits f n) /\ value_from 0 (digits f n) = n.
Proof.
  induction f as [|f IH]; intros n H.
  - simpl in H. assert (n = 0)%N by lia. subst. split; [constructor|reflexivity].
  - cbn [digits]. rewrite Nat2N.inj_succ, N.pow_succ_r' in H.
    destruct (N.ltb_spec n 10) as [L|L].
    + destruct (digit_spec n L). split; [auto|]. simpl. lia.
    + destruct (IH (n / 10)%N) as [I1 I2]; [apply N.div_lt_upper_bound; lia|].
      assert (Hm : (n mod 10 < 10)%N) by (apply N.mod_lt; lia).
      destruct (digit_spec _ Hm) as [D1 D2]. split.
      * apply Forall_app. auto.
      * rewrite value_app, I2. simpl. rewrite D2. pose proof (N.div_mod n 10). lia.
Qed.
Lemma size_bound : forall n, (n < 10 ^ N.of_nat (S (N.size_nat n)))%N.
Proof.
  intro n. assert (H : (n < 2 ^ N.of_nat (N.size_nat n))%N).
  { replace (N.of_nat (N.size_nat n)) with (N.size n); [apply N.size_gt|].
    destruct n as [|p]; [reflexivity|]. cbn [N.size N.size_nat].
    induction p as [p IHp|p IHp|]; [| |reflexivity]; cbn [Pos.size_nat Pos.size]; rewrite Nat2N.inj_succ, <- IHp; reflexivity. }
  assert ((2 ^ N.of_nat (N.size_nat n) <= 10 ^ N.of_nat (N.size_nat n))%N) by (apply N.pow_le_mono_l; lia).
  rewrite Nat2N.inj_succ, N.pow_succ_r'. lia.
Qed.
Lemma decimal_spec : forall n, Forall is_digit (decimal n) /\ value_from 0 (decimal n) = n /\ decimal n <> [].
Proof.
  intro n. destruct (digits_spec _ n (size_bound n)) as [H1 H2]. unfold decimal. split; [|split]; auto.
  cbn [digits]. destruct (n <? 10)%N; [discriminate|]. intro H. apply app_eq_nil in H as [_ H]. discriminate.
Qed.
Lemma pad_spec : forall n, Forall is_digit (pad6 (decimal n)) /\ value_from 0 (pad6 (decimal n)) = n /\
  pad6 (decimal n) <> [].
Proof.
  intro n. destruct (decimal_spec n) as (H1 & H2 & H3). unfold pad6. set (k := 6 - _). split; [|split].
  - apply Forall_app. split; [|exact H1]. apply Forall_forall. intros x Hx. apply repeat_spec in Hx. subst.
    unfold is_digit. change (N_of_ascii "0") with 48%N. lia.
  - rewrite value_app. replace (value_from 0 (repeat "0"%char k)) with 0%N; [exact H2|].
    induction k; simpl; auto.
  - intro H. apply app_eq_nil in H. tauto.
Qed.

(** ** Strings *)
Lemma starts_app : forall p s, starts_with p (p ++ s) = true.
Proof. induction p as [|a p IH]; intro s; simpl; [reflexivity|]. rewrite Ascii.eqb_refl. apply IH. Qed.
Lemma starts_inv : forall p s, starts_with p s = true -> exists r, s = p ++ r.
Proof.
  induction p as [|a p IH]; intros [|b s] H; simpl in H; try discriminate; [eexists; reflexivity ..|].
  apply andb_prop in H as [H1 H2]. apply Ascii.eqb_eq in H1. apply IH in H2 as [r ->]. subst. exists r. reflexivity.
Qed.
Lemma ends_app : forall p s, ends_with p (s ++ p) = true.
Proof. intros. unfold ends_with. rewrite rev_app_distr. apply starts_app. Qed.
Lemma ends_inv : forall p s, ends_with p s = true -> exists r, s = r ++ p.
Proof.
  intros p s H. apply starts_inv in H as [r H]. exists (rev r). rewrite <- (rev_involutive s), H, rev_app_distr.
  rewrite rev_involutive. reflexivity.
Qed.
Lemma utf8_app : forall n a b, List.length a <= n -> valid_utf8 a = true -> valid_utf8 b = true ->
  valid_utf8 (a ++ b) = true.
Proof.
  induction n as [|n IH]; intros a b L Ha Hb.
  - destruct a; [exact Hb|simpl in L; lia].
  - destruct a as [|x a]; [exact Hb|]. cbn [valid_utf8 app List.length] in *.
    destruct (in_range 0 127 x); [apply IH; auto; lia|].
    destruct a as [|y a]; [discriminate|]. cbn [app List.length] in *.
    destruct (in_range 194 223 x && cont y); [apply IH; auto; lia|].
    destruct a as [|z a]; [discriminate|]. cbn [app List.length] in *.
    match goal with |- (if ?q then _ else _) = true => destruct q end; [apply IH; auto; lia|].
    destruct a as [|w a]; [discriminate|]. cbn [app List.length] in *.
    match goal with |- (if ?q then _ else _) = true => destruct q end; [apply IH; auto; lia|discriminate].
Qed.
Lemma utf8_ascii : forall s, Forall (fun c => (N_of_ascii c <= 127)%N) s -> valid_utf8 s = true.
Proof.
  induction s as [|c s IH]; intro H; [reflexivity|]. apply Forall_cons_iff in H as [Hc Hs]. cbn [valid_utf8].
  unfold in_range. destruct (N.leb_spec 0 (N_of_ascii c)); [|lia].
  destruct (N.leb_spec (N_of_ascii c) 127); [|lia]. cbn [andb]. auto.
Qed.

(** ** Entries *)
Lemma entry_of : forall name s, valid_utf8 (pattern name ++ s ++ dot_bin) = true ->
  entry_iteration name (pattern name ++ s ++ dot_bin) = Ok (parse_usize s).
Proof.
  intros name s H. unfold entry_iteration. rewrite H, starts_app. rewrite app_assoc, ends_app. cbn [andb].
  rewrite <- app_assoc. unfold slice. rewrite !app_length. change (List.length dot_bin) with 4.
  destruct (Nat.leb_spec (List.length (pattern name)) (List.length (pattern name) + (List.length s + 4) - 4)); [|lia].
  match goal with |- context [?a <=? ?b] => destruct (Nat.leb_spec a b) end; [|lia]. cbn [andb].
  rewrite skipn_app, skipn_all, Nat.sub_diag. cbn [skipn app].
  replace (List.length (pattern name) + (List.length s + 4) - 4 - List.length (pattern name))
    with (List.length s) by lia.
  rewrite firstn_app, firstn_all, Nat.sub_diag. cbn [firstn]. rewrite app_nil_r. reflexivity.
Qed.
Lemma entry_cases : forall name f, entry_iteration name f = Ok None \/
  exists s, f = pattern name ++ s ++ dot_bin /\ entry_iteration name f = Ok (parse_usize s).
Proof.
  intros name f. unfold entry_iteration.
  destruct (valid_utf8 f) eqn:Hv; [|left; reflexivity].
  destruct (starts_with (pattern name) f) eqn:Hs; [|left; reflexivity].
  destruct (ends_with dot_bin f) eqn:He; [|left; reflexivity]. right.
  pose proof Hs as Hs'. pose proof He as He'. apply starts_inv in Hs' as [r Hr]. apply ends_inv in He' as [q Hq].
  assert (L : List.length (pattern name) <= List.length q).
  { destruct (Nat.le_gt_cases (List.length (pattern name)) (List.length q)) as [G|G]; [exact G|exfalso].
    (* the '_' that ends the pattern would lie inside ".bin" *)
    assert (N1 : nth_error f (List.length (pattern name) - 1) = Some "_"%char).
    { rewrite Hr. unfold pattern. rewrite app_length. cbn [List.length].
      replace (List.length (str_bytes name) + 1 - 1) with (List.length (str_bytes name)) by lia.
      rewrite <- app_assoc, nth_error_app2, Nat.sub_diag by lia. reflexivity. }
    rewrite Hq in N1. rewrite nth_error_app2 in N1 by lia.
    apply nth_error_In in N1. cbn in N1. repeat destruct N1 as [N1|N1]; try discriminate. contradiction. }
  assert (Hx : exists s, f = pattern name ++ s ++ dot_bin).
  { exists (skipn (List.length (pattern name)) q). rewrite Hq.
    rewrite app_assoc. f_equal. rewrite Hr in Hq.
    assert (Hf : firstn (List.length (pattern name)) (pattern name ++ r) =
                 firstn (List.length (pattern name)) (q ++ dot_bin)) by (rewrite Hq; reflexivity).
    rewrite firstn_app, firstn_all, Nat.sub_diag in Hf. cbn [firstn] in Hf. rewrite app_nil_r in Hf.
    rewrite firstn_app in Hf. replace (List.length (pattern name) - List.length q) with 0 in Hf by lia.
    cbn [firstn] in Hf. rewrite app_nil_r in Hf. rewrite Hf at 1. symmetry. apply firstn_skipn. }
  destruct Hx as [s Hx]. exists s. split; [exact Hx|]. cbn [andb].
  pose proof (entry_of name s) as G. unfold entry_iteration in G. rewrite <- Hx in G. rewrite Hv, Hs, He in G.
  exact (G eq_refl).
Qed.
Lemma parse_usize_iff : forall s i, parse_usize s = Some i <->
  exists d, (s = d \/ s = "+"%char :: d) /\ d <> [] /\ Forall is_digit d /\ digits_value d = i /\ (i < 2 ^ 64)%N.
Proof.
  intros s i. split.
  - intro H. unfold parse_usize in H.
    set (body := match s with c :: r => if Ascii.eqb c "+" then r else s | [] => s end) in *.
    exists body. split.
    + unfold body. destruct s as [|c r]; [left; reflexivity|].
      destruct (Ascii.eqb_spec c "+"); subst; auto.
    + destruct body as [|c r] eqn:Hb; [discriminate|]. apply parse_inv in H; [|reflexivity].
      destruct H as (H1 & H2 & H3). split; [discriminate|]. auto.
  - intros (d & Hs & Hn & Hd & Hv & Hl). subst i. unfold parse_usize.
    assert (Hb : match s with c :: r => if Ascii.eqb c "+" then r else s | [] => s end = d).
    { destruct Hs as [-> | ->]; [|reflexivity]. destruct d as [|c r]; [reflexivity|].
      destruct (Ascii.eqb_spec c "+"); [|reflexivity]. subst c.
      apply Forall_cons_iff in Hd as [Hc _]. unfold is_digit in Hc. change (N_of_ascii "+") with 43%N in Hc. lia. }
    rewrite Hb. destruct d as [|c r]; [congruence|]. rewrite value_is in *. apply parse_value; auto.
Qed.
Lemma number_ascii : forall s d, (s = d \/ s = "+"%char :: d) -> Forall is_digit d ->
  Forall (fun c => (N_of_ascii c <= 127)%N) s.
Proof.
  intros s d Hs Hd. assert (Forall (fun c => (N_of_ascii c <= 127)%N) d).
  { eapply Forall_impl; [|exact Hd]. unfold is_digit. intros. simpl in *. lia. }
  destruct Hs as [-> | ->]; [assumption|]. constructor; [|assumption]. change (N_of_ascii "+") with 43%N. lia.
Qed.
Lemma name_utf8 : forall name s, string_utf8 name -> Forall (fun c => (N_of_ascii c <= 127)%N) s ->
  valid_utf8 (pattern name ++ s ++ dot_bin) = true.
Proof.
  intros name s H Hs. unfold pattern. rewrite <- app_assoc. eapply utf8_app; [apply Nat.le_refl|exact H|].
  apply utf8_ascii. cbn [app]. constructor; [change (N_of_ascii "_") with 95%N; lia|].
  apply Forall_app. split; [exact Hs|].
  unfold dot_bin, str_bytes. cbn [list_ascii_of_string].
  repeat (constructor; [vm_compute; discriminate|]). constructor.
Qed.
Lemma pattern_is : forall name s, str_bytes name ++ ["_"%char] ++ s ++ str_bytes ".bin" = pattern name ++ s ++ dot_bin.
Proof. intros. unfold pattern, dot_bin. rewrite <- !app_assoc. reflexivity. Qed.
Theorem entry_iff : forall name f i, string_utf8 name ->
  entry_iteration name f = Ok (Some i) <-> stands_for name f i.
Proof.
  intros name f i U. split.
  - intro H. destruct (entry_cases name f) as [G|(s & Hf & G)]; [congruence|]. rewrite G in H.
    assert (P : parse_usize s = Some i) by congruence. apply parse_usize_iff in P as (d & P).
    exists s, d. rewrite pattern_is. auto.
  - intros (s & d & Hf & Hs & Hn & Hd & Hv & Hl). rewrite pattern_is in Hf. subst f.
    rewrite entry_of; [|apply name_utf8; [exact U|eapply number_ascii; eauto]].
    f_equal. apply parse_usize_iff. eauto 8.
Qed.
Theorem entry_total : forall name f, exists o, entry_iteration name f = Ok o.
Proof. intros name f. destruct (entry_cases name f) as [H|(s & _ & H)]; eauto. Qed.

(** ** Generated names *)
Lemma generated : forall c i, cc_keep_all c = true -> usize_ok i ->
  stands_for (cc_name c) (file_name c i) (N.of_nat i).
Proof.
  intros c i H U. unfold file_name. rewrite H. destruct (pad_spec (N.of_nat i)) as (P1 & P2 & P3).
  exists (pad6 (decimal (N.of_nat i))), (pad6 (decimal (N.of_nat i))). rewrite pattern_is. auto 8.
Qed.
Lemma stands_fun : forall name f i j, string_utf8 name -> stands_for name f i -> stands_for name f j -> i = j.
Proof. intros name f i j U Hi Hj. apply entry_iff in Hi; auto. apply entry_iff in Hj; auto. congruence. Qed.
Lemma file_name_inj : forall c i j, cc_keep_all c = true -> file_name c i = file_name c j -> i = j.
Proof.
  intros c i j H E. unfold file_name in E. rewrite H in E. apply app_inv_head in E. apply app_inv_tail in E.
  destruct (pad_spec (N.of_nat i)) as (_ & Pi & _). destruct (pad_spec (N.of_nat j)) as (_ & Pj & _).
  rewrite E in Pi. lia.
Qed.
Lemma last_underscore : forall (a b s t : bytes), ~ In "_"%char s -> ~ In "_"%char t ->
  a ++ "_"%char :: s = b ++ "_"%char :: t -> a = b /\ s = t.
Proof.
  induction a as [|x a IH]; intros [|y b] s t Hs Ht E; cbn [app] in E.
  - injection E as ->. auto.
  - injection E as <- ->. exfalso. apply Hs. apply in_or_app. right. left. reflexivity.
  - injection E as -> <-. exfalso. apply Ht. apply in_or_app. right. left. reflexivity.
  - injection E as -> E. apply IH in E as [-> ->]; auto.
Qed.
Lemma no_underscore : forall s d, (s = d \/ s = "+"%char :: d) -> Forall is_digit d -> ~ In "_"%char s.
Proof.
  intros s d Hs Hd. assert (~ In "_"%char d).
  { intro H. rewrite Forall_forall in Hd. apply Hd in H. unfold is_digit in H. change (N_of_ascii "_") with 95%N in H. lia. }
  destruct Hs as [-> | ->]; [assumption|]. intros [G|G]; [discriminate|contradiction].
Qed.
Lemma str_inj : forall a b, str_bytes a = str_bytes b -> a = b.
Proof.
  intros a b H. rewrite <- (string_of_list_ascii_of_string a), <- (string_of_list_ascii_of_string b).
  unfold str_bytes in H. rewrite H. reflexivity.
Qed.
(** a file that stands for two names stands for one *)
Lemma stands_name : forall n m f i j, stands_for n f i -> stands_for m f j -> n = m.
Proof.
  intros n m f i j (s & d & Hf & Hs & _ & Hd & _) (t & e & Hg & Ht & _ & He & _). rewrite Hf in Hg.
  cbn [app] in Hg. rewrite !app_comm_cons, !app_assoc in Hg. apply app_inv_tail in Hg.
  apply last_underscore in Hg as [Hg _]; [|eapply no_underscore; eauto ..]. apply str_inj. exact Hg.
Qed.

(** ** Files *)
Lemma bytes_eqb_eq : forall a b, bytes_eqb a b = true <-> a = b.
Proof. intros. unfold bytes_eqb. destruct (list_eq_dec ascii_dec a b); split; congruence. Qed.
Lemma bytes_eqb_refl : forall a, bytes_eqb a a = true.
Proof. intro. apply bytes_eqb_eq. reflexivity. Qed.
Lemma bytes_eqb_neq : forall a b, a <> b -> bytes_eqb a b = false.
Proof. intros a b H. destruct (bytes_eqb a b) eqn:E; [|reflexivity]. apply bytes_eqb_eq in E. contradiction. Qed.
Lemma lookup_remove : forall n m l, lookup m (remove_file n l) = if bytes_eqb n m then None else lookup m l.
Proof.
  intros n m l. induction l as [|[k v] l IH]; [cbn; destruct (bytes_eqb n m); reflexivity|].
  cbn [remove_file filter fst lookup]. fold (remove_file n l).
  destruct (bytes_eqb k n) eqn:Hk; cbn [negb].
  - apply bytes_eqb_eq in Hk. subst k. rewrite IH. destruct (bytes_eqb n m); reflexivity.
  - cbn [lookup]. destruct (bytes_eqb k m) eqn:Hm; [|exact IH]. apply bytes_eqb_eq in Hm. subst m.
    destruct (bytes_eqb n k) eqn:Hn; [|reflexivity]. apply bytes_eqb_eq in Hn. subst. rewrite bytes_eqb_refl in Hk. discriminate.
Qed.
Lemma lookup_app : forall m l r, lookup m (l ++ r) = match lookup m l with Some x => Some x | None => lookup m r end.
Proof. intros m l r. induction l as [|[k v] l IH]; [reflexivity|]. cbn. destruct (bytes_eqb k m); auto. Qed.
Lemma lookup_put : forall n m c l, lookup m (put_file n c l) = if bytes_eqb n m then Some c else lookup m l.
Proof.
  intros. unfold put_file. rewrite lookup_app, lookup_remove. cbn [lookup].
  destruct (bytes_eqb n m) eqn:E; [reflexivity|]. destruct (lookup m l); reflexivity.
Qed.
Lemma present_in : forall d f, present d f <-> In f (map fst (d_files d)).
Proof.
  intros d f. unfold present, content. induction (d_files d) as [|[k v] l IH]; cbn; [tauto|].
  destruct (bytes_eqb k f) eqn:E.
  - apply bytes_eqb_eq in E. subst. split; [auto|discriminate].
  - rewrite IH. split; [auto|]. intros [G|G]; [|exact G]. subst. rewrite bytes_eqb_refl in E. discriminate.
Qed.

(** ** Reading the directory *)
Lemma read_dir_ok : forall E d, io_works E -> lists_all E -> exists l,
  fs_read_dir E d = (Ok l, mk_disk (d_files d) (S (d_tick d))) /\ Permutation l (map fst (d_files d)).
Proof.
  intros E d W L. unfold fs_read_dir, next_io, bind. rewrite (W (d_tick d)). cbn. eexists. split; [reflexivity|].
  etransitivity; [apply Permutation_map, L|]. rewrite map_map.
  erewrite map_ext; [reflexivity|]. intros [k v]. cbn. unfold str_bytes. apply list_ascii_of_string_of_list_ascii.
Qed.
(** the loop finds an entry of greatest iteration, if there is one above [latest] *)
Lemma latest_spec : forall name l latest path, string_utf8 name -> exists p,
  latest_loop name l latest path = Ok p /\
  ((p = path /\ (forall f i, In f l -> stands_for name f i -> (i <= latest)%N)) \/
   (exists f i, p = Some f /\ In f l /\ stands_for name f i /\ (latest < i)%N /\
     forall g j, In g l -> stands_for name g j -> (j <= i)%N)).
Proof.
  intros name l. induction l as [|f l IH]; intros latest path U.
  - exists path. split; [reflexivity|]. left. split; [reflexivity|]. intros f i [].
  - cbn [latest_loop]. destruct (entry_total name f) as [o Ho]. rewrite Ho. destruct o as [i|].
    + pose proof Ho as Hs. apply entry_iff in Hs; [|exact U].
      assert (Hall : forall j, stands_for name f j -> j = i) by (intros j Hj; eapply stands_fun; eauto).
      destruct (N.ltb_spec latest i) as [Lt|Ge].
      * destruct (IH i (Some f) U) as (p & Hp & H). exists p. split; [exact Hp|]. right.
        destruct H as [[-> H]|(g & j & -> & Hg & Hj & Lj & H)].
        -- exists f, i. split; [reflexivity|]. split; [left; reflexivity|]. split; [exact Hs|]. split; [exact Lt|].
           intros g j [<-|Hg] Hj; [rewrite (Hall j Hj); lia|eauto].
        -- exists g, j. split; [reflexivity|]. split; [right; exact Hg|]. split; [exact Hj|]. split; [lia|].
           intros k m [<-|Hk] Hm; [rewrite (Hall m Hm); lia|eauto].
      * destruct (IH latest path U) as (p & Hp & H). exists p. split; [exact Hp|].
        destruct H as [[-> H]|(g & j & -> & Hg & Hj & Lj & H)]; [left|right].
        -- split; [reflexivity|]. intros g j [<-|Hg] Hj; [rewrite (Hall j Hj); lia|eauto].
        -- exists g, j. split; [reflexivity|]. split; [right; exact Hg|]. split; [exact Hj|]. split; [lia|].
           intros k m [<-|Hk] Hm; [rewrite (Hall m Hm); lia|eauto].
    + assert (Hno : forall j, ~ stands_for name f j) by (intros j Hj; apply entry_iff in Hj; [congruence|exact U]).
      destruct (IH latest path U) as (p & Hp & H). exists p. split; [exact Hp|].
      destruct H as [[-> H]|(g & j & -> & Hg & Hj & Lj & H)]; [left|right].
      * split; [reflexivity|]. intros g j [<-|Hg] Hj; [destruct (Hno j Hj)|eauto].
      * exists g, j. split; [reflexivity|]. split; [right; exact Hg|]. split; [exact Hj|]. split; [lia|].
        intros k m [<-|Hk] Hm; [destruct (Hno m Hm)|eauto].
Qed.
Definition next (d : disk) : disk := mk_disk (d_files d) (S (d_tick d)).
(** the latest file, described without the listing order *)
Definition latest_is (c : cp_config) (d : disk) (f : fname) : Prop :=
  exists i, present d f /\ stands_for (cc_name c) f i /\ (0 < i)%N /\
    forall g j, present d g -> stands_for (cc_name c) g j -> (j <= i)%N.
Lemma find_latest_spec : forall E c d, io_works E -> lists_all E -> string_utf8 (cc_name c) ->
  (exists f, find_latest E c d = (Ok f, next d) /\ latest_is c d f) \/
  (find_latest E c d = (Err CpNotFound, next d) /\
     forall f i, present d f -> stands_for (cc_name c) f i -> i = 0%N).
Proof.
  intros E c d W L U. unfold find_latest. destruct (read_dir_ok E d W L) as (l & Hl & P).
  unfold bind. rewrite Hl. unfold of_result.
  destruct (latest_spec (cc_name c) l 0 None U) as (p & -> & H).
  assert (Hin : forall f, In f l <-> present d f).
  { intro f. rewrite present_in. split; apply Permutation_in; [exact P|symmetry; exact P]. }
  destruct H as [[-> H]|(f & i & -> & Hf & Hi & Li & H)]; [right|left].
  - split; [reflexivity|]. intros f i Hf Hi. apply Hin in Hf. specialize (H f i Hf Hi). lia.
  - exists f. split; [reflexivity|]. exists i. rewrite <- Hin. split; [exact Hf|]. split; [exact Hi|].
    split; [exact Li|]. intros g j Hg Hj. apply Hin in Hg. eauto.
Qed.
Lemma latest_unique : forall c d f g, string_utf8 (cc_name c) -> distinct_iterations (cc_name c) d ->
  latest_is c d f -> latest_is c d g -> f = g.
Proof.
  intros c d f g U D (i & Pf & Sf & _ & Mf) (j & Pg & Sg & _ & Mg).
  assert (i = j) by (apply N.le_antisymm; eauto). subst. eauto.
Qed.
Lemma load_path : forall E f d, io_works E -> fst (load_from_path E f d) =
  match content d f with
  | None => Err CpNotFound
  | Some b => match decode_checkpoint b with Some cp => Ok cp | None => Err CpSerialization end
  end.
Proof.
  intros E f d W. unfold load_from_path, content, bind, get, next_io. destruct (lookup f (d_files d)) as [b|]; [|reflexivity].
  rewrite W. destruct (decode_checkpoint b); reflexivity.
Qed.
Definition decoded (b : option bytes) : outcome cp_error checkpoint :=
  match b with
  | None => Err CpNotFound
  | Some b => match decode_checkpoint b with Some cp => Ok cp | None => Err CpSerialization end
  end.
(** what loading returns, as a function of the directory *)
Theorem load_spec : forall E c d, io_works E -> lists_all E -> string_utf8 (cc_name c) ->
  if cc_keep_all c then
    (exists f, latest_is c d f /\ fst (load_latest E c d) = decoded (content d f)) \/
    ((forall f i, present d f -> stands_for (cc_name c) f i -> i = 0%N) /\
      fst (load_latest E c d) = Err CpNotFound)
  else fst (load_latest E c d) = decoded (content d (str_bytes (cc_name c) ++ str_bytes ".bin")).
Proof.
  intros E c d W L U. unfold load_latest. destruct (cc_keep_all c) eqn:K.
  - unfold bind. destruct (find_latest_spec E c d W L U) as [(f & -> & H)|(-> & H)]; [left|right].
    + exists f. split; [exact H|]. rewrite load_path by exact W. reflexivity.
    + split; [exact H|reflexivity].
  - unfold bind, ret. rewrite load_path by exact W. unfold file_name. rewrite K. reflexivity.
Qed.
(** loading depends on the files only, when no two of them stand for the same iteration *)
Lemma load_agree : forall E c d d', io_works E -> lists_all E -> string_utf8 (cc_name c) ->
  distinct_iterations (cc_name c) d ->
  (if cc_keep_all c then forall f i, stands_for (cc_name c) f i -> content d' f = content d f
   else content d' (str_bytes (cc_name c) ++ str_bytes ".bin") =
        content d (str_bytes (cc_name c) ++ str_bytes ".bin")) ->
  fst (load_latest E c d') = fst (load_latest E c d).
Proof.
  intros E c d d' W L U D H. pose proof (load_spec E c d W L U) as A. pose proof (load_spec E c d' W L U) as B.
  destruct (cc_keep_all c).
  - assert (Hp : forall f i, stands_for (cc_name c) f i -> (present d' f <-> present d f)).
    { intros f i Hf. unfold present. rewrite (H f i Hf). tauto. }
    destruct A as [(f & Hf & ->)|(Hn & ->)], B as [(g & Hg & ->)|(Hm & ->)].
    + assert (f = g).
      { eapply latest_unique; eauto. destruct Hg as (i & P & S & Z & M). exists i. split; [eapply Hp; eauto|].
        split; [exact S|]. split; [exact Z|]. intros k j Pk Sk. eapply M; [eapply Hp|]; eauto. }
      subst g. destruct Hf as (i & _ & S & _). rewrite (H f i S). reflexivity.
    + destruct Hf as (i & P & S & Z & _). rewrite (Hm f i) in Z; [lia|eapply Hp; eauto|exact S].
    + destruct Hg as (i & P & S & Z & _). rewrite (Hn g i) in Z; [lia|eapply Hp; eauto|exact S].
    + reflexivity.
  - rewrite A, B, H. reflexivity.
Qed.

(** ** Saving *)
Lemma save_ok : forall E c cp i d, e_io E (d_tick d) = IoOk -> save_checkpoint E c cp i d =
  (Ok (file_name c i), mk_disk (put_file (file_name c i) (enc_checkpoint cp) (d_files d)) (S (d_tick d))).
Proof.
  intros E c cp i d W. unfold save_checkpoint, fs_write, bind, next_io, set_files, modify, ret. rewrite W. reflexivity.
Qed.
Lemma content_save : forall E c cp i d f, e_io E (d_tick d) = IoOk ->
  content (snd (save_checkpoint E c cp i d)) f =
  if bytes_eqb (file_name c i) f then Some (enc_checkpoint cp) else content d f.
Proof. intros. rewrite save_ok by assumption. unfold content. cbn [snd d_files]. apply lookup_put. Qed.
Lemma content_write : forall d f b g, content (mk_disk (put_file f b (d_files d)) (d_tick d)) g =
  if bytes_eqb f g then Some b else content d g.
Proof. intros. unfold content. cbn. apply lookup_put. Qed.
Lemma content_delete : forall d f g, content (mk_disk (remove_file f (d_files d)) (d_tick d)) g =
  if bytes_eqb f g then None else content d g.
Proof. intros. unfold content. cbn. apply lookup_remove. Qed.
Definition single (c : cp_config) : fname := str_bytes (cc_name c) ++ str_bytes ".bin".

(** operations that do not touch [f] *)
Definition avoids (c : cp_config) (f : fname) (o : op) : Prop :=
  match o with Save _ i => file_name c i <> f | Write g _ | Delete g => g <> f end.
Lemma content_avoids : forall E c f h d, io_works E -> Forall (avoids c f) h ->
  content (apply_ops E c d h) f = content d f.
Proof.
  intros E c f h. induction h as [|o h IH]; intros d W H; [reflexivity|].
  apply Forall_cons_iff in H as [Ho Hh]. unfold apply_ops in *. cbn [fold_left]. rewrite IH by assumption.
  destruct o as [cp i|g b|g]; cbn [apply_op avoids] in *.
  - rewrite content_save by apply W. rewrite bytes_eqb_neq by exact Ho. reflexivity.
  - rewrite content_write, bytes_eqb_neq by exact Ho. reflexivity.
  - rewrite content_delete, bytes_eqb_neq by exact Ho. reflexivity.
Qed.
Lemma apply_ops_app : forall E c d h1 h2, apply_ops E c d (h1 ++ h2) = apply_ops E c (apply_ops E c d h1) h2.
Proof. intros. apply fold_left_app. Qed.

Theorem load_last_single : forall E c d h1 cp i h2, io_works E -> lists_all E -> string_utf8 (cc_name c) ->
  cc_keep_all c = false -> checkpoint_ok cp -> Forall (keeps_away c) h2 -> Forall no_save h2 ->
  fst (load_latest E c (apply_ops E c d (h1 ++ Save cp i :: h2))) = Ok cp.
Proof.
  intros E c d h1 cp i h2 W L U K Hc A N. pose proof (load_spec E c (apply_ops E c d (h1 ++ Save cp i :: h2)) W L U) as H.
  rewrite K in H. rewrite H. rewrite apply_ops_app. change (Save cp i :: h2) with ([Save cp i] ++ h2).
  rewrite apply_ops_app. rewrite content_avoids.
  - cbn [apply_ops fold_left apply_op]. rewrite content_save by apply W.
    unfold file_name. rewrite K. fold (single c). change (str_bytes (cc_name c) ++ dot_bin) with (single c).
    rewrite bytes_eqb_refl. cbn [decoded]. rewrite decode_encode by exact Hc. reflexivity.
  - exact W.
  - rewrite Forall_forall in *. intros o Ho. specialize (A o Ho). specialize (N o Ho).
    destruct o; cbn in *; tauto.
Qed.

(** every file standing for [name] after a history was there before or was saved in it *)
Lemma stands_after : forall E c h d f n, io_works E -> cc_keep_all c = true -> string_utf8 (cc_name c) ->
  Forall (keeps_away c) h -> stands_for (cc_name c) f n -> present (apply_ops E c d h) f ->
  present d f \/ exists cp i, In (Save cp i) h /\ f = file_name c i.
Proof.
  intros E c h. induction h as [|o h IH]; intros d f n W K U A S P; [left; exact P|].
  apply Forall_cons_iff in A as [Ao Ah]. unfold apply_ops in P. cbn [fold_left] in P.
  eapply IH in P; eauto. destruct P as [P|(cp & i & Hin & E')]; [|right; exists cp, i; split; [right; exact Hin|exact E']].
  unfold present in *. destruct o as [cp i|g b|g]; cbn [apply_op keeps_away] in *.
  - rewrite content_save in P by apply W. destruct (bytes_eqb (file_name c i) f) eqn:Q; [|left; exact P].
    apply bytes_eqb_eq in Q. right. exists cp, i. split; [left; reflexivity|]. congruence.
  - rewrite content_write in P. destruct (bytes_eqb g f) eqn:Q; [|left; exact P].
    apply bytes_eqb_eq in Q. subst g. destruct (proj2 Ao n S).
  - rewrite content_delete in P. destruct (bytes_eqb g f) eqn:Q; [congruence|left; exact P].
Qed.
Theorem load_greatest : forall E c d h1 cp i h2, io_works E -> lists_all E -> string_utf8 (cc_name c) ->
  cc_keep_all c = true -> checkpoint_ok cp -> 1 <= i -> usize_ok i ->
  Forall (keeps_away c) (h1 ++ h2) -> Forall (saves_up_to i) h1 -> Forall (saves_below i) h2 ->
  (forall f j, present d f -> stands_for (cc_name c) f j -> (j < N.of_nat i)%N) ->
  fst (load_latest E c (apply_ops E c d (h1 ++ Save cp i :: h2))) = Ok cp.
Proof.
  intros E c d h1 cp i h2 W L U K Hc Hi Ui A B1 B2 B0.
  assert (Hlast : content (apply_ops E c d (h1 ++ Save cp i :: h2)) (file_name c i) = Some (enc_checkpoint cp)).
  { rewrite apply_ops_app. change (Save cp i :: h2) with ([Save cp i] ++ h2). rewrite apply_ops_app, content_avoids.
    - cbn [apply_ops fold_left apply_op]. rewrite content_save by apply W. rewrite bytes_eqb_refl. reflexivity.
    - exact W.
    - apply Forall_app in A as [_ A]. rewrite Forall_forall in *. intros o Ho. specialize (A o Ho). specialize (B2 o Ho).
      pose proof (generated c i K Ui) as G.
      destruct o as [cp' j|g b|g]; cbn in *.
      + intro E'. apply file_name_inj in E'; [lia|exact K].
      + intros ->. exact (proj2 A _ G).
      + intros ->. exact (proj2 A _ G). }
  assert (Hmax : forall f j, present (apply_ops E c d (h1 ++ Save cp i :: h2)) f -> stands_for (cc_name c) f j ->
            (j <= N.of_nat i)%N /\ (j = N.of_nat i -> f = file_name c i)).
  { intros f j P S. eapply stands_after in P; eauto.
    - destruct P as [P|(cp' & k & Hin & ->)].
      + specialize (B0 f j P S). split; [lia|]. intros; lia.
      + assert (k <= i).
        { rewrite Forall_forall in B1, B2. apply in_app_or in Hin. destruct Hin as [Hin|[Hin|Hin]].
          - exact (B1 _ Hin).
          - injection Hin as _ ->. lia.
          - apply B2 in Hin. cbn in Hin. lia. }
        assert (Hk : usize_ok k) by (unfold usize_ok, u64_ok in *; lia).
        pose proof (stands_fun _ _ _ _ U S (generated c k K Hk)) as ->. split; [lia|].
        intro Q. apply Nat2N.inj in Q. subst. reflexivity.
    - apply Forall_app in A as [A1 A2]. apply Forall_app. split; [exact A1|]. constructor; [exact I|exact A2]. }
  pose proof (load_spec E c (apply_ops E c d (h1 ++ Save cp i :: h2)) W L U) as H. rewrite K in H.
  assert (Pi : present (apply_ops E c d (h1 ++ Save cp i :: h2)) (file_name c i)) by (unfold present; rewrite Hlast; discriminate).
  pose proof (generated c i K Ui) as G.
  destruct H as [(f & (j & Pf & Sf & Zf & Mf) & ->)|(Z & _)].
  - destruct (Hmax f j Pf Sf) as [M1 M2]. specialize (Mf _ _ Pi G).
    rewrite M2 by lia. rewrite Hlast. cbn [decoded]. rewrite decode_encode by exact Hc. reflexivity.
  - specialize (Z _ _ Pi G). lia.
Qed.
Lemma exists_spec : forall E c d, io_works E -> lists_all E -> string_utf8 (cc_name c) ->
  (fst (checkpoint_exists E c d) = Ok true <->
   if cc_keep_all c then exists f i, present d f /\ stands_for (cc_name c) f i /\ (0 < i)%N
   else present d (str_bytes (cc_name c) ++ str_bytes ".bin")) /\
  exists b, fst (checkpoint_exists E c d) = Ok b.
Proof.
  intros E c d W L U. unfold checkpoint_exists. destruct (cc_keep_all c) eqn:K.
  - destruct (find_latest_spec E c d W L U) as [(f & -> & i & P & S & Z & _)|(-> & H)]; cbn [fst].
    + split; [|eauto]. split; [|reflexivity]. intros _. exists f, i. auto.
    + split; [|eauto]. split; [discriminate|]. intros (f & i & P & S & Z). rewrite (H f i P S) in Z. lia.
  - unfold bind, get, ret. cbn [fst]. split; [|eauto]. unfold file_name. rewrite K. unfold present, content.
    change dot_bin with (str_bytes ".bin").
    destruct (lookup (str_bytes (cc_name c) ++ str_bytes ".bin") (d_files d)); split; congruence.
Qed.

(** ** Different names *)
Theorem other_name : forall E c1 c2 cp i d, io_works E -> lists_all E -> string_utf8 (cc_name c2) -> usize_ok i ->
  cc_name c1 <> cc_name c2 -> cc_keep_all c1 = cc_keep_all c2 -> distinct_iterations (cc_name c2) d ->
  fst (load_latest E c2 (snd (save_checkpoint E c1 cp i d))) = fst (load_latest E c2 d).
Proof.
  intros E c1 c2 cp i d W L U Ui Hn Hk D.
  apply load_agree; auto. destruct (cc_keep_all c2) eqn:K.
  - intros f j Hf. rewrite content_save by apply W.
    destruct (bytes_eqb (file_name c1 i) f) eqn:Q; [|reflexivity]. exfalso. apply bytes_eqb_eq in Q. subst f.
    exact (Hn (stands_name _ _ _ _ _ (generated c1 i Hk Ui) Hf)).
  - rewrite content_save by apply W. destruct (bytes_eqb _ _) eqn:Q; [|reflexivity]. exfalso.
    apply bytes_eqb_eq in Q. unfold file_name in Q. rewrite Hk in Q. apply app_inv_tail in Q.
    exact (Hn (str_inj _ _ Q)).
Qed.

(** ** Cleanup *)
Lemma collect_spec : forall name l, string_utf8 name -> exists r,
  collect_loop name l = Ok r /\
  (exists keep, map snd r = filter keep l /\ (forall f, In f l -> (keep f = true <-> exists i, stands_for name f i))) /\
  (forall i f, In (i, f) r -> stands_for name f i).
Proof.
  intros name l U.
  set (keep := fun f => match entry_iteration name f with Ok (Some _) => true | _ => false end).
  assert (Hk : forall f, keep f = true <-> exists i, stands_for name f i).
  { intro f. unfold keep. destruct (entry_total name f) as [[i|] Ho]; rewrite Ho.
    - split; [|reflexivity]. intros _. exists i. apply entry_iff; assumption.
    - split; [discriminate|]. intros [i Hi]. apply entry_iff in Hi; [congruence|assumption]. }
  assert (H : exists r, collect_loop name l = Ok r /\ map snd r = filter keep l /\
                        (forall i f, In (i, f) r -> stands_for name f i)).
  { induction l as [|f l IH]; [exists []; cbn; intuition|]. destruct IH as (r & Hr & Hm & Hs).
    cbn [collect_loop filter]. unfold keep at 1.
    destruct (entry_total name f) as [[i|] Ho]; rewrite Ho, Hr; eexists; split; try reflexivity.
    - split; [cbn [map snd]; rewrite Hm; reflexivity|]. intros j g [Q|Q]; [|auto].
      injection Q as <- <-. apply entry_iff; assumption.
    - split; [exact Hm|exact Hs]. }
  destruct H as (r & Hr & Hm & Hs). exists r. split; [exact Hr|]. split; [|exact Hs].
  exists keep. split; [exact Hm|]. intros f _. apply Hk.
Qed.
Lemma insert_perm : forall x l, Permutation (insert_desc x l) (x :: l).
Proof.
  induction l as [|y l IH]; cbn; [reflexivity|]. destruct (fst x <? fst y)%N; [|reflexivity].
  rewrite IH. apply perm_swap.
Qed.
Lemma sort_perm : forall l, Permutation (sort_desc l) l.
Proof. induction l as [|x l IH]; cbn; [reflexivity|]. rewrite insert_perm, IH. reflexivity. Qed.
Inductive desc : list (N * fname) -> Prop :=
| desc_nil : desc []
| desc_cons : forall x l, Forall (fun y => fst y <= fst x)%N l -> desc l -> desc (x :: l).
Lemma insert_sorted : forall x l, desc l -> desc (insert_desc x l).
Proof.
  intros x l H. induction H as [|y l F H IH]; cbn; [repeat constructor|].
  destruct (N.ltb_spec (fst x) (fst y)) as [Lt|Ge].
  - constructor; [|exact IH]. rewrite Forall_forall in *. intros z Hz.
    apply (Permutation_in z (insert_perm x l)) in Hz. destruct Hz as [<-|Hz]; [lia|auto].
  - constructor; [|constructor; assumption]. constructor; [exact Ge|].
    eapply Forall_impl; [|exact F]. cbn. intros; lia.
Qed.
Lemma sort_sorted : forall l, desc (sort_desc l).
Proof. induction l; cbn; [constructor|apply insert_sorted; assumption]. Qed.
Lemma desc_split : forall n l, desc l -> forall x y, In x (firstn n l) -> In y (skipn n l) -> (fst y <= fst x)%N.
Proof.
  induction n as [|n IH]; intros l H x y Hx Hy; [destruct Hx|]. destruct H as [|z l F H]; [destruct Hx|].
  cbn [firstn skipn] in *. destruct Hx as [<-|Hx]; [|eauto]. rewrite Forall_forall in F. apply F.
  rewrite <- (firstn_skipn n l). apply in_or_app. auto.
Qed.
Lemma remove_all : forall E l d, io_works E -> exists t,
  for_each l (fun e : N * fname => fs_remove E (snd e)) d = (Ok tt, t) /\
  forall f, content t f = if existsb (fun e => bytes_eqb (snd e) f) l then None else content d f.
Proof.
  intros E l. induction l as [|e l IH]; intros d W; [exists d; split; reflexivity|].
  cbn [for_each existsb]. unfold bind at 1. unfold fs_remove at 1, next_io, bind, set_files, modify. rewrite W.
  cbn [d_files d_tick]. destruct (IH (mk_disk (remove_file (snd e) (d_files d)) (S (d_tick d))) W) as (t & Ht & H).
  exists t. split; [exact Ht|]. intro f. rewrite H. unfold content. cbn [d_files]. rewrite lookup_remove. unfold fname in *.
  destruct (bytes_eqb (snd e) f); cbn [orb]; [|reflexivity].
  destruct (existsb _ l); reflexivity.
Qed.
Lemma map_firstn_snd : forall (l : list (N * fname)) n, map snd (firstn n l) = firstn n (map snd l).
Proof. intros. symmetry. apply firstn_map. Qed.
Theorem cleanup_spec : forall E c n d, io_works E -> lists_all E -> string_utf8 (cc_name c) ->
  NoDup (map fst (d_files d)) -> cc_keep_all c = true -> 1 <= n ->
  exists d' kept removed, cleanup E c n d = (Ok tt, d') /\
    NoDup (kept ++ removed) /\
    (forall f, In f (kept ++ removed) <-> present d f /\ exists i, stands_for (cc_name c) f i) /\
    List.length kept = min n (List.length (kept ++ removed)) /\
    (forall k r i j, In k kept -> In r removed -> stands_for (cc_name c) k i -> stands_for (cc_name c) r j -> (j <= i)%N) /\
    (forall f, In f removed -> content d' f = None) /\
    (forall f, ~ In f removed -> content d' f = content d f).
Proof.
  intros E c n d W L U ND K Hn. unfold cleanup. rewrite K. destruct (Nat.eqb_spec n 0); [lia|]. cbn [negb orb].
  destruct (read_dir_ok E d W L) as (l & Hl & P). unfold bind at 1. rewrite Hl.
  destruct (collect_spec (cc_name c) l U) as (r & Hr & (keep & Hm & Hk) & Hs).
  unfold bind, of_result. rewrite Hr.
  destruct (remove_all E (skipn n (sort_desc r)) (next d) W) as (d' & Hd & Hc). fold (next d). 
  exists d', (map snd (firstn n (sort_desc r))), (map snd (skipn n (sort_desc r))).
  split; [exact Hd|]. rewrite <- map_app, firstn_skipn.
  assert (Pm : Permutation (map snd (sort_desc r)) (filter keep l)) by (rewrite sort_perm, Hm; reflexivity).
  assert (Hin : forall f, In f (map snd (sort_desc r)) <-> present d f /\ exists i, stands_for (cc_name c) f i).
  { intro f. rewrite present_in. split.
    - intro H. apply (Permutation_in _ Pm) in H. apply filter_In in H as [H1 H2]. split.
      + apply (Permutation_in _ P). exact H1.
      + apply Hk; assumption.
    - intros [H1 H2]. apply (Permutation_in _ (Permutation_sym P)) in H1.
      apply (Permutation_in _ (Permutation_sym Pm)). apply filter_In. split; [exact H1|]. apply Hk; assumption. }
  split; [|split; [exact Hin|split; [|split; [|split]]]].
  - eapply Permutation_NoDup; [symmetry; exact Pm|]. apply NoDup_filter.
    eapply Permutation_NoDup; [symmetry; exact P|exact ND].
  - rewrite !map_length, firstn_length. reflexivity.
  - intros k q i j Hkk Hq Si Sj. apply in_map_iff in Hkk as ([i' k'] & <- & Hkk). apply in_map_iff in Hq as ([j' q'] & <- & Hq).
    cbn [snd] in *.
    assert (Ri : In (i', k') r).
    { apply (Permutation_in _ (sort_perm r)). rewrite <- (firstn_skipn n (sort_desc r)). apply in_or_app. auto. }
    assert (Rj : In (j', q') r).
    { apply (Permutation_in _ (sort_perm r)). rewrite <- (firstn_skipn n (sort_desc r)). apply in_or_app. auto. }
    rewrite (stands_fun _ _ _ _ U Si (Hs _ _ Ri)), (stands_fun _ _ _ _ U Sj (Hs _ _ Rj)).
    exact (desc_split n _ (sort_sorted r) _ _ Hkk Hq).
  - intros f H. rewrite Hc. apply in_map_iff in H as (e & <- & H).
    destruct (existsb _ _) eqn:X; [reflexivity|]. exfalso.
    assert (Y : existsb (fun e' => bytes_eqb (snd e') (snd e)) (skipn n (sort_desc r)) = true).
    { apply existsb_exists. exists e. split; [exact H|apply bytes_eqb_refl]. }
    congruence.
  - intros f H. rewrite Hc. destruct (existsb _ _) eqn:X; [|reflexivity]. exfalso. apply H.
    apply existsb_exists in X as (e & He & Q). apply bytes_eqb_eq in Q. subst f. apply in_map. exact He.
Qed.
Theorem cleanup_load : forall E c n d, io_works E -> lists_all E -> string_utf8 (cc_name c) ->
  NoDup (map fst (d_files d)) -> distinct_iterations (cc_name c) d ->
  fst (load_latest E c (snd (cleanup E c n d))) = fst (load_latest E c d).
Proof.
  intros E c n d W L U ND D. destruct (cc_keep_all c) eqn:K.
  2:{ unfold cleanup. rewrite K. reflexivity. }
  destruct (Nat.eq_dec n 0) as [->|Hn]; [unfold cleanup; rewrite K; reflexivity|].
  destruct (cleanup_spec E c n d W L U ND K) as (d' & kept & removed & Hr & N & Hin & Len & Ord & R1 & R2); [lia|].
  rewrite Hr. cbn [snd].
  pose proof (load_spec E c d W L U) as A. pose proof (load_spec E c d' W L U) as B. rewrite K in A, B.
  assert (Hp : forall f, present d' f -> present d f /\ content d' f = content d f).
  { intros f P. unfold present in *. destruct (in_dec (list_eq_dec ascii_dec) f removed) as [I|I].
    - rewrite R1 in P by exact I. congruence.
    - rewrite R2 in P |- * by exact I. auto. }
  (* the newest checkpoint is kept *)
  assert (Hkeep : forall f, latest_is c d f -> ~ In f removed).
  { intros f (i & P & S & Z & M) I.
    destruct kept as [|k kept]; [cbn in Len; destruct removed; [destruct I|cbn in Len; lia]|].
    assert (Hk : present d k /\ exists j, stands_for (cc_name c) k j) by (apply Hin; left; reflexivity).
    destruct Hk as [Pk [j Sk]].
    assert (j <= i)%N by eauto. assert (i <= j)%N by (eapply Ord; eauto; left; reflexivity).
    assert (k = f) by (replace j with i in Sk by lia; eapply D; eauto). subst k.
    apply NoDup_cons_iff in N as [N _]. apply N. apply in_or_app. auto. }
  destruct A as [(f & Hf & ->)|(Hz & ->)], B as [(g & Hg & ->)|(Hy & ->)].
  - assert (Hf' : latest_is c d' f).
    { pose proof (Hkeep f Hf) as Nr. destruct Hf as (i & P & S & Z & M). exists i. split; [unfold present; rewrite R2; assumption|].
      split; [exact S|]. split; [exact Z|]. intros k j Pk Sk. apply (M k j); [apply Hp; exact Pk|exact Sk]. }
    assert (D' : distinct_iterations (cc_name c) d').
    { intros a b i Pa Pb. apply D; [apply Hp; exact Pa|apply Hp; exact Pb]. }
    rewrite (latest_unique c d' g f U D' Hg Hf'). rewrite R2 by auto. reflexivity.
  - pose proof (Hkeep f Hf) as Nr. destruct Hf as (i & P & S & Z & M).
    rewrite (Hy f i) in Z; [lia|unfold present; rewrite R2; assumption|exact S].
  - destruct Hg as (i & P & S & Z & M). rewrite (Hz g i) in Z; [lia|apply Hp; exact P|exact S].
  - reflexivity.
Qed.
Theorem cleanup_off : forall E c n d, cc_keep_all c = false \/ n = 0 -> cleanup E c n d = (Ok tt, d).
Proof.
  intros E c n d [H | ->]; unfold cleanup; [rewrite H|destruct (cc_keep_all c)]; reflexivity.
Qed.

(** ** Interrupted saves (C51) *)
Lemma save_files : forall E c cp i d, d_files (snd (save_checkpoint E c cp i d)) = d_files d \/
  exists k, d_files (snd (save_checkpoint E c cp i d)) = put_file (file_name c i) (firstn k (enc_checkpoint cp)) (d_files d).
Proof.
  intros E c cp i d. unfold save_checkpoint, fs_write, bind, next_io, set_files, modify, ret, fail.
  destruct (e_io E (d_tick d)) as [| |k].
  - right. exists (List.length (enc_checkpoint cp)). rewrite firstn_all. reflexivity.
  - left. reflexivity.
  - right. exists k. reflexivity.
Qed.
Lemma torn : forall cp k, checkpoint_ok cp -> decode_checkpoint (firstn k (enc_checkpoint cp)) = Some cp \/
  decode_checkpoint (firstn k (enc_checkpoint cp)) = None.
Proof.
  intros cp k H. destruct (Nat.lt_ge_cases k (List.length (enc_checkpoint cp))) as [L|L].
  - right. apply decode_prefix; assumption.
  - left. rewrite firstn_all2 by exact L. apply decode_encode. exact H.
Qed.
Theorem interrupted : forall E0 E c cp i d, io_works E -> lists_all E -> string_utf8 (cc_name c) ->
  distinct_iterations (cc_name c) d -> checkpoint_ok cp -> usize_ok i ->
  let d' := snd (save_checkpoint E0 c cp i d) in
  fst (load_latest E c d') = fst (load_latest E c d) \/ fst (load_latest E c d') = Ok cp \/
  fst (load_latest E c d') = Err CpSerialization.
Proof.
  intros E0 E c cp i d W L U D Hc Ui d'. destruct (save_files E0 c cp i d) as [H|(k & H)]; fold d' in H.
  { left. apply load_agree; auto. destruct (cc_keep_all c); intros; unfold content; rewrite H; reflexivity. }
  assert (C : forall f, content d' f = if bytes_eqb (file_name c i) f then Some (firstn k (enc_checkpoint cp)) else content d f)
    by (intro f; unfold content; rewrite H; apply lookup_put).
  pose proof (load_spec E c d' W L U) as S'. pose proof (load_spec E c d W L U) as S.
  destruct (cc_keep_all c) eqn:K.
  - destruct S' as [(f & Lf & ->)|(Z & ->)].
    + rewrite C. destruct (bytes_eqb (file_name c i) f) eqn:B.
      * right. cbn [decoded]. destruct (torn cp k Hc) as [-> | ->]; auto.
      * left. destruct Lf as (n & Pf & Sf & Hn & Mf).
        assert (Lf : latest_is c d f).
        { exists n. split; [|split; [exact Sf|split; [exact Hn|]]].
          - unfold present in *. rewrite C, B in Pf. exact Pf.
          - intros g j Hg. apply Mf. unfold present in *. rewrite C. destruct (bytes_eqb (file_name c i) g); [discriminate|exact Hg]. }
        destruct S as [(g & Lg & ->)|(Z & _)].
        -- rewrite (latest_unique c d f g U D Lf Lg). reflexivity.
        -- exfalso. destruct Lf as (m & Pm & Sm & Hm & _). specialize (Z f m Pm Sm). lia.
    + left. destruct S as [(g & (m & Pm & Sm & Hm & _) & _)|(_ & ->)]; [|reflexivity].
      exfalso. assert (m = 0%N); [|lia]. apply (Z g m); [|exact Sm].
      unfold present in *. rewrite C. destruct (bytes_eqb (file_name c i) g); [discriminate|exact Pm].
  - rewrite S'. right. rewrite C. unfold file_name. rewrite K.
    change (str_bytes (cc_name c) ++ dot_bin) with (str_bytes (cc_name c) ++ str_bytes ".bin").
    rewrite bytes_eqb_refl. cbn [decoded]. destruct (torn cp k Hc) as [-> | ->]; auto.
Qed.
Theorem interrupted_before : forall E0 E c cp i d, io_works E -> lists_all E -> string_utf8 (cc_name c) ->
  distinct_iterations (cc_name c) d -> e_io E0 (d_tick d) = IoFail ->
  fst (load_latest E c (snd (save_checkpoint E0 c cp i d))) = fst (load_latest E c d).
Proof.
  intros E0 E c cp i d W L U D F. apply load_agree; auto.
  assert (d_files (snd (save_checkpoint E0 c cp i d)) = d_files d)
    by (unfold save_checkpoint, fs_write, bind, next_io, fail; rewrite F; reflexivity).
  destruct (cc_keep_all c); intros; unfold content; congruence.
Qed.
Theorem others_intact : forall E0 E c cp i d f, io_works E -> f <> file_name c i ->
  fst (load_from_path E f (snd (save_checkpoint E0 c cp i d))) = fst (load_from_path E f d).
Proof.
  intros E0 E c cp i d f W Hf. rewrite !load_path by exact W.
  replace (content (snd (save_checkpoint E0 c cp i d)) f) with (content d f); [reflexivity|].
  unfold content. destruct (save_files E0 c cp i d) as [-> |(k & ->)]; [reflexivity|].
  rewrite lookup_put, bytes_eqb_neq; auto.
Qed.
