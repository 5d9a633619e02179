(* Facts about the OBU header and framing model. *)
From Verif Require Import Base WriteBuf ReadBuf Leb BufSpec LebSpec BitFacts WriteBufFacts ReadBufFacts LebFacts
  ParseFacts EndToEnd ObuHeader.

Definition u32P (v : Z) : Prop := 0 <= v < 2^32.

(* Values are of their C++ types; the OBU type is one of the enumerators (5 bits). *)
Definition header_wf (h : header) : Prop :=
  0 <= h_type h < 32 /\ u32P (h_trim_end h) /\ u32P (h_trim_start h) /\
  match h_ext h with Some e => Forall byteP e | None => True end.

Lemma u32_range v : 0 <= u32 v < 2^32.
Proof. unfold u32. change (2^32) with 4294967296. lia. Qed.

Ltac wf_split := repeat match goal with |- Forall winstr_wf (_ ++ _) => apply Forall_app; split end.

Lemma wlit_wf d n : 0 <= d < 2^64 -> Forall winstr_wf (wlit d n).
Proof. repeat constructor; cbn [winstr_wf]; lia. Qed.
Lemma wbool_wf b : Forall winstr_wf (wbool b).
Proof. repeat constructor; destruct b; cbn [winstr_wf Z.b2z]; lia. Qed.
Lemma wspan_wf d : Forall byteP d -> Forall winstr_wf (wspan d).
Proof. intro. repeat constructor. assumption. Qed.
Lemma wcheck_wf b c : Forall winstr_wf (wcheck b c).
Proof. destruct b; repeat constructor. Qed.
Lemma wres_wf r : Forall winstr_wf (wres r).
Proof. destruct r; repeat constructor. Qed.
Lemma wuleb_wf g v : lebgen_wf g -> 0 <= v < 2^32 -> Forall winstr_wf (wuleb g v).
Proof.
  intros Hg Hv. unfold wuleb. destruct (uleb_bytes g v) as [l| | | |] eqn:E; repeat constructor. cbn [winstr_wf].
  destruct (uleb_ok g v l Hg Hv E) as (L & _). apply is_leb_bytes. exact L.
Qed.
Lemma wstring_wf s : Forall byteP s -> Forall winstr_wf (wstring s).
Proof.
  intro Hs. assert (Forall winstr_wf [WLit 32 0 8]) as Z0 by (apply wlit_wf; lia).
  unfold wstring. destruct (zlen s >? 127); [repeat constructor|]. destruct s as [|a s]; [exact Z0|].
  destruct (existsb (Z.eqb 0) (a :: s)); [repeat constructor|]. apply Forall_app. split; [|exact Z0].
  apply Forall_map. eapply Forall_impl; [|exact Hs]. intros b [H1 H2]. cbn [winstr_wf]. lia.
Qed.

Lemma temp_write_eq p : Forall winstr_wf p ->
  temp_write p = map_res (fun bs => mkW (pack bs) (zlen bs)) (wbits p).
Proof.
  intro Hp. destruct (wrun_spec p w_empty [] Hp holds_empty) as [E H]. unfold temp_write.
  destruct (wrun p w_empty) as [r [b o]]. cbn [fst snd] in *. subst r.
  destruct (wbits p) as [bs| | | |]; try reflexivity. destruct (H bs eq_refl) as [H1 H2]. cbn in *. subst. reflexivity.
Qed.

Lemma temp_write_ok p t : Forall winstr_wf p -> temp_write p = Ok t ->
  exists bs, wbits p = Ok bs /\ w_bytes t = pack bs /\ w_off t = zlen bs.
Proof.
  intros Hp E. rewrite temp_write_eq in E by exact Hp. destruct (wbits p) as [bs| | | |]; try discriminate.
  injection E as <-. exists bs. auto.
Qed.

Lemma wspan_total d : wbits (wspan d) = Ok (bytes_bits d).
Proof. unfold wspan. cbn [wbits wspec rbind]. rewrite app_nil_r. reflexivity. Qed.

Lemma fields_wf g h : lebgen_wf g -> header_wf h -> Forall winstr_wf (fields_after_obu_size g h).
Proof.
  intros Hg (Ht & He & Hs & Hx). unfold fields_after_obu_size. apply Forall_app. split.
  - destruct (trimming_flag h); [|constructor]. apply Forall_app. split; apply wuleb_wf; assumption.
  - unfold ext_size. destruct (h_ext h) as [e|]; [|constructor]. apply Forall_app. split; [|apply wspan_wf; exact Hx].
    apply wuleb_wf; [exact Hg|]. unfold u32. lia.
Qed.

(* [l] is the ULEB128 encoding of [v] chosen by [g]. *)
Definition enc_of (g : lebgen) (v : Z) (l : list Z) : Prop :=
  uleb_bytes g v = Ok l /\ is_leb l /\ uleb_value l = v /\ (1 <= length l <= 8)%nat.

Lemma wuleb_enc g v bs : lebgen_wf g -> 0 <= v < 2^32 -> wbits (wuleb g v) = Ok bs ->
  exists l, enc_of g v l /\ bs = bytes_bits l.
Proof.
  intros Hg Hv H. destruct (wuleb_ok g v bs Hg Hv H) as (l & E & -> & L & V & N). exists l. unfold enc_of. auto.
Qed.
Lemma parses_enc_sz g v l : 0 <= v < 2^32 -> enc_of g v l -> parses ruleb_sz (bytes_bits l) (v, zlen l).
Proof. intros Hv (_ & L & V & N). subst v. apply parses_uleb_sz; try assumption; lia. Qed.
Lemma parses_enc g v l : 0 <= v < 2^32 -> enc_of g v l -> parses ruleb (bytes_bits l) v.
Proof. intros Hv (_ & L & V & N). subst v. apply parses_uleb; try assumption; lia. Qed.
Lemma enc_bytes g v l : enc_of g v l -> Forall byteP l.
Proof. intros (_ & L & _). apply is_leb_bytes. exact L. Qed.

(* The bytes after obu_size in the header. *)
Definition trim_part (g : lebgen) (h : header) (te ts : list Z) : Prop :=
  if trimming_flag h then enc_of g (h_trim_end h) te /\ enc_of g (h_trim_start h) ts else te = [] /\ ts = [].
Definition ext_part (g : lebgen) (h : header) (ls lb : list Z) : Prop :=
  match h_ext h with Some e => enc_of g (u32 (zlen e)) ls /\ lb = e | None => ls = [] /\ lb = [] end.

Lemma fields_ok g h fb : lebgen_wf g -> header_wf h -> wbits (fields_after_obu_size g h) = Ok fb ->
  exists te ts ls lb, trim_part g h te ts /\ ext_part g h ls lb /\ fb = bytes_bits (te ++ ts ++ ls ++ lb) /\
                      Forall byteP (te ++ ts ++ ls ++ lb).
Proof.
  intros Hg (Ht & He & Hs & Hx) H. unfold fields_after_obu_size in H. apply wbits_app_ok in H as (a & b & Ha & Hb & ->).
  assert (exists te ts, trim_part g h te ts /\ a = bytes_bits (te ++ ts) /\ Forall byteP (te ++ ts)) as (te & ts & T & -> & Fa).
  { unfold trim_part. destruct (trimming_flag h).
    - apply wbits_app_ok in Ha as (a1 & a2 & H1 & H2 & ->).
      destruct (wuleb_enc _ _ _ Hg He H1) as (te & E1 & ->). destruct (wuleb_enc _ _ _ Hg Hs H2) as (ts & E2 & ->).
      exists te, ts. rewrite bytes_bits_app. repeat split; try assumption; try apply E1; try apply E2.
      apply Forall_app. split; eapply enc_bytes; eassumption.
    - apply wbits_nil_ok in Ha as ->. exists [], []. repeat split. constructor. }
  assert (exists ls lb, ext_part g h ls lb /\ b = bytes_bits (ls ++ lb) /\ Forall byteP (ls ++ lb)) as (ls & lb & X & -> & Fb).
  { unfold ext_part, ext_size in *. destruct (h_ext h) as [e|].
    - apply wbits_app_ok in Hb as (b1 & b2 & H1 & H2 & ->).
      destruct (wuleb_enc _ _ _ Hg (u32_range _) H1) as (ls & E1 & ->). apply wspan_ok in H2 as ->.
      exists ls, e. rewrite bytes_bits_app. repeat split; try assumption; try apply E1.
      apply Forall_app. split; [eapply enc_bytes; eassumption|exact Hx].
    - apply wbits_nil_ok in Hb as ->. exists [], []. repeat split. constructor. }
  exists te, ts, ls, lb. rewrite <- bytes_bits_app, <- app_assoc. repeat split; try assumption.
  apply Forall_app. apply Forall_app in Fa as [F1 F2]. split; [exact F1|]. apply Forall_app. auto.
Qed.

Lemma two_mb_ok os k : 1 <= k <= 8 -> 0 <= os -> under_two_megabytes os k = (if os <=? 2^21 - 1 - k then Ok tt else Err InvalidArgument).
Proof.
  intros Hk Ho. unfold under_two_megabytes. replace (k <=? 8) with true by lia.
  unfold u32. change (2^21) with 2097152. change (2^32) with 4294967296.
  replace ((2097152 - 1 - k) mod 4294967296) with (2097152 - 1 - k) by (rewrite Z.mod_small; lia).
  destruct (os >? 2097152 - 1 - k) eqn:E; destruct (os <=? 2097152 - 1 - k) eqn:F; try reflexivity; lia.
Qed.

Lemma obu_size_ok g h n os : lebgen_wf g -> header_wf h -> obu_size_and_validate g h n = Ok os ->
  exists te ts ls lb lo, trim_part g h te ts /\ ext_part g h ls lb /\ enc_of g os lo /\ 0 <= n /\
    Forall byteP (te ++ ts ++ ls ++ lb) /\ wbits (fields_after_obu_size g h) = Ok (bytes_bits (te ++ ts ++ ls ++ lb)) /\
    os = zlen (te ++ ts ++ ls ++ lb) + n /\ os + 1 + zlen lo <= 2^21 /\ header_validate h = Ok tt.
Proof.
  intros Hg Hh H. unfold obu_size_and_validate in H.
  destruct ((n <? 0) || (n >? 2^32 - 1)) eqn:En; [discriminate|].
  destruct (temp_write (fields_after_obu_size g h)) as [t| | | |] eqn:Et; try discriminate. cbn [rbind] in H.
  destruct (temp_write_ok _ _ (fields_wf g h Hg Hh) Et) as (fb & Ef & Eb & Eo).
  destruct (fields_ok g h fb Hg Hh Ef) as (te & ts & ls & lb & T & X & -> & F).
  rewrite Eb, (pack_bytes _ F) in H.
  destruct (negb (w_off t mod 8 =? 0) || (zlen (te ++ ts ++ ls ++ lb) >? 2^32 - 1)) eqn:E2; [discriminate|].
  unfold add_u32_check in H. destruct (zlen (te ++ ts ++ ls ++ lb) + n >? 2^32 - 1) eqn:E3; [discriminate|]. cbn [rbind] in H.
  set (o := zlen (te ++ ts ++ ls ++ lb) + n) in *. pose proof (zlen_nonneg (te ++ ts ++ ls ++ lb)) as Z0.
  assert (0 <= o < 2^32) as Ho by lia.
  destruct (temp_write (wuleb g o)) as [t2| | | |] eqn:Et2; try discriminate. cbn [rbind] in H.
  destruct (temp_write_ok _ _ (wuleb_wf g o Hg Ho) Et2) as (ob & Eo1 & Eo2 & _).
  destruct (wuleb_enc g o ob Hg Ho Eo1) as (lo & Elo & ->). rewrite Eo2, (pack_bytes _ (enc_bytes _ _ _ Elo)) in H.
  pose proof Elo as (_ & _ & _ & Nlo). rewrite two_mb_ok in H by (unfold zlen in *; lia).
  destruct (o <=? 2^21 - 1 - zlen lo) eqn:E4; [|discriminate]. cbn [rbind] in H.
  destruct (header_validate h) as [[]| | | |] eqn:Ev; try discriminate. cbn [rbind] in H. injection H as <-.
  exists te, ts, ls, lb, lo. repeat split; try assumption; try apply Elo; lia.
Qed.

(* What a successfully written header is, as bytes. *)
Definition first_byte (h : header) : list bool := bits 5 (h_type h) ++ [h_red h; h_flag h; ext_flag h].

Lemma write_header_ok g h n bs : lebgen_wf g -> header_wf h -> wbits (write_header g h n) = Ok bs ->
  exists te ts ls lb lo, trim_part g h te ts /\ ext_part g h ls lb /\
    let os := zlen (te ++ ts ++ ls ++ lb) + n in
    enc_of g os lo /\ 0 <= n /\ Forall byteP (te ++ ts ++ ls ++ lb) /\
    bs = first_byte h ++ bytes_bits lo ++ bytes_bits (te ++ ts ++ ls ++ lb) /\
    os + 1 + zlen lo <= 2^21 /\ header_validate h = Ok tt.
Proof.
  intros Hg Hh H. unfold write_header in H. destruct (obu_size_and_validate g h n) as [os|c| | |] eqn:E; try discriminate.
  destruct (obu_size_ok g h n os Hg Hh E) as (te & ts & ls & lb & lo & T & X & Elo & Hn & F & Ef & Eos & Hle & V).
  exists te, ts, ls, lb, lo. split; [exact T|]. split; [exact X|]. cbv zeta. rewrite <- Eos.
  split; [exact Elo|]. split; [exact Hn|]. split; [exact F|]. split; [|auto].
  apply wbits_app_ok in H as (b1 & r1 & H1 & H & ->). apply wbits_app_ok in H as (b2 & r2 & H2 & H & ->).
  apply wbits_app_ok in H as (b3 & r3 & H3 & H & ->). apply wbits_app_ok in H as (b4 & r4 & H4 & H & ->).
  apply wbits_app_ok in H as (b5 & b6 & H5 & H6 & ->).
  apply wlit_ok in H1 as (_ & _ & ->). apply wbool_ok in H2 as ->. apply wbool_ok in H3 as ->. apply wbool_ok in H4 as ->.
  rewrite Ef in H6. injection H6 as <-.
  assert (b5 = bytes_bits lo) as ->.
  { unfold wuleb in H5. destruct Elo as (E5 & _). rewrite E5 in H5. apply wspan_ok in H5. exact H5. }
  unfold first_byte. change (Z.to_nat 5) with 5%nat. rewrite <- !app_assoc. reflexivity.
Qed.

(* A header as the reader reports it: trims only exist when signalled. *)
Definition norm_header (h : header) : header :=
  if trimming_flag h then h else mkH (h_type h) (h_red h) (h_flag h) 0 0 (h_ext h).

Lemma parses_rres_ok {A B} (r : res A) a (k : A -> rprog B) bs b :
  r = Ok a -> parses (k a) bs b -> parses (rb (rres r) k) bs b.
Proof. intros -> H. eapply parses_bind; [apply parses_ret|exact H|reflexivity]. Qed.

Lemma trimming_flag_ext t r f a b x a' b' x' : trimming_flag (mkH t r f a b x) = trimming_flag (mkH t r f a' b' x').
Proof. reflexivity. Qed.

Lemma parses_header g h n bs : lebgen_wf g -> header_wf h -> wbits (write_header g h n) = Ok bs ->
  parses read_header bs (norm_header h, n).
Proof.
  intros Hg Hh H. destruct (write_header_ok g h n bs Hg Hh H) as (te & ts & ls & lb & lo & T & X & Elo & Hn & F & -> & Hle & V).
  set (os := zlen (te ++ ts ++ ls ++ lb) + n) in *. pose proof (zlen_nonneg (te ++ ts ++ ls ++ lb)) as Z0.
  pose proof Hh as (Ht & He & Hs & Hx). pose proof Elo as (_ & _ & _ & Nlo).
  assert (0 <= os < 2^32 /\ os <= 2^21 - 1 - zlen lo) as [Hos Hos2].
  { pose proof (zlen_nonneg lo). change (2^21) with 2097152 in *. change (2^32) with 4294967296. lia. }
  unfold first_byte. rewrite <- app_assoc. cbn [app]. unfold read_header.
  eapply parses_bind; [apply (parses_lit 5 64 (h_type h)); [reflexivity|lia]| |reflexivity].
  eapply (parses_bind _ _ [h_red h]); [apply parses_bool| |reflexivity].
  eapply (parses_bind _ _ [h_flag h]); [apply parses_bool| |reflexivity].
  eapply (parses_bind _ _ [ext_flag h]); [apply parses_bool| |reflexivity].
  eapply parses_bind; [eapply parses_enc_sz; [|exact Elo]; exact Hos| |reflexivity]. cbn [fst snd].
  eapply parses_rres_ok; [rewrite two_mb_ok by (unfold zlen in *; lia); replace (os <=? _) with true by lia; reflexivity|].
  set (h0 := mkH (h_type h) (h_red h) (h_flag h) 0 0 None).
  assert (trimming_flag h0 = trimming_flag h) as Etf by (destruct h; reflexivity). rewrite Etf.
  assert (header_validate (norm_header h) = Ok tt) as Vn.
  { rewrite <- V. unfold norm_header. destruct (trimming_flag h); destruct h; reflexivity. }
  rewrite !bytes_bits_app. unfold trim_part in T. unfold ext_part in X.
  eapply (parses_bind _ _ (bytes_bits te ++ bytes_bits ts) (bytes_bits ls ++ bytes_bits lb) _
            (if trimming_flag h then ((h_trim_end h, zlen te), (h_trim_start h, zlen ts)) else ((0, 0), (0, 0))));
    [| |rewrite <- app_assoc; reflexivity].
  { destruct (trimming_flag h).
    - destruct T as [T1 T2]. eapply parses_bind; [eapply parses_enc_sz; [|exact T1]; exact He| |reflexivity].
      eapply parses_bind; [eapply parses_enc_sz; [|exact T2]; exact Hs|apply parses_ret|rewrite app_nil_r; reflexivity].
    - destruct T as [-> ->]. apply parses_ret. }
  set (es := match h_ext h with Some e => (u32 (zlen e), zlen ls) | None => (0, 0) end).
  eapply (parses_bind _ _ (bytes_bits ls) (bytes_bits lb) _ es); [| |reflexivity].
  { unfold ext_flag, es. destruct (h_ext h) as [e|].
    - destruct X as [X1 _]. eapply parses_enc_sz; [|exact X1]. unfold u32. lia.
    - destruct X as [-> _]. apply parses_ret. }
  assert (obu_payload_size os
            (snd (fst (if trimming_flag h then ((h_trim_end h, zlen te), (h_trim_start h, zlen ts)) else ((0, 0), (0, 0)))))
            (snd (snd (if trimming_flag h then ((h_trim_end h, zlen te), (h_trim_start h, zlen ts)) else ((0, 0), (0, 0)))))
            (snd es) (fst es) = n /\
          match h_ext h with Some e => u32 (zlen e) = zlen e | None => True end) as [En Eu].
  { unfold obu_payload_size. unfold os in *. rewrite !zlen_app in *.
    pose proof (zlen_nonneg te) as Zte. pose proof (zlen_nonneg ts) as Zts. pose proof (zlen_nonneg ls) as Zls.
    pose proof (zlen_nonneg lb) as Zlb. pose proof (zlen_nonneg lo) as Zlo. change (2^21) with 2097152 in *.
    assert (match h_ext h with Some e => u32 (zlen e) = zlen e | None => True end) as Eu.
    { destruct (h_ext h) as [e|]; [|exact I]. destruct X as [_ ->]. unfold u32. change (2^32) with 4294967296. lia. }
    split; [|exact Eu].
    unfold es, u32 in *. change (2^32) with 4294967296 in *.
    clear - T X Eu Hle Zte Zts Zls Zlb Zlo Hn.
    assert (zlen te + (zlen ts + (zlen ls + zlen lb)) + n -
            (snd (fst (if trimming_flag h then (h_trim_end h, zlen te, (h_trim_start h, zlen ts)) else (0, 0, (0, 0)))) +
             snd (snd (if trimming_flag h then (h_trim_end h, zlen te, (h_trim_start h, zlen ts)) else (0, 0, (0, 0)))) +
             snd (match h_ext h with Some e => (zlen e mod 4294967296, zlen ls) | None => (0, 0) end) +
             fst (match h_ext h with Some e => (zlen e mod 4294967296, zlen ls) | None => (0, 0) end)) = n) as E.
    { destruct (trimming_flag h); destruct (h_ext h) as [e|]; cbn [fst snd];
        try (destruct T as [-> ->]); try (destruct X as [-> ->]); try (destruct X as [_ ->]); change (zlen (@nil Z)) with 0 in *; lia. }
    rewrite Z.mod_small; [exact E|]. lia. }
  rewrite En. apply parses_check; [lia|].
  eapply (parses_bind _ _ (bytes_bits lb) [] _ (h_ext h)); [| |rewrite app_nil_r; reflexivity].
  { unfold ext_flag, es. destruct (h_ext h) as [e|].
    - destruct X as [_ ->]. cbn [fst]. rewrite Eu. unfold zlen. rewrite Nat2Z.id.
      eapply parses_bind; [apply parses_span; exact Hx|apply parses_ret|rewrite app_nil_r; reflexivity].
    - destruct X as [_ ->]. apply parses_ret. }
  assert (mkH (h_type h) (h_red h) (h_flag h)
    (fst (fst (if trimming_flag h then ((h_trim_end h, zlen te), (h_trim_start h, zlen ts)) else ((0, 0), (0, 0)))))
    (fst (snd (if trimming_flag h then ((h_trim_end h, zlen te), (h_trim_start h, zlen ts)) else ((0, 0), (0, 0))))) (h_ext h)
    = norm_header h) as ->.
  { unfold norm_header. destruct (trimming_flag h); destruct h; reflexivity. }
  eapply parses_rres_ok; [exact Vn|]. apply parses_ret.
Qed.
