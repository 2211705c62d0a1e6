(** Proofs for C01, C02, C03, C05, C17 (collection of a block). *)
From Verif Require Import Base Lru LruFacts Types Avro AvroFacts Wire SpecWire WireFacts GoPath PathFacts Producer SpecBlock
  Consumer ConsumerBase ConsumerFacts Assembly Assembly2 Assembly3 SpecCollect.

Lemma process_len c e st m r : process c e st m = Ok r → 33 ≤ length (m_key m).
Proof. unfold process, process_with at 1. case_bool_decide; [discriminate|lia]. Qed.
Lemma run_len c ins st st' : mp_run c ins st = Ok st' → ∀ m e, IMsg m e ∈ ins → 33 ≤ length (m_key m).
Proof.
  unfold mp_run. revert st; induction ins as [|i ins IH]; intros st; cbn [foldM]; [by intros _ ? ? ?%elem_of_nil|].
  destruct (mp_step c st i) as [s| |] eqn:E; cbn [mbind outcome_bind]; try discriminate. intros Hr m e Hin. apply elem_of_cons in Hin as [<-|Hin]; [|by eapply IH].
  cbn in E. destruct (process c e st m) as [r| |] eqn:Ep; try discriminate. by eapply process_len.
Qed.
Lemma about_hash h m : hash_ok h → about h m → msg_hash m = h.
Proof. intros Hh [_ E]. unfold msg_hash. rewrite E. by apply bytes_hash_bytes. Qed.
Lemma hash_about h m : 33 ≤ length (m_key m) → msg_hash m = h → about h m.
Proof.
  intros Hl <-. split; [done|]. unfold msg_hash. symmetry. apply hash_bytes_hash. rewrite take_length, drop_length. lia.
Qed.
Lemma elem_of_messages m ins : m ∈ messages ins ↔ ∃ e, IMsg m e ∈ ins.
Proof.
  unfold messages. rewrite elem_of_list_omap. split.
  - intros ([m' e|] & Hin & E); [|done]. simplify_eq. by exists e.
  - intros [e Hin]. by exists (IMsg m e).
Qed.

Section collect.
  Context (mt : bytes → option bytes) (b : block) (c : mp_config).
  Context (Hwf : wf_block mt b).
  Notation tr := (mc_tracked c).
  Notation h := (ba_hash (bk_args b)).

  Lemma run_inv (S : Prop) ins st :
    consumer_run c ins st → Forall input_ok ins → faithful mt b (messages ins) →
    (S → ∀ n, requested ins n → (n ≤ ba_num (bk_args b))%Z) →
    inv mt b c S (omap (of_block b) ins) st.
  Proof.
    intros (last & st0 & Hn & Hr) Hok Hf HS.
    apply (inv_run mt b c Hwf S [] ins st0 st); [by eapply inv_new| |done].
    apply Forall_forall. intros i Hi. destruct i as [m e|n]; cbn.
    - rewrite Forall_forall in Hok. specialize (Hok _ Hi). split; [done|]. split.
      + intros Hs k n Hk. apply (HS Hs). right. eauto.
      + intros Hh Hnr. assert (Hl : 33 ≤ length (m_key m)) by (by eapply run_len).
        destruct (Hf m) as [?|Hft].
        * apply elem_of_messages. by exists e.
        * by apply hash_about.
        * unfold reorg_type. unfold is_reorg in Hnr. by apply bool_decide_eq_false in Hnr.
        * by left.
        * right. split; [done|]. split; done.
    - intros Hs. apply (HS Hs). by left.
  Qed.
  Lemma of_block_msgs ins m : m ∈ omap (of_block b) ins → m ∈ messages ins.
  Proof.
    rewrite elem_of_list_omap. intros ([m' e|] & Hin & E); cbn in E; [|done]. case_decide; [|done]. simplify_eq.
    apply elem_of_messages. by exists e.
  Qed.
  Lemma msgs_of_block ins m kd : m ∈ messages ins → m_key m = key_of kd → kind_ok kd → kind_hash kd = h →
    kind_type kd ≠ ReorgType → m ∈ omap (of_block b) ins.
  Proof.
    intros [e He]%elem_of_messages Hk Hok Hh Ht. apply elem_of_list_omap. exists (IMsg m e). split; [done|]. cbn.
    rewrite decide_True; [done|]. split.
    - unfold msg_hash. rewrite Hk, (proj1 (key_recovered _ Hok)). done.
    - unfold is_reorg. rewrite Hk, key_type. apply bool_decide_eq_false. congruence.
  Qed.

  Lemma reassembly ins st pb :
    consumer_run c ins st → Forall input_ok ins → faithful mt b (messages ins) → emitted_batch st h pb →
    exact mt b tr pb ∧ ∀ kd, needed mt b tr kd → ∃ m, m ∈ messages ins ∧ m_key m = key_of kd ∧ reread (pb_res pb) m.
  Proof.
    intros Hr Hok Hf [He Hh].
    pose proof (run_inv False ins st Hr Hok Hf ltac:(done)) as Hinv.
    destruct (inv_emitted mt b c False _ _ _ Hinv He Hh) as [Hex Hn]. split; [done|].
    intros kd Hk. destruct (Hn kd Hk) as (m & Hm & E & Hres). exists m. split; [by apply of_block_msgs|]. done.
  Qed.
  Lemma completion ins st :
    consumer_run c ins st → Forall input_ok ins → faithful mt b (messages ins) →
    (∀ n, requested ins n → (n ≤ ba_num (bk_args b))%Z) →
    (∀ kd, needed mt b tr kd → delivered (messages ins) kd) → ∃ pb, emitted_batch st h pb.
  Proof.
    intros Hr Hok Hf HS Hall. pose proof (run_inv True ins st Hr Hok Hf (λ _, HS)) as Hinv.
    destruct (inv_complete mt b c True _ _ I Hinv) as (pb & ? & ?); [|by exists pb].
    intros kd Hk. destruct (Hall kd Hk) as (m & Hm & E). exists m. split; [|done].
    destruct (need_ok mt b tr Hwf kd Hk) as [? ?]. eapply msgs_of_block; try done. by destruct Hk.
  Qed.
End collect.

(** * No panics *)
Lemma reorg_total c e st m : is_reorg m = true → 33 ≤ length (m_key m) → ∃ r, process c e st m = Ok r.
Proof.
  unfold is_reorg. intros Ht%bool_decide_eq_true Hl. unfold process, process_with at 1. rewrite bool_decide_eq_false_2 by lia.
  destruct (m_key m) as [|t kr]; [done|]. injection Ht as ->. rewrite bool_decide_eq_true_2 by done.
  destruct (decode_int (m_val m)); eauto.
Qed.
Lemma run_total mt (fam : block → Prop) c ins st0 last :
  (∀ b, fam b → wf_block mt b) →
  (∀ b b', fam b → fam b' → ba_hash (bk_args b) = ba_hash (bk_args b') → b = b') →
  mp_new c last = Ok st0 → Forall input_ok ins →
  (∀ m, m ∈ messages ins → 33 ≤ length (m_key m) ∧
     (reorg_type m ∨ ∃ b, fam b ∧ about (ba_hash (bk_args b)) m ∧ (copy_of mt b m ∨ foreign_type m))) →
  ∃ st, mp_run c ins st0 = Ok st.
Proof.
  intros Hwf Hu Hn Hok Hms.
  assert (G : ∀ ins st, Forall input_ok ins →
    (∀ m, m ∈ messages ins → 33 ≤ length (m_key m) ∧
       (reorg_type m ∨ ∃ b, fam b ∧ about (ba_hash (bk_args b)) m ∧ (copy_of mt b m ∨ foreign_type m))) →
    (∀ b, fam b → ∃ hist, inv mt b c False hist st) → ∃ st', mp_run c ins st = Ok st').
  2: { apply (G ins st0 Hok Hms). intros b Hb. exists []. eapply inv_new; [by apply Hwf|exact Hn]. }
  clear ins st0 last Hn Hok Hms. induction ins as [|i ins IH]; intros st Hok Hms Hinv; [by exists st|].
  apply Forall_cons in Hok as [Hok1 Hok].
  assert (Hgood : ∀ b, fam b → input_good mt b False i).
  { intros b Hb. destruct i as [m e|n]; [|by intros []]. split; [done|]. split; [by intros ? ? ? []|].
    intros Hh Hnr. destruct (Hms m) as [Hl [Hre|(b' & Hb' & Hab & Hc)]].
    - apply elem_of_messages. exists e. apply elem_of_list_here.
    - exfalso. unfold is_reorg in Hnr. by apply bool_decide_eq_false in Hnr.
    - assert (b' = b) as ->.
      { apply Hu; [done|done|]. rewrite <- Hh. symmetry. apply about_hash; [|done]. apply (wf_hash _ _ (Hwf b' Hb')). }
      destruct Hc as [?|?]; [by left|right]. split; [done|]. split; done. }
  assert (Hstep : ∃ s, mp_step c st i = Ok s).
  { destruct i as [m e|n]; [|by eexists]. cbn.
    destruct (Hms m) as [Hl [Hre|(b' & Hb' & Hab & Hc)]].
    - apply elem_of_messages. exists e. apply elem_of_list_here.
    - destruct (reorg_total c e st m) as [r ->]; [|done|by eexists]. unfold is_reorg. by apply bool_decide_eq_true.
    - destruct (decide (is_reorg m = true)) as [Hre|Hre].
      + destruct (reorg_total c e st m) as [r ->]; [done|done|by eexists].
      + destruct (Hgood b' Hb') as (He & Hqe & Hg). destruct (Hinv b' Hb') as [hist Hi].
        destruct (inv_good mt b' c (Hwf b' Hb') False e hist st m Hi) as (st' & -> & _); [|done|done|by eexists].
        apply Hg; [|by destruct (is_reorg m)]. apply about_hash; [|done]. apply (wf_hash _ _ (Hwf b' Hb')). }
  destruct Hstep as [s Hs]. unfold mp_run. cbn [foldM]. rewrite Hs. cbn [mbind outcome_bind]. apply (IH s Hok).
  - intros m [e He]%elem_of_messages. apply Hms, elem_of_messages. exists e. by apply elem_of_list_further.
  - intros b Hb. destruct (Hinv b Hb) as [hist Hi]. eexists. eapply inv_step; [by apply Hwf|exact Hi|by apply Hgood|exact Hs].
Qed.
