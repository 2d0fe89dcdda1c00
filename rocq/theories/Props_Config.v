(** C56: which configuration is used for an asset. *)
From Coq Require Import List Bool.
From Verif Require Import Bytes AssetRouter AssetSpec AssetProofs.
Import ListNotations.

(** A file's configuration is for the asset at its path, a pattern's for the assets whose paths match it; a redirect is
    for none. *)
Inductive is_for : config -> asset -> Prop :=
| FileIsFor path type headers fallbacks aliases encodings a : as_path a = path -> is_for (NFile path type headers fallbacks aliases encodings) a
| PatternIsFor matcher type headers encodings a : matcher (as_path a) = true -> is_for (NPattern matcher type headers encodings) a.
Lemma is_for_iff c a : matches_asset c a = true <-> is_for c a.
Proof.
  split.
  - destruct c as [p t h f al e|g t h e|f t k]; cbn [matches_asset]; intro M.
    + constructor. destruct (bytes_eqb_spec p (as_path a)); congruence.
    + constructor. exact M.
    + discriminate M.
  - intros [p t h f al e b E|g t h e b M]; cbn [matches_asset]; [rewrite E; apply bytes_eqb_refl|exact M].
Qed.
Theorem C56_the_first_configuration_for_an_asset_is_used :
  forall (configs : list config) (a : asset) (c : option config),
  first_config configs a c <->
  match c with
  | Some x => exists before after, configs = before ++ x :: after /\ is_for x a /\ forall y, In y before -> ~ is_for y a
  | None => forall y, In y configs -> ~ is_for y a
  end.
Proof.
  assert (N : forall y a, matches_asset y a = false <-> ~ is_for y a).
  { intros y a. rewrite <- is_for_iff. destruct (matches_asset y a); split; congruence. }
  intros configs a [x|]; cbn [first_config].
  - split; intros (l & r & E & M & F); exists l, r; (split; [exact E|]; split; [apply is_for_iff; exact M|]); intros y I; apply N; exact (F y I).
  - split; intros F y I; apply N; exact (F y I).
Qed.
Print Assumptions C56_the_first_configuration_for_an_asset_is_used.
(** There is one, and only one, answer for every asset. *)
Theorem C56_configuration_is_determined :
  forall (configs : list config) (a : asset), exists c, first_config configs a c /\ forall c', first_config configs a c' -> c' = c.
Proof.
  intros configs a. exists (find (fun x => matches_asset x a) configs). split; [apply find_first|]. intros c' F. eapply first_config_fun; [exact F|apply find_first].
Qed.
Print Assumptions C56_configuration_is_determined.
(** The same for the configurations as they are given: a file's is for the asset at its path, a pattern's for the assets
    whose paths its glob matches. *)
Inductive given_for (glob : bytes -> option (bytes -> bool)) : asset_config -> asset -> Prop :=
| GivenFile path type headers fallbacks aliases encodings a : as_path a = path -> given_for glob (ConfigFile path type headers fallbacks aliases encodings) a
| GivenPattern pattern matcher type headers encodings a : glob pattern = Some matcher -> matcher (as_path a) = true ->
    given_for glob (ConfigPattern pattern type headers encodings) a.
(** What a given configuration asks for: the content type, the headers, the fallbacks, the aliases and the encodings. *)
Definition asks (c : asset_config) : option bytes * list (bytes * bytes) * list fallback_config * list bytes * list (encoding * bytes) :=
  match c with
  | ConfigFile _ type headers fallbacks aliases encodings => (type, headers, fallbacks, aliases, encodings)
  | ConfigPattern _ type headers encodings => (type, headers, [], [], encodings)
  | ConfigRedirect _ _ _ => (None, [], [], [], [])
  end.
(** A configuration that is for the same assets and asks for the same. *)
Definition normal (glob : bytes -> option (bytes -> bool)) (c : asset_config) (n : config) : Prop :=
  (forall a, given_for glob c a <-> is_for n a) /\
  asks c = (content_type_of (Some n), headers_of (Some n), fallbacks_of (Some n), aliases_of (Some n), encodings_of (Some n)).
Lemma normalize_normal glob c n : normalize glob c = Some n -> normal glob c n.
Proof.
  destruct c as [p t h f al e|p t h e|f t k]; cbn [normalize].
  - intros [= <-]. split; [|reflexivity]. intro a. split; intro I; inversion I; subst; constructor; reflexivity.
  - destruct (glob p) as [m|] eqn:G; [|discriminate]. intros [= <-]. split; [|reflexivity]. intro a. split; intro I.
    + inversion I as [|? m' ? ? ? ? G' M]; subst. rewrite G in G'. injection G' as <-. constructor. exact M.
    + inversion I as [|? ? ? ? ? M]; subst. exact (GivenPattern glob p m t h e a G M).
  - intros [= <-]. split; [|reflexivity]. intro a. split; intro I; inversion I.
Qed.
Lemma normalize_all_normal glob : forall configs l, normalize_all glob configs = Some l -> Forall2 (normal glob) configs l.
Proof.
  induction configs as [|c r IH]; intros l E; cbn [normalize_all] in E; [injection E as <-; constructor|].
  destruct (normalize glob c) as [n|] eqn:N; [|discriminate E]. destruct (normalize_all glob r) as [ns|]; [|discriminate E]. injection E as <-.
  constructor; [exact (normalize_normal glob c n N)|apply IH; reflexivity].
Qed.
(** Configurations are accepted exactly when their globs are well-formed. *)
Theorem C56_configurations_are_accepted :
  forall (glob : bytes -> option (bytes -> bool)) (configs : list asset_config),
  (exists l, normalize_all glob configs = Some l) <->
  (forall pattern type headers encodings, In (ConfigPattern pattern type headers encodings) configs -> glob pattern <> None).
Proof.
  intros glob configs. induction configs as [|c r IH]; cbn [normalize_all]; [split; [intros _ ? ? ? ? []|intros _; exists []; reflexivity]|]. split.
  - intros [l E] p t h e [->|I].
    + cbn [normalize] in E. destruct (glob p); [discriminate|discriminate E].
    + destruct (normalize glob c); [|discriminate E]. destruct (normalize_all glob r) as [ns|] eqn:N; [|discriminate E]. exact (proj1 IH (ex_intro _ ns eq_refl) p t h e I).
  - intro F. destruct (proj2 IH (fun p t h e I => F p t h e (or_intror I))) as [ns ->].
    destruct c as [p t h f al e|p t h e|f t k]; cbn [normalize]; [eexists; reflexivity| |eexists; reflexivity].
    specialize (F p t h e (or_introl eq_refl)). destruct (glob p); [eexists; reflexivity|congruence].
Qed.
Print Assumptions C56_configurations_are_accepted.
(** The configuration used for an asset is the first given one that is for it: its content type, headers, fallbacks,
    aliases and encodings are used; none if there is no such configuration. *)
Theorem C56_the_first_given_configuration_is_used :
  forall (glob : bytes -> option (bytes -> bool)) (configs : list asset_config) (l : list config) (a : asset) (c : option config),
  normalize_all glob configs = Some l -> first_config l a c ->
  let used := (content_type_of c, headers_of c, fallbacks_of c, aliases_of c, encodings_of c) in
  (exists before x after, configs = before ++ x :: after /\ given_for glob x a /\ (forall y, In y before -> ~ given_for glob y a) /\ used = asks x) \/
  ((forall y, In y configs -> ~ given_for glob y a) /\ used = (None, [], [], [], [])).
Proof.
  intros glob configs l a c E F. cbv zeta. apply normalize_all_normal in E. apply C56_the_first_configuration_for_an_asset_is_used in F. destruct c as [x|].
  - left. destruct F as (u & v & -> & X & B). apply Forall2_app_inv_r in E. destruct E as (cu & cv & Fu & Fv & ->). inversion Fv as [|y ? cv' ? N Fv']; subst.
    exists cu, y, cv'. split; [reflexivity|]. destruct N as [M A]. split; [apply M; exact X|]. split; [|symmetry; exact A].
    intros z I G. apply In_nth_error in I. destruct I as [n I]. clear - Fu B I G. revert n I. induction Fu as [|z' w cu' u' N Fu IH]; intros n I; [destruct n; discriminate I|]. destruct n as [|n].
    + injection I as ->. apply (B w (or_introl eq_refl)). apply N. exact G.
    + apply (IH (fun y J => B y (or_intror J)) n I).
  - right. split; [|reflexivity]. intros z I G. induction E as [|z' w configs' l' N E IH]; [destruct I|]. destruct I as [->|I].
    + apply (F w (or_introl eq_refl)). apply N. exact G.
    + apply IH; [|exact I]. intros y J. apply F. right. exact J.
Qed.
Print Assumptions C56_the_first_given_configuration_is_used.
Example C56_config_ex :
  let css := NPattern (fun p => bytes_eqb p (bs "b.css")) None [] [] in let b := NFile (bs "b.css") None [] [] [] [] in let r := NRedirect (bs "b.css") (bs "/") Permanent in
  let a := asset_new (bs "b.css") [] in is_for css a /\ ~ is_for r a /\ first_config [r; css; b] a (Some css) /\ first_config [r] a None.
Proof.
  cbv zeta. split; [constructor; vm_compute; reflexivity|]. split; [intro I; inversion I|]. split; [|intros y [<-|[]]; reflexivity].
  eexists [_], [_]. split; [reflexivity|]. split; [vm_compute; reflexivity|]. intros y [<-|[]]. reflexivity.
Qed.
Example C56_given_ex :
  let glob := fun p => if bytes_eqb p (bs "*.css") then Some (fun q => bytes_eqb q (bs "b.css")) else None in
  let css := ConfigPattern (bs "*.css") (Some (bs "text/css")) [] [] in let b := ConfigFile (bs "b.css") None [] [] [] [] in
  (exists l, normalize_all glob [b; css] = Some l) /\ normalize_all glob [ConfigPattern (bs "[") None [] []] = None /\
  given_for glob css (asset_new (bs "b.css") []) /\ given_for glob b (asset_new (bs "b.css") []) /\ ~ given_for glob b (asset_new (bs "c.css") []) /\ asks css = (Some (bs "text/css"), [], [], [], []).
Proof.
  cbv zeta. split; [eexists; reflexivity|]. split; [reflexivity|]. split; [eapply GivenPattern; [reflexivity|vm_compute; reflexivity]|]. split; [constructor; reflexivity|].
  split; [intro I; inversion I; discriminate|reflexivity].
Qed.
