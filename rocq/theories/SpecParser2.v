(** What the built-in metadata parsers are documented to record about a sample. *)
From Coq Require Import String.
From Verif Require Import Base MixtureKeyModel ParserModel.
Open Scope Z_scope.

(** The value under a key of an object. *)
Definition entry (v : pval) (k : str) : option pval := match v with PDict d => aget str_eqb k d | _ => None end.
Definition is_object (v : pval) : Prop := exists d, v = PDict d.
(** Values Python treats as absent: nothing, an empty text, list or object, and zero. *)
Definition absent (v : pval) : Prop := v = PNone \/ v = PStr [] \/ v = PList [] \/ v = PDict [] \/ v = PNum 0.
Definition absent_entry (v : pval) (k : str) : Prop := entry v k = None \/ exists w, entry v k = Some w /\ absent w.

(** The names in a list of language objects. *)
Definition names_of (l ns : list pval) : Prop := Forall2 (fun x n => entry x (lit "name") = Some n) l ns.

(** SlimPajama and The Pile: the set name among the sample's "meta", one of the known sets. *)
Definition set_record (prop : str) (known : list str) (n : Z) (payload : pval) (r : record) : Prop :=
  exists meta s, entry payload (lit "meta") = Some meta /\ entry meta prop = Some (PStr s) /\ In s known /\
    r = [(lit "sample_id", PNum n); (prop, PStr s)].
(** FineWeb: dump and language, the language is English. *)
Definition fineweb_record (n : Z) (payload : pval) (r : record) : Prop :=
  exists dump, entry payload (lit "dump") = Some dump /\ dump <> PNone /\ (forall l, dump <> PList l) /\
    entry payload (lit "language") = Some (PStr (lit "en")) /\
    r = [(lit "sample_id", PNum n); (lit "dump", dump); (lit "language", PStr (lit "en"))].
(** RedPajama: the names of the languages and the publication date among the sample's "meta", each NULL if it is absent. *)
Definition redpajama_record (n : Z) (payload : pval) (r : record) : Prop :=
  exists meta lang date,
    (entry payload (lit "meta") = Some meta \/ (entry payload (lit "meta") = None /\ meta = PDict [])) /\
    is_object payload /\ is_object meta /\
    ((absent_entry meta (lit "language") /\ lang = PNone) \/
     exists x l ns, entry meta (lit "language") = Some (PList (x :: l)) /\ names_of (x :: l) ns /\ lang = PList ns) /\
    ((absent_entry meta (lit "publication_date") /\ date = PNone) \/
     (entry meta (lit "publication_date") = Some date /\ ~ absent date /\ forall l, date <> PList l)) /\
    r = [(lit "sample_id", PNum n); (lit "language", lang); (lit "publication_date", date)].
(** ImageNet: the class label's text; a missing label is the text "None". *)
Definition imagenet_record (to_str : pval -> str) (n : Z) (payload : pval) (r : record) : Prop :=
  is_object payload /\ exists s,
    (((entry payload (lit ".cls") = None \/ entry payload (lit ".cls") = Some PNone) /\ s = lit "None") \/
     exists v, entry payload (lit ".cls") = Some v /\ v <> PNone /\ s = to_str v) /\
    r = [(lit "sample_id", PNum n); (lit "class_label", PStr s)].
(** MS COCO: the sample's number modulo three, whatever the sample. *)
Definition mscoco_record (n : Z) (payload : pval) (r : record) : Prop :=
  exists s, (n mod 3 = 0 /\ s = lit "0" \/ n mod 3 = 1 /\ s = lit "1" \/ n mod 3 = 2 /\ s = lit "2") /\
    r = [(lit "sample_id", PNum n); (lit "parity", PStr s)].

Definition slimpajama_sets : list str :=
  [lit "RedPajamaCommonCrawl"; lit "RedPajamaC4"; lit "RedPajamaWikipedia"; lit "RedPajamaStackExchange";
   lit "RedPajamaGithub"; lit "RedPajamaArXiv"; lit "RedPajamaBook"].
Definition pile_sets : list str :=
  [lit "Pile-CC"; lit "PubMed Central"; lit "Books3"; lit "OpenWebText2"; lit "ArXiv"; lit "Github"; lit "FreeLaw";
   lit "StackExchange"; lit "USPTO Backgrounds"; lit "PubMed Abstracts"; lit "Gutenberg (PG-19)"; lit "OpenSubtitles";
   lit "Wikipedia (en)"; lit "DM Mathematics"; lit "Ubuntu IRC"; lit "BookCorpus2"; lit "EuroParl"; lit "HackerNews";
   lit "YoutubeSubtitles"; lit "PhilPapers"; lit "NIH ExPorter"; lit "Enron Emails"].

(** What the parser registered under a name records about the [n]-th sample. *)
Definition documented (to_str : pval -> str) (name : str) (n : Z) (payload : pval) (r : record) : Prop :=
  (name = lit "RED_PAJAMA" /\ redpajama_record n payload r) \/
  (name = lit "SLIM_PAJAMA" /\ set_record (lit "redpajama_set_name") slimpajama_sets n payload r) \/
  (name = lit "IMAGENET_WEB_DATASET" /\ imagenet_record to_str n payload r) \/
  (name = lit "FINEWEB" /\ fineweb_record n payload r) \/
  (name = lit "MSCOCO" /\ mscoco_record n payload r) \/
  (name = lit "PILE" /\ set_record (lit "pile_set_name") pile_sets n payload r).
