(** Links.v -- model of src/url.rs, src/data/page_ref.rs, src/settings/interwiki.rs and
    src/tree/link.rs. *)
From Verif Require Import Base.

(** *** src/url.rs *)
(** URL_SCHEMES, src/url.rs:29-49. *)
Definition URL_SCHEMES : list str :=
  map lit ["blob:"; "chrome-extension://"; "chrome://"; "content://"; "dns:"; "feed:"; "file://";
           "ftp://"; "git://"; "gopher://"; "http://"; "https://"; "irc6://"; "irc://"; "ircs://";
           "mailto:"; "resource://"; "rtmp://"; "sftp://"]%string.
(** is_url, src/url.rs:51-60. *)
Definition is_url (url : str) : bool := existsb (fun scheme => starts_with scheme url) URL_SCHEMES.

(** SCHEME_REGEX.is_match, src/url.rs:69: [^[\w\-]+$].  [word] is the regex crate's [\w] (Unicode
    word characters), a parameter of the model. *)
Definition scheme_regex (word : char -> bool) (s : str) : bool :=
  match s with [] => false | _ => forallb (fun c => word c || ceqb c 45) s end.
(** dangerous_scheme, src/url.rs:68-84. *)
Definition dangerous_scheme (word : char -> bool) (url : str) : bool :=
  match split_once 58 url with
  | Some (scheme, _) =>
      if negb (scheme_regex word scheme) then true
      else eq_nocase scheme (lit "javascript") || eq_nocase scheme (lit "data")
  | None => false
  end.
(** normalize_href, src/url.rs:104-125.  [normalize] is wikidot_normalize::normalize, a parameter.
    [None] is an index panic. *)
Definition normalize_href (word : char -> bool) (normalize : str -> str) (url : str) : option str :=
  if is_url url || starts_with [35%N] url || seqb url (lit "javascript:;") then Some url
  else if dangerous_scheme word url then Some (lit "#invalid-url")
  else
    let split_anchor := splitn2 35 url in
    match nth_error split_anchor 0 with
    | None => None
    | Some before =>
        let split_url := split_char 47 before in
        match split_url with
        | [] => None
        | first :: _ =>
            let first_empty := match first with [] => true | _ => false end in
            let split_url :=
              if negb first_empty || (first_empty && Nat.eqb (length split_url) 1)
              then [] :: split_url else split_url in
            match split_url with
            | f :: second :: rest =>
                let url := join [47%N] (f :: normalize second :: rest) in
                match split_anchor with
                | [_; anchor] => Some (url ++ [35%N] ++ anchor)
                | _ => Some url
                end
            | _ => None
            end
        end
    end.

(** *** src/data/page_ref.rs *)
(** PageRef, src/data/page_ref.rs:28-32. *)
Record page_ref : Type := PR { pr_site : option str; pr_page : str }.
(** Result of a function that may fail or panic. *)
Inductive outcome (A : Type) : Type := Good (x : A) | Bad | Panic.
Arguments Good {A}. Arguments Bad {A}. Arguments Panic {A}.
(** PageRef::parse, src/data/page_ref.rs:88-122. *)
Definition pr_parse (s : str) : outcome page_ref :=
  let s := trim s in
  match s with
  | [] => Bad
  | _ =>
      match find_char 58 s with
      | Some 0 =>
          match bfrom s 1 with
          | None => Panic
          | Some s1 =>
              match find_char 58 s1 with
              | Some 0 | None => Bad
              | Some i =>
                  let idx := i + 1 in
                  match bslice s 1 idx, bfrom s (idx + 1) with
                  | Some site, Some page => Good (PR (Some (trim site)) (trim page))
                  | _, _ => Panic
                  end
              end
          end
      | Some _ => Good (PR None s)
      | None => Good (PR None s)
      end
  end.
(** Display for PageRef, src/data/page_ref.rs:138-146. *)
Definition pr_display (r : page_ref) : str :=
  match pr_site r with
  | Some site => [58%N] ++ site ++ [58%N] ++ pr_page r
  | None => pr_page r
  end.
(** fields_or, src/data/page_ref.rs:84-86. *)
Definition pr_fields_or (r : page_ref) (current_site : str) : str * str :=
  (match pr_site r with Some s => s | None => current_site end, pr_page r).

(** *** src/settings/interwiki.rs *)
(** The space loop of InterwikiSettings::build, src/settings/interwiki.rs:104-106; [Panic] also
    stands for fuel exhausted (never happens, see the theorems). *)
Fixpoint space_loop (fuel : nat) (url : str) : outcome str :=
  match fuel with
  | 0 => Panic
  | S f => match find_char 32 url with
           | None => Good url
           | Some idx => match replace_range url idx (idx + 1) (lit "%20") with
                         | Some url' => space_loop f url'
                         | None => Panic
                         end
           end
  end.
(** InterwikiSettings::build, src/settings/interwiki.rs:84-112; [get] is the prefix table. *)
Definition iw_build (get : str -> option str) (link : str) : outcome str :=
  match find_char 58 link with
  | Some 0 | None => Bad
  | Some idx =>
      match bsplit link idx with
      | None => Panic
      | Some (prefix, rest) =>
          match bfrom rest 1 with
          | None => Panic
          | Some path =>
              match path with
              | [] => Bad
              | _ => match get prefix with
                     | None => Bad
                     | Some template =>
                         let url := str_replace (lit "$$") path template in
                         space_loop (S (length url)) url
                     end
              end
          end
      end
  end.

(** *** src/tree/link.rs *)
Inductive link_location : Type := LPage (p : page_ref) | LUrl (u : str).
Inductive link_type : Type := LTDirect | LTPage | LTInterwiki | LTAnchor | LTTableOfContents.
(** LinkLocation::parse, src/tree/link.rs:60-88. *)
Definition link_parse (link : str) : outcome link_location :=
  if is_url link || starts_with [35%N] link || starts_with [47%N] link then Good (LUrl link)
  else
    match split_char 35 link with
    | [] => Panic
    | a :: _ =>
        match split_char 47 a with
        | [] => Panic
        | seg :: _ => match pr_parse seg with
                      | Bad => Good (LUrl seg)
                      | Good r => Good (LPage r)
                      | Panic => Panic
                      end
        end
    end.
(** LinkLocation::link_type, src/tree/link.rs:121-126. *)
Definition loc_type (l : link_location) : link_type :=
  match l with LPage _ => LTPage | LUrl _ => LTDirect end.
(** LinkLocation::parse_interwiki, src/tree/link.rs:39-58. *)
Definition link_parse_interwiki (get : str -> option str) (link : str) : outcome (link_location * link_type) :=
  match strip_prefix [33%N] link with
  | None => match link_parse link with
            | Good l => Good (l, loc_type l)
            | Bad => Bad
            | Panic => Panic
            end
  | Some l => match iw_build get l with
              | Good url => Good (LUrl url, LTInterwiki)
              | Bad => Bad
              | Panic => Panic
              end
  end.
(** LinkLocation::parse_extra, src/tree/link.rs:90-112; outer [None] is an index panic. *)
Definition link_parse_extra (link : str) : option (option str) :=
  if is_url link || starts_with [35%N] link || starts_with [47%N] link then Some None
  else
    match splitn2 35 link with
    | a0 :: arest =>
        match splitn2 47 a0 with
        | _ :: prest =>
            let path := join [47%N] ([] :: prest) in
            let path := join [35%N] (path :: arest) in
            match path with [] => Some None | _ => Some (Some path) end
        | [] => None
        end
    | [] => None
    end.
(** normalize_link, src/url.rs:87-102: [build_url] is the helper. *)
Definition normalize_link (word : char -> bool) (normalize : str -> str) (build_url : str -> str -> str)
  (l : link_location) : option str :=
  match l with
  | LUrl u => normalize_href word normalize u
  | LPage r => match pr_site r with
               | Some site => Some (build_url site (pr_page r))
               | None => normalize_href word normalize (pr_page r)
               end
  end.
