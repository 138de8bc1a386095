(** * The tests of v2/xtemplate_test.go, replayed on the model (see TestsCache.v and TestsDataset.v).
    The files are those of v2/testunit, byte for byte. *)
From Coq Require Import SpecFloat.
From Verif Require Import GoBase GoStrings LangModel DatasetModel Regex TemplateModel TestsDataset.
Local Open Scope Z_scope.

(** NewXTemplateFromString and Execute on the dataset 1. *)
Definition render (langs : nat -> option lang) (template : bytes) (h : heap) (data : option loc) : option (outcome bytes) :=
  match new_template ∅ template with
  | (th, Some t) => Some ('(h', s) <-! execute go1 order1 langs th 40 h t data; Ok s)
  | (_, None) => None
  end.
Definition no_langs (_ : nat) : option lang := None.
Notation data := (Some 1%positive).

(** v2/testunit/a.template, b.template, c.template. *)
Definition a_template : bytes := B "
%-- This is a comment. It will not appear in the final code. This files is LF coded, not CRLF, as the string in test (unix end of line) --%
Let's put your name here: {{clientname}}<br />
And lets put your hobbies here:<br />
%-- note the 1rst id is the entry into the data to inject and the second one is the name of the sub-template to use --%
@@hobbies:hobby@@
%-- And you need the template for each hobby:--%
[[hobby]]
I love {{name}}<br />
[[]]
".
Definition b_template : bytes := B "&&header&&
&&body&&

[[header]]
Sports shop:
[[]]

[[body]]
{{clientname}} Preferred hobby:
&&:preferredhobby>sport:sport.&&  %-- will build sport_ + [yes/no] contained into the sport field. Be sure you have a template for each value ! --%

??preferredhobby>sport:sport??

[[sport.yes]]{{preferredhobby>name}} - It's a sport, sell him things![[]]
[[sport.no]]{{preferredhobby>name}} - It's not a sport, recommend him next store.[[]]
[[sport]]{{preferredhobby>name}} - We do not know that it is.[[]]

@@hobbies:hobby@@
[[hobby.first]]
1. -{{.counter}}- {{name}} {{sport}}
[[]]
[[hobby.last]]
last. -{{.counter}}- {{name}} {{sport}}
[[]]
[[hobby.even]]
2x. -{{.counter}}- {{name}} {{sport}}
[[]]
[[hobby.key.3]]
3. -{{.counter}}- {{name}} {{sport}}
[[]]
[[hobby]]
-{{.counter}}- {{name}} {{sport}}
[[]]
[[hobby.none]]
No hobbies
[[]]
[[]]
".
Definition c_template : bytes := B "[[a]]A[[]]
[[b]]B[[]]
[[c]]C[[]]
&&a&&&&b&&&&c&&
[[d]]D&&a&&[[]]
&&d&&
[[e]]E&&a&&&&f&&
[[f]]F[[]]
[[]]
&&e&&&&f&&
".

Definition fred : heap := list_to_map
  [ (1%positive, D [(B "clientname", S1 "Fred"); (B "hobbies", VRef 2)]);
    (2%positive, OColl [Some 3%positive; Some 4%positive; Some 5%positive; Some 6%positive]);
    (3%positive, D [(B "name", S1 "Football")]); (4%positive, D [(B "name", S1 "Ping-pong")]);
    (5%positive, D [(B "name", S1 "Swimming")]); (6%positive, D [(B "name", S1 "Videogames")]) ].
Definition fred_text : bytes := B "
Let's put your name here: Fred<br />
And lets put your hobbies here:<br />
I love Football<br />
I love Ping-pong<br />
I love Swimming<br />
I love Videogames<br />

".
(** TestNewXTemplateFromString (the template and the data of ExampleNewXTemplateFromString, lines 11-42), lines 121-158. *)
Definition hobbies_template : bytes := B "
%-- This is a comment. It will not appear in the final code. --%
Let's put your name here: {{clientname}}<br />
And lets put your hobbies here:<br />
%-- note the 1rst id is the entry into the data to inject and the second one is the name of the sub-template to use --%
@@hobbies:hobby@@
%-- And you need the template for each hobby:--%
[[hobby]]
I love {{name}}<br />
[[]]
".
Example TestNewXTemplateFromString : render no_langs hobbies_template fred data = Some (Ok fred_text).
Proof. vm_compute. reflexivity. Qed.
(** TestNewXTemplateFromFile, lines 160-188. *)
Example TestNewXTemplateFromFile : render no_langs a_template fred data = Some (Ok fred_text).
Proof. vm_compute. reflexivity. Qed.
(** TestNewXTemplateEmptyLoop, lines 44-71; the expected text is the comment of the test. *)
Example TestNewXTemplateEmptyLoop :
  render no_langs (B "
%-- This is a comment. It will not appear in the final code. --%
Let's put your name here: {{clientname}}<br />
And lets put your hobbies here:<br />
%-- note the 1rst id is the entry into the data to inject and the second one is the name of the sub-template to use --%
@@hobbies@@
%-- And you need the template for each hobby:--%
[[hobbies]]
I love {{name}}<br />
[[]]
[[hobbies.none]]
I love nothing<br />
[[]]
")
    (list_to_map [(1%positive, D [(B "clientname", S1 "Fred"); (B "hobbies", VRef 2)]); (2%positive, OColl [])]) data =
  Some (Ok (B "
Let's put your name here: Fred<br />
And lets put your hobbies here:<br />
I love nothing<br />

")).
Proof. vm_compute. reflexivity. Qed.
(** TestNewXTemplateEmptyCondition, lines 73-92. *)
Example TestNewXTemplateEmptyCondition :
  render no_langs (B "
TAGADA
??familyname??
[[familyname]]
Hello {{familyname}}<br />
[[]]
[[familyname.none]]
I don't know you<br />
[[]]
") {[ 1%positive := D [(B "clientname", S1 "Fred")] ]} data =
  Some (Ok (B "
TAGADA
I don't know you<br />

")).
Proof. vm_compute. reflexivity. Qed.
(** TestXTemplateErrors, lines 190-197. *)
Example TestXTemplateErrors : (new_template ∅ (B "template [[subtemplate]]")).2 = None.
Proof. vm_compute. reflexivity. Qed.
(** TestXTemplateComments, lines 199-211: the same text as that of "abcdefg", without data. *)
Example TestXTemplateComments :
  render no_langs (B "abcdefg") ∅ None = Some (Ok (B "abcdefg")) /\
  render no_langs (B "a%--comment1--%b%--comment 2
[[]]
[[subtemplate]]
		--%c%--comment3 --%
defg%-- ending @@subtemplate@@ comment --%
") ∅ None = Some (Ok (B "abcdefg")).
Proof. vm_compute. auto. Qed.
(** TestXTemplateLanguageParam, lines 213-225. *)
Example TestXTemplateLanguageParam :
  render (fun _ => new_from_string (B "some=a tiny table" ++ [lf] ++ B "languages=of english language" ++ [lf]))
    (B "Test with ##some## ##languages## here") {[ 1%positive := D [(B "#", VOther 0)] ]} data =
  Some (Ok (B "Test with a tiny table of english language here")).
Proof. vm_compute. reflexivity. Qed.
(** TestXTemplateCall, lines 227-241. *)
Example TestXTemplateCall :
  render no_langs c_template {[ 1%positive := D [] ]} data =
  Some (Ok (B "ABC" ++ [lf] ++ B "DA" ++ [lf] ++ B "EAF" ++ [lf; lf])).
Proof. vm_compute. reflexivity. Qed.
(** TestXTemplateSimple and TestXTemplateClone, lines 243-329: not empty, and the clone gives the same text. *)
Definition shop : heap :=
  let hobby (a b : bytes) := D [(B "name", VStr a); (B "sport", VStr b)] in list_to_map
  [ (1%positive, D [(B "clientname", S1 "Fred"); (B "clientpicture", S1 "face.jpg"); (B "hobbies", VRef 2); (B "preferredhobby", VRef 12);
                    (B "metadata", VRef 13); (B "#", VOther 0)]);
    (2%positive, OColl (map Some [3; 4; 5; 6; 7; 8; 9; 10; 11]%positive));
    (3%positive, hobby (B "Football") (B "yes")); (4%positive, hobby (B "Ping-pong") (B "yes")); (5%positive, hobby (B "Swimming") (B "yes"));
    (6%positive, hobby (B "Videogames") (B "no")); (7%positive, hobby (B "other 1") (B "no")); (8%positive, hobby (B "other 2") (B "no"));
    (9%positive, hobby (B "other 3") (B "yes")); (10%positive, hobby (B "other 4") (B "no"));
    (11%positive, D [(B "name", S1 "other 5"); (B "sport", VNil)]);
    (12%positive, D [(B "name", S1 "Baseball"); (B "sport", S1 "yes")]);
    (13%positive, D [(B "preferred-color", S1 "blue"); (B "Salary", VFloat64 f3568); (B "hiredate", VTime tmp)]) ].
Example TestXTemplateClone :
  let langs _ := Some (lset (new_lang (B "mainpage") (B "en")) (B "welcome") (B "Welcome to you")) in
  match new_template ∅ b_template with
  | (th, Some t) =>
      ('(th', c) <-! tclone (fun _ m => map_to_list m) 40 th t;
       '(h1, str1) <-! execute go1 order1 langs th' 40 shop t data;
       '(h2, str2) <-! execute go1 order1 langs th' 40 h1 c data;
       Ok (bool_decide (str1 = str2), bool_decide (str1 = []))) = Ok (true, false)
  | _ => False
  end.
Proof. vm_compute. reflexivity. Qed.
