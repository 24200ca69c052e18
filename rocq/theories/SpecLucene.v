(** What the filter of ja.NewFilter() without options stops and replaces, written out.
    Independent of the loader and of the feature tree. *)
From Verif Require Export SpecFilter.

(** The stopped part-of-speech tags: the first four levels, "*" for an unspecified level. *)
Definition lucene_tags : list (list bytes) := map (map s2b)
  [["接続詞"; "*"; "*"; "*"]; ["助詞"; "*"; "*"; "*"]; ["助詞"; "格助詞"; "*"; "*"];
   ["助詞"; "格助詞"; "一般"; "*"]; ["助詞"; "格助詞"; "引用"; "*"]; ["助詞"; "格助詞"; "連語"; "*"];
   ["助詞"; "接続助詞"; "*"; "*"]; ["助詞"; "係助詞"; "*"; "*"]; ["助詞"; "副助詞"; "*"; "*"];
   ["助詞"; "間投助詞"; "*"; "*"]; ["助詞"; "並立助詞"; "*"; "*"]; ["助詞"; "終助詞"; "*"; "*"];
   ["助詞"; "副助詞／並立助詞／終助詞"; "*"; "*"]; ["助詞"; "連体化"; "*"; "*"]; ["助詞"; "副詞化"; "*"; "*"];
   ["助詞"; "特殊"; "*"; "*"]; ["助動詞"; "*"; "*"; "*"]; ["記号"; "*"; "*"; "*"];
   ["記号"; "一般"; "*"; "*"]; ["記号"; "読点"; "*"; "*"]; ["記号"; "句点"; "*"; "*"];
   ["記号"; "空白"; "*"; "*"]; ["記号"; "括弧開"; "*"; "*"]; ["記号"; "括弧閉"; "*"; "*"];
   ["その他"; "間投"; "*"; "*"]; ["フィラー"; "*"; "*"; "*"]; ["非言語音"; "*"; "*"; "*"]]%string.

(** The stopped surfaces. *)
Definition lucene_words : list bytes := map s2b
  ["の"; "に"; "は"; "を"; "た"; "が"; "で"; "て"; "と"; "し"; "れ"; "さ";
   "ある"; "いる"; "も"; "する"; "から"; "な"; "こと"; "として"; "い"; "や"; "れる"; "など";
   "なっ"; "ない"; "この"; "ため"; "その"; "あっ"; "よう"; "また"; "もの"; "という"; "あり"; "まで";
   "られ"; "なる"; "へ"; "か"; "だ"; "これ"; "によって"; "により"; "おり"; "より"; "による"; "ず";
   "なり"; "られる"; "において"; "ば"; "なかっ"; "なく"; "しかし"; "について"; "せ"; "だっ"; "その後"; "できる";
   "それ"; "う"; "ので"; "なお"; "のみ"; "でき"; "き"; "つ"; "における"; "および"; "いう"; "さらに";
   "でも"; "ら"; "たり"; "その他"; "に関する"; "たち"; "ます"; "ん"; "なら"; "に対して"; "特に"; "せる";
   "及び"; "これら"; "とき"; "では"; "にて"; "ほか"; "ながら"; "うち"; "そして"; "とともに"; "ただし"; "かつて";
   "それぞれ"; "または"; "お"; "ほど"; "ものの"; "に対する"; "ほとんど"; "と共に"; "といった"; "です"; "とも"; "ところ";
   "ここ"]%string.

(** The parts of speech replaced by their base form. *)
Definition lucene_base : list bytes := map s2b ["動詞"; "形容詞"; "形容動詞"]%string.

(** A token is stopped by its first four POS levels or by its surface. *)
Definition lucene_stops (pos : list bytes) (surface : bytes) : Prop :=
  In (firstn 4 pos) lucene_tags \/ In surface lucene_words.

(** The words the filter yields for one token. *)
Inductive lucene_yields (pos : list bytes) (surface : bytes) : option bytes -> list bytes -> Prop :=
| ly_stopped b : lucene_stops pos surface -> lucene_yields pos surface b []
| ly_base b h rest : ~ lucene_stops pos surface -> pos = h :: rest -> In h lucene_base -> lucene_yields pos surface (Some b) [b]
| ly_no_base h rest : ~ lucene_stops pos surface -> pos = h :: rest -> In h lucene_base -> lucene_yields pos surface None []
| ly_surface b : ~ lucene_stops pos surface -> (forall h rest, pos = h :: rest -> ~ In h lucene_base) -> lucene_yields pos surface b [surface].
