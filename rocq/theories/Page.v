(** Model of cmd/server/demo.go:112-158 ServeHTTP and its two templates, cmd/server/asset/graph.html
    and demo.html, as html/template executes them: comments of the templates (HTML, and JavaScript in
    script elements) are left out, a string in a cell or a textarea is escaped, a template.HTML is
    copied. *)
From Verif Require Export Server.
Open Scope Z_scope.

(** html/template htmlReplacementTable, used for text and for textarea and title elements. *)
Definition html_escape_byte (b : byte) : bytes :=
  match b with
  | Byte.x00 => [Byte.xef; Byte.xbf; Byte.xbd]
  | Byte.x22 => s2b "&#34;"
  | Byte.x26 => s2b "&amp;"
  | Byte.x27 => s2b "&#39;"
  | Byte.x2b => s2b "&#43;"
  | Byte.x3c => s2b "&lt;"
  | Byte.x3e => s2b "&gt;"
  | _ => [b]
  end.
Definition html_escape (s : bytes) : bytes := concat (map html_escape_byte s).

Definition html_lines (l : list bytes) : bytes := concat (map (fun x => x ++ nl) l).

(** graph.html:1-47 *)
Definition graph_head : bytes :=
  html_lines [s2b "<!DOCTYPE html>";
  s2b "<html lang=""ja"">";
  s2b "<head>";
  s2b "  <style type=""text/css"">";
  s2b "      body {";
  s2b "          text-align: center;";
  s2b "      }";
  s2b "      div#center{";
  s2b "          width: 800px;";
  s2b "          margin: 0 auto;";
  s2b "          text-align: left;";
  s2b "      }";
  s2b "      .tbl{";
  s2b "          width: 100%;";
  s2b "          border-collapse: separate;";
  s2b "      }";
  s2b "      .tbl th{";
  s2b "          width: 20%;";
  s2b "          padding: 6px;";
  s2b "          text-align: left;";
  s2b "          vertical-align: top;";
  s2b "          color: #333;";
  s2b "          background-color: #eee;";
  s2b "          border: 1px solid #b9b9b9;";
  s2b "      }";
  s2b "      .tbl td{";
  s2b "          padding: 6px;";
  s2b "          background-color: #fff;";
  s2b "          border: 1px solid #b9b9b9;";
  s2b "      }";
  s2b "  </style>";
  s2b "  <meta charset=""UTF-8"">";
  s2b "  <title>Kagome demo - Japanese morphological analyzer</title>";
  s2b "  ";
  s2b "  ";
  s2b "</head>";
  s2b "<body>";
  s2b "<div id=""center"">";
  s2b "  <table class=""tbl"">"] ++ s2b "    <tr><th>Input</th><td>".
(** graph.html:48-60 *)
Definition graph_table : bytes :=
  html_lines [s2b "</td></tr>";
  s2b "  </table>";
  s2b "";
  s2b "  <table class=""tbl"">";
  s2b "    <thread><tr>";
  s2b "      <th>Surface</th>";
  s2b "      <th>Part-of-Speech</th>";
  s2b "      <th>Base Form</th>";
  s2b "      <th>Reading</th>";
  s2b "      <th>Pronunciation</th>";
  s2b "    </tr></thread>";
  s2b "    <tbody id=""morphs"">"] ++ s2b "    ".
(** graph.html:60-68: one turn of the range *)
Definition graph_row (r : record) : bytes :=
  html_lines [s2b "";
  s2b "    <tr>"] ++ s2b "      <td>" ++ html_escape (rc_surface r) ++
  html_lines [s2b "</td>"] ++ s2b "      <td>" ++ html_escape (rc_pos r) ++
  html_lines [s2b "</td>"] ++ s2b "      <td>" ++ html_escape (rc_base r) ++
  html_lines [s2b "</td>"] ++ s2b "      <td>" ++ html_escape (rc_reading r) ++
  html_lines [s2b "</td>"] ++ s2b "      <td>" ++ html_escape (rc_pron r) ++
  html_lines [s2b "</td>";
  s2b "    </tr>"] ++ s2b "    ".
(** graph.html:68-71 *)
Definition graph_middle : bytes :=
  html_lines [s2b "";
  s2b "    </tbody>";
  s2b "  </table>";
  s2b "  <div id=""graph"">"] ++ s2b "    ".
(** graph.html:71-80: {{if .CmdErr}} and {{if .GraphSVG}} *)
Definition graph_error (err : bytes) : bytes :=
  if bytes_eqb err [] then [] else html_lines [s2b ""] ++ s2b "    <strong>" ++ html_escape err ++ html_lines [s2b "</strong>"] ++ s2b "    ".
Definition graph_svg (svg : bytes) : bytes :=
  if bytes_eqb svg [] then [] else html_lines [s2b ""] ++ s2b "    " ++ svg ++ html_lines [s2b ""] ++ s2b "    ".
Definition graph_tail : bytes :=
  html_lines [s2b "";
  s2b "  </div>";
  s2b "</div>";
  s2b "</body>";
  s2b "</html>"].
Definition graph_page (sen mode err svg : bytes) (rows : list record) : bytes :=
  graph_head ++ html_escape sen ++ html_lines [s2b "</td></tr>"] ++ s2b "    <tr><th>Mode</th><td>" ++ html_escape mode ++ graph_table ++
  concat (map graph_row rows) ++ graph_middle ++ graph_error err ++ html_lines [s2b ""] ++ s2b "    " ++ graph_svg svg ++ graph_tail.

(** demo.html:1-92 *)
Definition form_head : bytes :=
  html_lines [s2b "<!DOCTYPE html>";
  s2b "<html lang=""ja"">";
  s2b "<head>";
  s2b "  <style type=""text/css"">";
  s2b "      body {";
  s2b "          text-align: center;";
  s2b "      }";
  s2b "      div#center{";
  s2b "          width: 800px;";
  s2b "          margin: 0 auto;";
  s2b "          text-align: left;";
  s2b "      }";
  s2b "      .tbl{";
  s2b "          width: 100%;";
  s2b "          border-collapse: separate;";
  s2b "      }";
  s2b "      .tbl th{";
  s2b "          width: 20%;";
  s2b "          padding: 6px;";
  s2b "          text-align: left;";
  s2b "          vertical-align: top;";
  s2b "          color: #333;";
  s2b "          background-color: #eee;";
  s2b "          border: 1px solid #b9b9b9;";
  s2b "      }";
  s2b "      .tbl td{";
  s2b "          padding: 6px;";
  s2b "          background-color: #fff;";
  s2b "          border: 1px solid #b9b9b9;";
  s2b "      }";
  s2b "      .frm {";
  s2b "          min-height: 10px;";
  s2b "          padding: 0 10px 0;";
  s2b "          margin-bottom: 20px;";
  s2b "          background-color: #f5f5f5;";
  s2b "          border: 1px solid #e3e3e3;";
  s2b "          -webkit-border-radius: 4px;";
  s2b "          -moz-border-radius: 4px;";
  s2b "          border-radius: 4px;";
  s2b "          -webkit-box-shadow: inset 0 1px 1px rgba(0,0,0,0.05);";
  s2b "          -moz-box-shadow: inset 0 1px 1px rgba(0,0,0,0.05);";
  s2b "          box-shadow: inset 0 1px 1px rgba(0,0,0,0.05);";
  s2b "      }";
  s2b "      .txar {";
  s2b "          border:10px;";
  s2b "          padding:10px;";
  s2b "          font-size:1.1em;";
  s2b "          font-family:Arial, sans-serif;";
  s2b "          border:solid 1px #ccc;";
  s2b "          margin:0;";
  s2b "          width:80%;";
  s2b "          -webkit-border-radius: 3px;";
  s2b "          -moz-border-radius: 3px;";
  s2b "          border-radius: 3px;";
  s2b "          -moz-box-shadow: inset 0 0 4px rgba(0,0,0,0.2);";
  s2b "          -webkit-box-shadow: inset 0 0 4px rgba(0, 0, 0, 0.2);";
  s2b "          box-shadow: inset 0 0 4px rgba(0, 0, 0, 0.2);";
  s2b "      }";
  s2b "      .btn {";
  s2b "          background: -moz-linear-gradient(top,#FFF 0%,#EEE);";
  s2b "          background: -webkit-gradient(linear, left top, left bottom, from(#FFF), to(#EEE));";
  s2b "          border: 1px solid #DDD;";
  s2b "          border-radius: 3px;";
  s2b "          color:#111;";
  s2b "          width: 100px;";
  s2b "          padding: 5px 0;";
  s2b "          margin: 0;";
  s2b "      }";
  s2b "      #box {";
  s2b "          width:100%;";
  s2b "          margin:10px;";
  s2b "          height:auto;";
  s2b "      }";
  s2b "      #rbox {";
  s2b "          width:15%;";
  s2b "          float:right;";
  s2b "      }";
  s2b "  </style>";
  s2b "  <meta charset=""UTF-8"">";
  s2b "  <title>Kagome demo - Japanese morphological analyzer</title>";
  s2b "  ";
  s2b "  ";
  s2b "  <script type=""text/javascript"" src=""https://ajax.googleapis.com/ajax/libs/jquery/1.6.0/jquery.min.js""></script>";
  s2b "</head>";
  s2b "<body>";
  s2b "<div id=""center"">";
  s2b "  <h1>Kagome demo</h1>";
  s2b "  <form class=""frm"" action=""/_demo"" method=""POST"" oninput=""tokenize()"" target=""_blank"">";
  s2b "    <div id=""box"">";
  s2b "    <textarea id=""inp"" class=""txar"" rows=""3"" name=""s"""] ++ s2b "              placeholder=""Enter Japanese text below."">".
(** demo.html:92-95 *)
Definition form_normal : bytes :=
  html_lines [s2b "</textarea>";
  s2b "      <div id=""rbox"">";
  s2b "        <div><label><input type=""radio"" name=""r"" value=""Normal"" checked>Normal</label></div>"] ++ s2b "        <div><label><input type=""radio"" name=""r"" value=""Search"" ".
(** demo.html:95-96 *)
Definition form_search : bytes :=
  html_lines [s2b ">Search</label></div>"] ++ s2b "        <div><label><input type=""radio"" name=""r"" value=""Extended"" ".
(** demo.html:96-156 *)
Definition form_tail : bytes :=
  html_lines [s2b ">Extended</label></div>";
  s2b "      </div>";
  s2b "      <p><input class=""btn"" type=""submit"" name=""lattice"" value=""Lattice""/></p>";
  s2b "    </div>";
  s2b "  </form>";
  s2b "";
  s2b "  <table class=""tbl"">";
  s2b "    <thread><tr>";
  s2b "      <th>Surface</th>";
  s2b "      <th>Part-of-Speech</th>";
  s2b "      <th>Base Form</th>";
  s2b "      <th>Reading</th>";
  s2b "      <th>Pronunciation</th>";
  s2b "    </tr></thread>";
  s2b "    <tbody id=""morphs"">";
  s2b "    </tbody>";
  s2b "  </table>";
  s2b "</div>";
  s2b "";
  s2b "<script>";
  s2b "    function cb(data, status) {";
  s2b "        ";
  s2b "        ";
  s2b "        if(status == ""success"" && Array.isArray(data.tokens)){";
  s2b "            $(""#morphs"").empty();";
  s2b "            $.each(data.tokens, function(i, val) {";
  s2b "                pos = (val.pos == null) ? ""*"" : val.pos;";
  s2b "                base = val.base_form != """" ? val.base_form : ""*"";";
  s2b "                reading = val.reading != """" ? val.reading : ""*"";";
  s2b "                pronoun = val.pronunciation!= """" ? val.pronunciation : ""*"";";
  s2b "                $(""#morphs"").append(";
  s2b "                    ""<tr>""+""<td>"" + val.surface + ""</td>"" +";
  s2b "                    ""<td>"" + pos + ""</td>""+";
  s2b "                    ""<td>"" + base + ""</td>""+";
  s2b "                    ""<td>"" + reading + ""</td>""+";
  s2b "                    ""<td>"" + pronoun + ""</td>""+";
  s2b "                    ""</tr>""";
  s2b "                );";
  s2b "            });";
  s2b "        }";
  s2b "    }";
  s2b "";
  s2b "    function tokenize() {";
  s2b "        var s = document.getElementById(""inp"").value;";
  s2b "        var m = $('input[name=""r""]').filter(':checked').val();";
  s2b "        var o = {""sentence"" : s, ""mode"" : m};";
  s2b "        $.post('./tokenize', JSON.stringify(o), cb, 'json');";
  s2b "    }";
  s2b "";
  s2b "    $('input[name=""r""]:radio').change( function() {";
  s2b "        var s = document.getElementById(""inp"").value;";
  s2b "        var m = $('input[name=""r""]').filter(':checked').val();";
  s2b "        var o = {""sentence"" : s, ""mode"" : m};";
  s2b "        $.post('./a', JSON.stringify(o), cb, 'json');";
  s2b "    })";
  s2b "</script>";
  s2b "";
  s2b "</body>";
  s2b "</html>"].
Definition checked_if (a b : bytes) : bytes := if bytes_eqb a b then s2b "checked" else [].
Definition form_page (sen radio : bytes) : bytes :=
  form_head ++ html_escape sen ++ form_normal ++ checked_if radio (s2b "search") ++ form_search ++
  checked_if radio (s2b "extended") ++ form_tail.

(** What becomes of dot, demo.go:81-105: whether it is found, the error of Start, and for the text
    it is sent the error of Wait or what it has printed.  An error is its text and whether it is a
    deadline (errors.Is with context.DeadlineExceeded). *)
Record failure := Failure { fl_text : bytes; fl_deadline : bool }.
Record graphviz := Graphviz { gv_found : bool; gv_start : option failure; gv_run : bytes -> failure + bytes }.
(** demo.go:80-110 analyzeGraph; closing an io.Pipe never fails. *)
Definition analyze_with (gv : graphviz) (addr : coord -> bytes) (ideo : ideographic) (t : tokenizer) (sen : bytes) (mode : Z)
    : res (failure + list record * bytes) :=
  if gv_found gv then
    match gv_start gv with
    | Some e => Ok (inl (Failure (s2b "process done with error, " ++ fl_text e) (fl_deadline e)))
    | None =>
      let* g := graph_text addr ideo t sen mode in
      let* ts := analyze_graph ideo t sen mode in
      match gv_run gv g with
      | inl e => Ok (inl (Failure (s2b "process done with error, " ++ fl_text e) (fl_deadline e)))
      | inr out =>
        let* rows := to_records ts in
        Ok (inr (rows, svg_part out))
      end
    end
  else Ok (inl (Failure (s2b "circo/graphviz is not installed in your $PATH") false)).
(** demo.go:112-158 ServeHTTP: the body of the answer for the form values s, r and lattice. *)
Definition serve_root (gv : graphviz) (addr : coord -> bytes) (ideo : ideographic) (t : tokenizer) (sen mode lattice : bytes)
    : res bytes :=
  if bytes_eqb lattice [] then Ok (form_page sen mode)
  else
    let* r := analyze_with gv addr ideo t sen (demo_mode mode) in
    match r with
    | inl e => Ok (graph_page sen mode (s2b "Error: " ++ (if fl_deadline e then s2b "graphviz time out" else fl_text e)) [] [])
    | inr (rows, svg) => Ok (graph_page sen mode [] svg rows)
    end.
