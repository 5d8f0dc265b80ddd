(** packages/wasm/README.md, which the repository keeps formatted
    (.hongdown.toml, mise.toml): the model leaves it as it is.  The same was
    seen, outside the build, for README.md, STYLE.md and CHANGES.md. *)
From Coq Require Import Bool Arith NArith String List.
From Verif Require Import Base OptsModel CodeModel TableModel AstModel StateModel SerModel NounsData TestsBase.
Import ListNotations.
Definition repository_options : Options := with_heading_sentence_case true (with_heading_proper_nouns [u "Hong Minhee"; u "mise"] default_options).
Definition readme : str := u "@hongdown/wasm" ++ [c_nl] ++ u "==============" ++ [c_nl] ++ [c_nl] ++ u "A WebAssembly-based Markdown formatter library that enforces" ++ [c_nl] ++ u "[Hong Minhee's Markdown style conventions]." ++ [c_nl] ++ [c_nl] ++ u "This package provides the same formatting as the [Hongdown CLI], but as a" ++ [c_nl] ++ u "JavaScript/TypeScript library that works in Node.js, Bun, Deno, and web" ++ [c_nl] ++ u "browsers." ++ [c_nl] ++ [c_nl] ++ u "[Hong Minhee's Markdown style conventions]: https://github.com/dahlia/hongdown/blob/main/STYLE.md" ++ [c_nl] ++ u "[Hongdown CLI]: https://www.npmjs.com/package/hongdown" ++ [c_nl] ++ [c_nl] ++ [c_nl] ++ u "Installation" ++ [c_nl] ++ u "------------" ++ [c_nl] ++ [c_nl] ++ u "~~~~ bash" ++ [c_nl] ++ u "npm install @hongdown/wasm" ++ [c_nl] ++ u "~~~~" ++ [c_nl] ++ [c_nl] ++ [c_nl] ++ u "Usage" ++ [c_nl] ++ u "-----" ++ [c_nl] ++ [c_nl] ++ u "~~~~ typescript" ++ [c_nl] ++ u "import { format, formatWithWarnings } from ""@hongdown/wasm"";" ++ [c_nl] ++ [c_nl] ++ u "// Basic usage" ++ [c_nl] ++ u "const markdown = ""# Hello\nWorld"";" ++ [c_nl] ++ u "const formatted = await format(markdown);" ++ [c_nl] ++ [c_nl] ++ u "// With options" ++ [c_nl] ++ u "const result = await format(markdown, {" ++ [c_nl] ++ u "  lineWidth: 100," ++ [c_nl] ++ u "  setextH1: false," ++ [c_nl] ++ u "  fenceChar: ""`""," ++ [c_nl] ++ u "});" ++ [c_nl] ++ [c_nl] ++ u "// Get warnings along with formatted output" ++ [c_nl] ++ u "const { output, warnings } = await formatWithWarnings(markdown);" ++ [c_nl] ++ u "if (warnings.length > 0) {" ++ [c_nl] ++ u "  for (const warning of warnings) {" ++ [c_nl] ++ u "    console.warn(`Line ${warning.line}: ${warning.message}`);" ++ [c_nl] ++ u "  }" ++ [c_nl] ++ u "}" ++ [c_nl] ++ u "~~~~" ++ [c_nl] ++ [c_nl] ++ [c_nl] ++ u "Options" ++ [c_nl] ++ u "-------" ++ [c_nl] ++ [c_nl] ++ u "All options are optional.  See the [TypeScript type definitions] for the" ++ [c_nl] ++ u "complete list of available options." ++ [c_nl] ++ [c_nl] ++ u "[TypeScript type definitions]: https://github.com/dahlia/hongdown/blob/main/packages/wasm/src/types.ts" ++ [c_nl] ++ [c_nl] ++ [c_nl] ++ u "License" ++ [c_nl] ++ u "-------" ++ [c_nl] ++ [c_nl] ++ u "Distributed under the [GPL-3.0-or-later]." ++ [c_nl] ++ [c_nl] ++ u "[GPL-3.0-or-later]: https://www.gnu.org/licenses/gpl-3.0.html" ++ [c_nl].
Definition readme_tree : node :=
 nd (NDocument) 1 1 64 61
 [nd (NHeading 1) 1 1 2 14
  [nd (NText (u "@hongdown/wasm")) 1 1 1 14 []];
 nd (NParagraph) 4 1 5 43
  [nd (NText (u "A WebAssembly-based Markdown formatter library that enforces")) 4 1 4 60 []; nd (NSoftBreak) 4 61 4 61 []; nd (NLink (u "https://github.com/dahlia/hongdown/blob/main/STYLE.md") ([])) 5 1 5 42
   [nd (NText (u "Hong Minhee's Markdown style conventions")) 5 2 5 41 []]; nd (NText (u ".")) 5 43 5 43 []];
 nd (NParagraph) 7 1 9 9
  [nd (NText (u "This package provides the same formatting as the ")) 7 1 7 49 []; nd (NLink (u "https://www.npmjs.com/package/hongdown") ([])) 7 50 7 63
   [nd (NText (u "Hongdown CLI")) 7 51 7 62 []]; nd (NText (u ", but as a")) 7 64 7 73 []; nd (NSoftBreak) 7 74 7 74 []; nd (NText (u "JavaScript/TypeScript library that works in Node.js, Bun, Deno, and web")) 8 1 8 71 []; nd (NSoftBreak) 8 72 8 72 []; nd (NText (u "browsers.")) 9 1 9 9 []];
 nd (NHeading 2) 15 1 16 12
  [nd (NText (u "Installation")) 15 1 15 12 []];
 nd (NCodeBlock (u "bash") (u "npm install @hongdown/wasm" ++ [c_nl])) 18 1 20 4 [];
 nd (NHeading 2) 23 1 24 5
  [nd (NText (u "Usage")) 23 1 23 5 []];
 nd (NCodeBlock (u "typescript") (u "import { format, formatWithWarnings } from ""@hongdown/wasm"";" ++ [c_nl] ++ [c_nl] ++ u "// Basic usage" ++ [c_nl] ++ u "const markdown = ""# Hello\nWorld"";" ++ [c_nl] ++ u "const formatted = await format(markdown);" ++ [c_nl] ++ [c_nl] ++ u "// With options" ++ [c_nl] ++ u "const result = await format(markdown, {" ++ [c_nl] ++ u "  lineWidth: 100," ++ [c_nl] ++ u "  setextH1: false," ++ [c_nl] ++ u "  fenceChar: ""`""," ++ [c_nl] ++ u "});" ++ [c_nl] ++ [c_nl] ++ u "// Get warnings along with formatted output" ++ [c_nl] ++ u "const { output, warnings } = await formatWithWarnings(markdown);" ++ [c_nl] ++ u "if (warnings.length > 0) {" ++ [c_nl] ++ u "  for (const warning of warnings) {" ++ [c_nl] ++ u "    console.warn(`Line ${warning.line}: ${warning.message}`);" ++ [c_nl] ++ u "  }" ++ [c_nl] ++ u "}" ++ [c_nl])) 26 1 47 4 [];
 nd (NHeading 2) 50 1 51 7
  [nd (NText (u "Options")) 50 1 50 7 []];
 nd (NParagraph) 53 1 54 35
  [nd (NText (u "All options are optional.  See the ")) 53 1 53 35 []; nd (NLink (u "https://github.com/dahlia/hongdown/blob/main/packages/wasm/src/types.ts") ([])) 53 36 53 64
   [nd (NText (u "TypeScript type definitions")) 53 37 53 63 []]; nd (NText (u " for the")) 53 65 53 72 []; nd (NSoftBreak) 53 73 53 73 []; nd (NText (u "complete list of available options.")) 54 1 54 35 []];
 nd (NHeading 2) 59 1 60 7
  [nd (NText (u "License")) 59 1 59 7 []];
 nd (NParagraph) 62 1 62 41
  [nd (NText (u "Distributed under the ")) 62 1 62 22 []; nd (NLink (u "https://www.gnu.org/licenses/gpl-3.0.html") ([])) 62 23 62 40
   [nd (NText (u "GPL-3.0-or-later")) 62 24 62 39 []]; nd (NText (u ".")) 62 41 62 41 []]].
Example readme_unchanged : run_source readme repository_options readme_tree [Is readme; Warned 0] = true.
Proof. vm_compute. reflexivity. Qed.
