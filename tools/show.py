import sys,ast,re
for f in sys.argv[1:]:
    src=open(f).read(); lines=src.split('\n')
    tree=ast.parse(src); skip=set()
    for n in ast.walk(tree):
        if isinstance(n,(ast.FunctionDef,ast.ClassDef,ast.Module)) and n.body and isinstance(n.body[0],ast.Expr) and isinstance(n.body[0].value,ast.Constant) and isinstance(n.body[0].value.value,str):
            skip.update(range(n.body[0].lineno,n.body[0].end_lineno+1))
    print('###',f)
    for i,l in enumerate(lines,1):
        if i in skip or not l.strip() or l.strip().startswith(('import ','from ')): continue
        print(i,l)
